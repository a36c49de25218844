(** Model of src/str_utils.cpp. *)
From Verif Require Import Bytes.

(** [isspace] of the "C" locale: src/str_utils.cpp:34,41,71 call it on a [char].  The six white-space characters are
    9..13 and 32.  For bytes >= 0x80 (negative [char]) ISO C leaves [isspace] undefined; glibc answers false, which is
    what is modelled. *)
Definition is_space (c : ascii) : bool :=
  let n := N_of_ascii c in ((9 <=? n) && (n <=? 13) || (n =? 32))%N.

(** src/str_utils.cpp:32-37 [ltrim]: the index loop that skips leading spaces, then [substr(i)]. *)
Fixpoint ltrim (s : str) : str :=
  match s with
  | [] => []
  | c :: r => if is_space c then ltrim r else s
  end.

(** src/str_utils.cpp:39-44 [rtrim]: the index loop that skips trailing spaces from the end, then [substr(0, i+1)];
    the backwards loop is the forwards loop on the reversed string. *)
Definition rtrim (s : str) : str := rev (ltrim (rev s)).

(** src/str_utils.cpp:46-48 *)
Definition trim (s : str) : str := rtrim (ltrim s).

(** src/str_utils.cpp:50-58 *)
Fixpoint escape (s : str) (c : ascii) : str :=
  match s with
  | [] => []
  | x :: r => (if ceq x c then [c_bslash] else []) ++ x :: escape r c
  end.

(** src/str_utils.cpp:60-68: position i is dropped when it is not the last one, holds a backslash and position i+1
    holds [c]. *)
Fixpoint unescape (s : str) (c : ascii) : str :=
  match s with
  | [] => []
  | x :: r =>
      match r with
      | y :: _ => if ceq x c_bslash && ceq y c then unescape r c else x :: unescape r c
      | [] => x :: unescape r c
      end
  end.

(** src/str_utils.cpp:74-76; the comparisons are on signed [char], all bounds are ASCII. *)
Definition is_alpha (c : ascii) : bool :=
  ((schar "a" <=? schar c) && (schar c <=? schar "z") || (schar "A" <=? schar c) && (schar c <=? schar "Z"))%Z.

(** src/str_utils.cpp:78-80 *)
Definition is_numeric (c : ascii) : bool := ((schar "0" <=? schar c) && (schar c <=? schar "9"))%Z.

(** src/str_utils.cpp:82-84 *)
Definition is_alphanumeric (c : ascii) : bool := is_alpha c || is_numeric c.

(** src/str_utils.cpp:86-93: size test, then character by character. *)
Fixpoint prefix_loop (s p : str) : bool :=
  match p, s with
  | [], _ => true
  | y :: p', x :: s' => ceq x y && prefix_loop s' p'
  | _ :: _, [] => false   (* not reached: size test done before *)
  end.
Definition starts_with (s prefix : str) : bool :=
  if (length s <? length prefix)%nat then false else prefix_loop s prefix.

(** src/str_utils.cpp:95-102: the same loop from the last characters backwards. *)
Definition ends_with (s suffix : str) : bool :=
  if (length s <? length suffix)%nat then false else prefix_loop (rev s) (rev suffix).

(** src/str_utils.cpp:104-112 *)
Fixpoint remove_spaces (s : str) : str :=
  match s with
  | [] => []
  | c :: r => if is_space c then remove_spaces r else c :: remove_spaces r
  end.
