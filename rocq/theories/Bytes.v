(** Bytes and byte strings.

    A C++ [char] is modelled by [ascii] (8 bits), a [std::string] by [list ascii].  No simplification: every byte
    value, including NUL and values >= 0x80, is representable. *)
From Coq Require Export String Ascii ZArith NArith Bool Arith Lia.
From Coq Require Export List.
Export ListNotations.
Open Scope list_scope.

Notation byte := ascii (only parsing).
Definition str := list ascii.

(** A C++ string literal. *)
Definition lit (s : string) : str := list_ascii_of_string s.
Notation "$ s" := (lit s) (at level 1, s at level 0, format "$ s").

(** [operator==] on [char]. *)
Definition ceq (a b : ascii) : bool := Ascii.eqb a b.

(** [operator==] on [std::string]. *)
Fixpoint seq_eqb (a b : str) : bool :=
  match a, b with
  | [], [] => true
  | x :: a', y :: b' => ceq x y && seq_eqb a' b'
  | _, _ => false
  end.

(** The numeric value of a byte seen as [unsigned char]. *)
Definition uchar (c : ascii) : N := N_of_ascii c.

(** The numeric value of a byte seen as (signed, x86-64) [char]. *)
Definition schar (c : ascii) : Z :=
  let n := Z.of_N (N_of_ascii c) in if (n <? 128)%Z then n else (n - 256)%Z.

(** Character constants used by the program. *)
Definition c_quote : ascii := """"%char.   (* double quote *)
Definition c_apos : ascii := "'"%char.
Definition c_bslash : ascii := "\"%char.
Definition c_colon : ascii := ":"%char.
Definition c_qmark : ascii := "?"%char.
Definition c_semi : ascii := ";"%char.
Definition c_comma : ascii := ","%char.
Definition c_plus : ascii := "+"%char.
Definition c_minus : ascii := "-"%char.
Definition c_dot : ascii := "."%char.
Definition c_us : ascii := "_"%char.
Definition c_e : ascii := "e"%char.
Definition c_nl : ascii := "010"%char.

(** [std::string(1, c)] *)
Definition s1 (c : ascii) : str := [c].

(** [std::string::substr(pos, n)] for [pos <= size()] (callers that cannot guarantee it use the checked version of
    [Containers.v]). *)
Definition substr (s : str) (pos n : nat) : str := firstn n (skipn pos s).
(** [std::string::substr(pos)] *)
Definition substr_from (s : str) (pos : nat) : str := skipn pos s.
