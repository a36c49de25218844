(** Model of src/grammar.cpp (the recognisers; the documented rules are in src/grammar.h:33-64). *)
From Verif Require Import Bytes StrUtils.

(** [str[i]] for [i <= size()]: C++11 gives NUL at [i = size()]. All uses below are at [i < size()]. *)
Definition at_ (s : str) (i : nat) : ascii := nth i s zero.

(** src/grammar.cpp:29-43 *)
Definition RESERVED_WORDS : list str :=
  [$"null"; $"true"; $"false"; $"Connection"; $"Context"; $"Boolean"; $"Character"; $"Integer"; $"Float"; $"String";
   $"Vector"; $"Set"; $"Dictionary"].

(** src/grammar.cpp:45-47 *)
Definition is_spaces (s : str) : bool := (length (ltrim s) =? 0)%nat.
(** src/grammar.cpp:49-51 *)
Definition is_boolean_type (s : str) : bool := seq_eqb s $"Boolean".
(** src/grammar.cpp:53-55 *)
Definition is_boolean_value (s : str) : bool := seq_eqb s $"true" || seq_eqb s $"false".
(** src/grammar.cpp:57-59 *)
Definition is_character_type (s : str) : bool := seq_eqb s $"Character".
(** src/grammar.cpp:61-65 *)
Definition is_character_value (s : str) : bool :=
  if negb (length s =? 3)%nat then false
  else ceq (at_ s 0) c_apos && ceq (at_ s 2) c_apos.
(** src/grammar.cpp:67-69 *)
Definition is_integer_type (s : str) : bool := seq_eqb s $"Integer".

(** src/grammar.cpp:71-80: first character, loop over the others, final test. *)
Definition is_integer_value (s : str) : bool :=
  match s with
  | [] => false
  | c :: r =>
      if negb (is_numeric c) && negb (ceq c c_plus) && negb (ceq c c_minus) then false
      else if negb (forallb is_numeric r) then false
      else is_numeric c || (1 <? length s)%nat
  end.

(** src/grammar.cpp:82-84 *)
Definition is_float_type (s : str) : bool := seq_eqb s $"Float".

(** src/grammar.cpp:90-102: the scanning loop, from the current suffix with the two counters. *)
Fixpoint float_loop (s : str) (count_point count_numeric : nat) : bool :=
  match s with
  | [] => (count_point <=? 1)%nat && (0 <? count_numeric)%nat
  | c :: r =>
      if negb (is_numeric c) && negb (ceq c c_dot) then
        if negb (ceq c c_e) then false
        else (count_point <=? 1)%nat && (0 <? count_numeric)%nat && is_integer_value r
      else
        float_loop r (if ceq c c_dot then S count_point else count_point)
                     (if is_numeric c then S count_numeric else count_numeric)
  end.
(** src/grammar.cpp:86-102 *)
Definition is_float_value (s : str) : bool :=
  match s with
  | [] => false
  | c :: r => if ceq c c_plus || ceq c c_minus then float_loop r 0 0 else float_loop s 0 0
  end.

(** src/grammar.cpp:104-106 *)
Definition is_string_type (s : str) : bool := seq_eqb s $"String".

(** src/grammar.cpp:115-120: the inner loop [j = i-1 .. 0] with [d = i - j]; [rv] is the reversed prefix [str[0..i)].
    The result says whether the function returns false at this [i]. *)
Fixpoint inner_quote_bad (rv : str) (d : nat) : bool :=
  match rv with
  | [] => false
  | c :: r => if negb (ceq c c_bslash) then (d mod 2 =? 1)%nat else inner_quote_bad r (S d)
  end.

(** src/grammar.cpp:121-124: the loop [i = size-2 .. 1]; [i] counts down. *)
Fixpoint closing_loop (s : str) (i : nat) : bool :=
  match i with
  | O => (length s mod 2 =? 0)%nat
  | S i' => if negb (ceq (at_ s i) c_bslash) then ((length s - 1 - i) mod 2 =? 1)%nat else closing_loop s i'
  end.

(** src/grammar.cpp:108-125 *)
Definition is_string_value (s : str) : bool :=
  if (length s <? 2)%nat then false
  else if negb (ceq (at_ s 0) c_quote) || negb (ceq (at_ s (length s - 1)) c_quote) then false
  else if existsb (fun i => ceq (at_ s i) c_quote && inner_quote_bad (rev (firstn i s)) 1)
                  (seq 1 (length s - 2)) then false
  else closing_loop s (length s - 2).

(** src/grammar.cpp:127-130 *)
Definition is_object_type (s : str) : bool :=
  is_boolean_type s || is_character_type s || is_integer_type s || is_float_type s || is_string_type s.
(** src/grammar.cpp:132-135 *)
Definition is_object_value (s : str) : bool :=
  is_boolean_value s || is_character_value s || is_integer_value s || is_float_value s || is_string_value s.
(** src/grammar.cpp:137-141; a string that starts with "Vector<" and ends with ">" has at least 8 characters. *)
Definition is_vector_type (s : str) : bool :=
  if negb (starts_with s $"Vector<") || negb (ends_with s $">") then false
  else is_object_type (trim (substr s 7 (length s - 8))).
(** src/grammar.cpp:143-147 *)
Definition is_set_type (s : str) : bool :=
  if negb (starts_with s $"Set<") || negb (ends_with s $">") then false
  else is_object_type (trim (substr s 4 (length s - 5))).

(** [first_index p s]: the least [i] with [p str[i]], as found by an upward index loop. *)
Fixpoint first_index (p : ascii -> bool) (s : str) : option nat :=
  match s with
  | [] => None
  | c :: r => if p c then Some 0 else option_map S (first_index p r)
  end.

(** src/grammar.cpp:149-158 *)
Definition is_dictionary_type (s : str) : bool :=
  if negb (starts_with s $"Dictionary<") || negb (ends_with s $">") then false
  else let types_of_dictionary := substr s 11 (length s - 12) in
       match first_index (fun c => ceq c c_comma) types_of_dictionary with
       | Some i => is_object_type (trim (substr types_of_dictionary 0 i)) &&
                   is_object_type (trim (substr_from types_of_dictionary (i + 1)))
       | None => false
       end.
(** src/grammar.cpp:160-162 *)
Definition is_container_type (s : str) : bool := is_vector_type s || is_set_type s || is_dictionary_type s.
(** src/grammar.cpp:164-166 *)
Definition is_type (s : str) : bool := is_object_type s || is_container_type s.
(** src/grammar.cpp:168-170 *)
Definition is_connection (s : str) : bool := seq_eqb s $"Connection".
(** src/grammar.cpp:172-174 *)
Definition is_context (s : str) : bool := seq_eqb s $"Context".
(** src/grammar.cpp:176-178 *)
Definition is_reserved_word (s : str) : bool := existsb (seq_eqb s) RESERVED_WORDS.
(** src/grammar.cpp:180-187 *)
Definition is_identifier (s : str) : bool :=
  match s with
  | [] => false
  | c :: r =>
      if negb (is_alpha c) then false
      else if negb (forallb (fun x => is_alphanumeric x || ceq x c_us) r) then false
      else negb (is_reserved_word s)
  end.
(** src/grammar.cpp:189-191 *)
Definition is_namespace (s : str) : bool := is_identifier s.

(** src/grammar.cpp:196-197: the least [i < size-1] with [str[i] == ':' && str[i+1] == ':']. *)
Fixpoint first_double_colon (s : str) : option nat :=
  match s with
  | [] => None
  | c :: r =>
      match r with
      | d :: _ => if ceq c c_colon && ceq d c_colon then Some 0 else option_map S (first_double_colon r)
      | [] => None
      end
  end.
(** src/grammar.cpp:193-200 *)
Definition is_variable (s : str) : bool :=
  if (length s =? 0)%nat then false
  else match first_double_colon s with
       | Some i => is_namespace (substr s 0 i) && is_identifier (substr_from s (i + 2))
       | None => is_identifier s
       end.
(** src/grammar.cpp:202-204 *)
Definition is_actor (s : str) : bool := is_connection s || is_context s || is_type s || is_variable s.
(** src/grammar.cpp:206-209 *)
Definition is_unary_message (s : str) : bool :=
  (0 <? length s)%nat &&
  (is_identifier s || (ceq (at_ s (length s - 1)) c_qmark && is_identifier (substr s 0 (length s - 1)))).
(** src/grammar.cpp:211-214 *)
Definition is_keyword_message_token (s : str) : bool :=
  (0 <? length s)%nat && (ceq (at_ s (length s - 1)) c_colon || ceq (at_ s (length s - 1)) c_qmark) &&
  is_identifier (substr s 0 (length s - 1)).
(** src/grammar.cpp:216-218 *)
Definition is_keyword_message_argument (s : str) : bool := is_object_value s || is_namespace s || is_variable s.

Definition is_kw_delim (c : ascii) : bool := ceq c c_colon || ceq c c_qmark.
(** src/grammar.cpp:220-226 *)
Definition is_keyword_message_part (s : str) : bool :=
  match first_index is_kw_delim s with
  | Some i => is_keyword_message_token (substr s 0 (i + 1)) &&
              is_keyword_message_argument (ltrim (substr_from s (i + 1)))
  | None => false
  end.

(** src/grammar.cpp:228-236.  The recursion is on strictly shorter strings; [fuel] bounds its depth and
    [is_keyword_message] always supplies enough (proved: [is_keyword_message_eq]). *)
Fixpoint is_keyword_message_fuel (fuel : nat) (s : str) : bool :=
  match fuel with
  | O => false
  | S f =>
      if is_keyword_message_part s then true
      else existsb (fun i => if is_space (at_ s i)
                             then if is_keyword_message_part (substr s 0 i)
                                  then is_keyword_message_fuel f (ltrim (substr_from s (i + 1)))
                                  else false
                             else false)
                   (seq 0 (length s))
  end.
Definition is_keyword_message (s : str) : bool := is_keyword_message_fuel (S (length s)) s.

(** [first_such p n]: the least [i < n] with [p i], as found by an upward index loop. *)
Definition first_such (p : nat -> bool) (n : nat) : option nat := find p (seq 0 n).

(** src/grammar.cpp:238-249 *)
Definition is_statement (s : str) : bool :=
  let trimmed := trim s in
  if (length trimmed =? 0)%nat || negb (ceq (at_ trimmed (length trimmed - 1)) c_semi) then false
  else
    let trimmed := rtrim (substr trimmed 0 (length trimmed - 1)) in
    match first_such (fun i => is_space (at_ trimmed i) && is_actor (substr trimmed 0 i)) (length trimmed) with
    | Some i => let message := ltrim (substr_from trimmed (i + 1)) in
                is_unary_message message || is_keyword_message message
    | None => false
    end.
