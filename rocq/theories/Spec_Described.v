(** Specification for C88: the server is exactly what the specification says. *)
From Coq Require Import String List Ascii ZArith.
From Verif Require Import Num Instance Context Server.
From Verif Require Import Spec_Grammar Spec_State Spec_Names Spec_Text Spec_Server Spec_Whole Spec_Errors Spec_Undefined.
Import ListNotations.
Open Scope list_scope.

(** [described pw c s line c' s' o]: what becomes of a line of a client, said without the program and exactly.  It is refused if the client has not given the
    password and it is not a message to Connection; else, if it is a statement that has an effect (Spec_Whole), that effect takes place; if it is a statement that has
    none and no undefined behaviour (Spec_Undefined), the error is answered that Spec_Errors gives it; and if it is no statement, a syntax error is answered. *)
Inductive described (pw : bytes) (c : context) (s : session) (line : bytes) (c' : context) (s' : session) : outcome -> Prop :=
| described_refused : is_authenticated s = false -> ~ connection_line line -> same_data c c' -> s' = s -> described pw c s line c' s' Refused
| described_effect a m args ans : is_authenticated s = true \/ connection_line line -> statement line a m args ->
    effect pw c (Some s) a m args c' (Some s') ans -> described pw c s line c' s' (if is_connected s' then Answered ans else Closed ans)
| described_error a m args e : is_authenticated s = true \/ connection_line line -> statement line a m args ->
    ~ has_effect pw c (Some s) line -> ~ undefined_statement c a m args -> error_of pw c a m args e ->
    same_data c c' -> s' = s -> described pw c s line c' s' (if is_connected s' then Answered e else Closed e)
| described_syntax : is_authenticated s = true \/ connection_line line -> (forall a m args, ~ statement line a m args) ->
    same_data c c' -> s' = s -> described pw c s line c' s' (if is_connected s' then Answered ERR_SYNTAX else Closed ERR_SYNTAX).

(** The line sorts a vector of Float: the one case in which the specification leaves open what the variable holds afterwards (numbers that count as equal may come
    in any order). *)
Definition sorts_floats (c : context) (line : bytes) : Prop :=
  exists n args v, statement line n (B "sort") args /\ lookup c n = Some (IVector (B "Float") v).
(** A history of lines of any clients that are allowed by [ok] on the data they find, and each of which has become of it what is described. *)
Inductive described_history (ok : context -> bytes -> Prop) (pw : bytes) (c : context) (ss : nat -> session) : list entry -> context -> (nat -> session) -> Prop :=
| described_none : described_history ok pw c ss [] c ss
| described_more h c1 ss1 sid line c2 s2 o : described_history ok pw c ss h c1 ss1 -> ok c1 line -> described pw c1 (ss1 sid) line c2 s2 o ->
    described_history ok pw c ss (h ++ [{| e_sid := sid; e_line := line; e_outcome := o |}]) c2 (fun k => if (k =? sid)%nat then s2 else ss1 k).
