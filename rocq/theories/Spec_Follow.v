(** Specification for C94: a vector as a log that readers follow. *)
From Coq Require Import String List Ascii ZArith.
From Verif Require Import Num Instance Context Server.
From Verif Require Import Spec_Grammar Spec_State Spec_Names Spec_Literal Spec_Set Spec_Server Spec_Clients.
Import ListNotations.
Open Scope list_scope.

(** The line only adds to the end of [n], or does not change [n]. *)
Definition only_adds (n line : bytes) : Prop := (exists a, statement line n (B "pushBack:") [a]) \/ leaves line n.
(** The line asks for [x] to be added to the end of the Vector<t> [n]. *)
Definition adds (n t line : bytes) (x : obj) : Prop := exists a, statement line n (B "pushBack:") [a] /\ literal_of t a x.
(** [added_in n t h news]: the values that the executed lines of the history [h] added to [n], in their order. *)
Inductive added_in (n t : bytes) : list entry -> list obj -> Prop :=
| added_none : added_in n t [] []
| added_one h news e x : added_in n t h news -> e_outcome e <> Refused -> adds n t (e_line e) x -> added_in n t (h ++ [e]) (news ++ [x])
| added_nothing h news e : added_in n t h news -> (forall x, e_outcome e <> Refused -> ~ adds n t (e_line e) x) -> added_in n t (h ++ [e]) news.
