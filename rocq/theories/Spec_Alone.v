(** Specification vocabulary for C63: clients that keep to their own variables do not notice the others. *)
From Verif Require Import Num Instance Context Server.
From Verif Require Import Spec_Grammar Spec_State Spec_Names Spec_Server.
From Coq Require Import String List Ascii ZArith.
Import ListNotations.
Open Scope list_scope.

(** [N] is a set of names.  The two servers hold the same under these names, and have the same settings. *)
Definition agree (N : bytes -> Prop) (c d : context) : Prop := (forall n, N n -> lookup d n = lookup c n) /\ same_settings c d.
(** The line asks about the variables in [N] only: it addresses or creates only such variables, does not ask for lists of all names or
    namespaces (unless [N] is everything), deletes only such variables, and lists or deletes only namespaces that lie in [N]. *)
Definition private (N : bytes -> Prop) (line : bytes) : Prop := forall a m args, statement line a m args ->
  (variable a -> N a) /\
  (forall n i, creates a m args n i -> N n) /\
  (a = B "Context" ->
     (In m [B "listNamespaces"; B "listVariables"] -> forall n, N n) /\
     (m = B "deleteVariable:" -> Forall N args) /\
     (In m [B "listVariablesOfNamespace:"; B "deleteVariablesOfNamespace:"] -> Forall (fun ns => forall i, N (qualified ns i)) args)).
(** The line changes nothing in [N], nor the settings: it may send variables in [N] messages that do not change them, and list names. *)
Definition foreign (N : bytes -> Prop) (line : bytes) : Prop := forall a m args, statement line a m args ->
  (N a -> ~ In m mutators) /\
  (forall n i, creates a m args n i -> ~ N n) /\
  (a = B "Context" ->
     ~ In m setters /\
     (m = B "deleteVariable:" -> Forall (fun n => ~ N n) args) /\
     (m = B "deleteVariablesOfNamespace:" -> Forall (fun ns => forall i, ~ N (qualified ns i)) args)).
(** In the history [h] the sessions in the group [G] keep to the names [N] and the others keep off them. *)
Definition separate (N : bytes -> Prop) (G : nat -> bool) (h : list entry) : Prop :=
  forall e, In e h -> e_outcome e <> Refused -> if G (e_sid e) then private N (e_line e) else foreign N (e_line e).
(** What the group did. *)
Definition part (G : nat -> bool) (h : list entry) : list entry := filter (fun e => G (e_sid e)) h.
(** The complete lines that the client of session [sid] sends in the schedule [es]. *)
Definition sends (es : list event) (sid : nat) (line : bytes) : Prop := exists ls rest, lines_of (arrived es sid) ls rest /\ In line ls.
