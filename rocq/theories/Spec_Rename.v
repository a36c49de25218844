(** Specification for C81: renaming the variables. *)
From Coq Require Import String List Ascii.
From Verif Require Import Num Instance Context.
From Verif Require Import Spec_Grammar Spec_State Spec_Names Spec_Local.
Import ListNotations.
Open Scope list_scope.

(** [f] gives every variable another (or the same) name, and different variables different names. *)
Definition renaming (f : bytes -> bytes) : Prop :=
  (forall n, variable n -> variable (f n)) /\ forall n m, variable n -> variable m -> f n = f m -> n = m.
(** The new name of something that is written where a variable is expected. *)
Inductive new_name (f : bytes -> bytes) : bytes -> bytes -> Prop :=
| new_variable n : variable n -> new_name f n (f n)
| not_variable x : ~ variable x -> new_name f x x.
(** The messages to Context about the names themselves. *)
Definition naming_messages : list bytes :=
  [B "listNamespaces"; B "listVariables"; B "listVariablesOfNamespace:"; B "deleteVariable:"; B "deleteVariablesOfNamespace:"].
(** [l'] is the line [l] with the variable it is about renamed; white space may differ. *)
Inductive renamed (f : bytes -> bytes) : bytes -> bytes -> Prop :=
| renamed_message l l' n m args : variable n -> statement l n m args -> statement l' (f n) m args -> renamed f l l'
| renamed_creation l l' t m x x' args : type t -> new_name f x x' -> statement l t m (x :: args) -> statement l' t m (x' :: args) -> renamed f l l'
| renamed_deletion l l' x x' args : new_name f x x' ->
    statement l (B "Context") (B "deleteVariable:") (x :: args) -> statement l' (B "Context") (B "deleteVariable:") (x' :: args) -> renamed f l l'
| renamed_no_name l l' a m args : statement l a m args -> statement l' a m args ->
    (type a /\ args = []) \/ (a = B "Context" /\ ~ In m naming_messages) \/ a = B "Connection" -> renamed f l l'
| renamed_unreadable l l' : (forall a m args, ~ statement l a m args) -> (forall a m args, ~ statement l' a m args) -> renamed f l l'.
(** What [c] has under a name [d] has under the new name; the settings are the same.  [d] may have more. *)
Definition correspond (f : bytes -> bytes) (c d : context) : Prop :=
  (forall n, variable n -> lookup d (f n) = lookup c n) /\ same_settings c d.
(** The messages to Context whose meaning depends on more than one name. *)
Definition many_names : list bytes := [B "listNamespaces"; B "listVariables"; B "listVariablesOfNamespace:"; B "deleteVariablesOfNamespace:"].
