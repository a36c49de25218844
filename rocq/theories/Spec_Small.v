(** Specification for C89: data whose answers are short. *)
From Coq Require Import String List Ascii ZArith.
From Verif Require Import Num Instance Context Server.
From Verif Require Import Spec_Grammar Spec_State Spec_Names Spec_Text Spec_Server Spec_Length.
Import ListNotations.
Open Scope list_scope.

(** Every variable is shown by get in less than 65536 bytes, so are the names of all variables by listVariables, no vector has more than 10922 elements, and floating-point
    numbers are not shown with more than 65000 places. *)
Record small (c : context) : Prop := {
  small_variables : forall n i g, lookup c n = Some i -> variable_text (float_precision c) i g -> (List.length g < 65536)%nat;
  small_vectors : forall n t v, lookup c n = Some (IVector t v) -> (List.length v <= 10922)%nat;
  small_names : forall names, increasing names -> (forall n, In n names <-> live c n) -> (List.length (listing names) < 65536)%nat;
  small_precision : (- 2 ^ 31 <= float_precision c <= 65000)%Z
}.
(** The operating system takes every answer of less than 65536 bytes at once. *)
Definition roomy (es : list event) : Prop := forall sid k, In (Handle sid k) es -> (65536 <= k)%nat.
(** How much room a value takes at most when it is shown. *)
Definition room (p : Z) (x : obj) : nat :=
  match x with
  | OBool _ => 5 | OChar _ => 3 | OInt _ => 11
  | OFloat _ => 41 + Spec_Number.places p
  | OStr v => 2 + 2 * List.length v
  end.
Definition variable_room (p : Z) (i : inst) : nat :=
  match i with
  | IObj x => room p x
  | IVector _ v | ISet _ v => (2 + list_sum (map (fun x => 1 + room p x)%nat v))%nat
  | IDict _ _ d => (2 + list_sum (map (fun q => 4 + room p (fst q) + room p (snd q))%nat d))%nat
  end.
