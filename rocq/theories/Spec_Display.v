(** Specification for C79: data that differ in the number of displayed decimals only; values without floating-point numbers. *)
From Coq Require Import String List Ascii.
From Verif Require Import Num Instance Context.
From Verif Require Import Spec_Grammar Spec_State Spec_Names Spec_Local.
Import ListNotations.
Open Scope list_scope.

(** The same variables with the same values, and the same tolerance; the precision of the display may differ. *)
Definition same_values (c d : context) : Prop := (forall n, lookup d n = lookup c n) /\ tolerance d = tolerance c.
Definition no_float (x : obj) : Prop := forall f, x <> OFloat f.
(** There are no floating-point numbers in [i]. *)
Definition without_floats (i : inst) : Prop :=
  match i with
  | IObj x => no_float x
  | IVector _ v | ISet _ v => Forall no_float v
  | IDict _ _ d => Forall (fun p => no_float (fst p) /\ no_float (snd p)) d
  end.
(** The line does not ask for a setting, nor is it a message to a variable that contains floating-point numbers. *)
Definition shows_no_float (c : context) (line : bytes) : Prop :=
  forall a m args, statement line a m args ->
    (a = B "Context" -> m <> B "getFloatPrecision" /\ m <> B "getFloatComparisonTolerance") /\ (forall i, lookup c a = Some i -> without_floats i).
