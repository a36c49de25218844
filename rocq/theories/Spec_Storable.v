(** Specification for C57: exactly which values variables can hold, as long as lines have no newline inside (those a server executes never
    have one). *)
From Coq Require Import String List Ascii ZArith Reals.
From Coq Require Import Floats.SpecFloat.
From Verif Require Import Num Instance Context.
From Verif Require Import Spec_Grammar Spec_State Spec_Names Spec_Text Spec_Number Spec_Float Spec_Order Spec_Set Spec_Object Spec_Local.
Import ListNotations.
Open Scope list_scope.

(** The values that can be written as literals. *)
Definition writable (x : obj) : Prop :=
  match x with
  | OBool _ => True
  | OChar ch => ch <> NEWLINE
  | OInt z => fits z
  | OFloat f => single_precision f /\ ~ nan f
  | OStr v => ~ In NEWLINE v /\ even_backslashes v
  end.
(** The values of variables that hold one value: arithmetic can make a NaN, and text messages strings that have no literal. *)
Definition holdable (x : obj) : Prop :=
  match x with
  | OFloat f => single_precision f
  | OStr v => ~ In NEWLINE v
  | _ => writable x
  end.
(** The values of variables. *)
Definition storable (i : inst) : Prop :=
  match i with
  | IObj x => holdable x
  | IVector t v => object_type t /\ Forall (fun x => has_type t x /\ writable x) v
  | ISet t v => object_type t /\ Forall (fun x => has_type t x /\ writable x) v /\ strictly_increasing (S754_zero false) v
  | IDict kt vt d => object_type kt /\ object_type vt /\
      Forall (fun p => (has_type kt (fst p) /\ writable (fst p)) /\ (has_type vt (snd p) /\ writable (snd p))) d /\
      strictly_increasing (S754_zero false) (map fst d)
  end.
(** Elements of the set, or keys of the dictionary, are Floats, whose order depends on the tolerance. *)
Definition ordered_by_tolerance (i : inst) : Prop :=
  match i with ISet t _ => t = B "Float" | IDict kt _ _ => kt = B "Float" | _ => False end.
Definition zero_tolerance (c : context) : Prop := finite (tolerance c) /\ value (tolerance c) = 0%R.
Definition one_line (line : bytes) : Prop := ~ In NEWLINE line.
(** Some lines of a client, all answered "null", make the variable [n] hold [i]; everything else stays as it is. *)
Definition attainable (srt : sorter) (pw : bytes) (c : context) (s : option session) (n : bytes) (i : inst) : Prop :=
  exists lines answers c', Forall one_line lines /\ executes srt pw c s lines c' s answers /\ Forall (fun a => a = B "null") answers /\
    lookup c' n = Some i /\ (forall m, m <> n -> lookup c' m = lookup c m) /\ same_settings c c'.
