(** Specification for C70: what clients can find out about the data of a server by sending lines and reading the answers. *)
From Coq Require Import String List Ascii ZArith.
From Coq Require Import Floats.SpecFloat.
From Verif Require Import Num Instance Context.
From Verif Require Import Spec_Grammar Spec_State Spec_Names Spec_Text Spec_Number Spec_Float Spec_Order Spec_Storable Spec_Local.
Import ListNotations.
Open Scope list_scope.

(** With the data [c], the lines [lines], executed one after the other, are answered [answers]. *)
Definition answered (srt : sorter) (pw : bytes) (c : context) (s : option session) (lines answers : list bytes) : Prop :=
  exists c' s', executes srt pw c s lines c' s' answers.
(** No lines, however many, are answered differently with the data [c] and with the data [d]. *)
Definition indistinguishable (srt : sorter) (pw : bytes) (s : option session) (c d : context) : Prop :=
  forall lines answers, Forall one_line lines -> (answered srt pw c s lines answers <-> answered srt pw d s lines answers).

(** Values of the types of the C++ program: a 32-bit integer, a single-precision number. *)
Definition machine_value (x : obj) : Prop :=
  match x with OInt z => fits z | OFloat f => single_precision f | _ => True end.
