(** Specification for C93: how great sizes can become. *)
From Coq Require Import String List Ascii ZArith.
From Verif Require Import Num Instance Context Server.
From Verif Require Import Spec_Grammar Spec_State Spec_Origin.
Import ListNotations.
Open Scope list_scope.

(** The number of bytes that all clients send in a schedule. *)
Definition sent (es : list event) : nat := list_sum (map (fun e => match e with Arrive _ b => length b | _ => 0%nat end) es).
(** The conversion of a size to [int], as in [int(size())]: 32 bits, two's complement. *)
Definition as_int (n : nat) : Z := ((Z.of_nat n + 2147483648) mod 4294967296 - 2147483648)%Z.
(** The size [k] occurs in the variable: the number of its elements or the length of a text in it. *)
Definition occurs (k : nat) (i : inst) : Prop :=
  k = cardinal i \/ (exists v, i = IObj (OStr v) /\ k = length v) \/ exists v, In (OStr v) (texts i) /\ k = length v.
