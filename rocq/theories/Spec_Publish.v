(** Specification for C90: handing data over with a flag. *)
From Coq Require Import String List Ascii ZArith.
From Verif Require Import Num Instance Context Server.
From Verif Require Import Spec_Grammar Spec_State Spec_Names Spec_Text Spec_Number Spec_Server Spec_Clients Spec_LastWrite.
Import ListNotations.
Open Scope list_scope.

(** The lines [ls] of a client first set the variable [d] of type [t] to [v] and later, once, the Boolean [f] to true; after [d] has got its value it is not set
    again. *)
Definition publishes (d t f : bytes) (v : obj) (ls : list bytes) : Prop :=
  exists pre ld mid lf post, ls = pre ++ ld :: mid ++ lf :: post /\
    line_sets d t ld v /\ line_sets f (B "Boolean") lf (OBool true) /\
    (forall l args, In l (pre ++ mid ++ post) -> ~ statement l f (B "set:") args) /\
    (forall l args, In l (mid ++ post) -> ~ statement l d (B "set:") args).
