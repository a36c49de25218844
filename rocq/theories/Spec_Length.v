(** Specification for C87: how long answers can be. *)
From Coq Require Import String List Ascii ZArith.
From Verif Require Import Num Instance Context.
From Verif Require Import Spec_Grammar Spec_State Spec_Names Spec_Text Spec_Number Spec_Float Spec_Vector Spec_String Spec_Set.
Import ListNotations.
Open Scope list_scope.

(** The text of a variable: what get is answered. *)
Definition variable_text (p : Z) (i : inst) (g : bytes) : Prop :=
  match i with
  | IObj x => shows p x g
  | IVector _ v => shows_list p v g
  | ISet _ v => shows_set p v g
  | IDict _ _ d => shows_dictionary p d g
  end.
(** The longest error answer (that of an unknown name) has 52 bytes. *)
Definition LONGEST_ERROR : nat := List.length ERR_UNKNOWN_NAME.
