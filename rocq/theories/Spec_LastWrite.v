(** Specification for C86: shared dictionaries and shared objects as registers. *)
From Coq Require Import String List Ascii ZArith.
From Verif Require Import Num Instance Context Server.
From Verif Require Import Spec_Grammar Spec_State Spec_Text Spec_Literal Spec_Set Spec_Server Spec_Clients.
Import ListNotations.
Open Scope list_scope.

(** The line gives the key [k] of the dictionary [n] a value ([Some v]) or removes it ([None]). *)
Inductive line_writes (n kt vt : bytes) (line : bytes) (k : obj) : option obj -> Prop :=
| writes_value a b v : statement line n (B "associateValue:withKey:") [a; b] -> literal_of vt a v -> literal_of kt b k -> line_writes n kt vt line k (Some v)
| writes_removal b : statement line n (B "removeKey:") [b] -> literal_of kt b k -> line_writes n kt vt line k None
| writes_nothing : statement line n (B "clear") [] -> line_writes n kt vt line k None.
(** The line gives the object [n] a value. *)
Inductive line_sets (n t : bytes) (line : bytes) : obj -> Prop :=
| sets_value a x : statement line n (B "set:") [a] -> literal_of t a x -> line_sets n t line x.

(** [last h W w]: of the entries of the history [h] that were executed and that write ([W]), the last one writes [w]. *)
Definition last_write {A} (h : list entry) (W : bytes -> A -> Prop) (w : A) : Prop :=
  exists before e after, h = before ++ e :: after /\ e_outcome e <> Refused /\ W (e_line e) w /\
    forall e' w', In e' after -> e_outcome e' <> Refused -> ~ W (e_line e') w'.
Definition no_write {A} (h : list entry) (W : bytes -> A -> Prop) : Prop :=
  forall e w, In e h -> e_outcome e <> Refused -> ~ W (e_line e) w.
(** In the history the dictionary [n] is not deleted. *)
Definition kept (n : bytes) (h : list entry) : Prop := Forall (fun e => keeps (e_line e) n) h.
(** In the history nothing but set: changes the object [n]. *)
Definition only_set (n : bytes) (h : list entry) : Prop :=
  Forall (fun e => leaves (e_line e) n \/ exists args, statement (e_line e) n (B "set:") args) h.
