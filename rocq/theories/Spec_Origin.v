(** Specification vocabulary for C62: where stored values come from, and how much a server can be made to hold. *)
From Verif Require Import Num Instance Context Server.
From Verif Require Import Spec_Grammar Spec_State Spec_Names Spec_Text Spec_Set Spec_Server.
From Coq Require Import String List Ascii ZArith.
Import ListNotations.
Open Scope list_scope.

(** The data [c] is what an empty server holds after executing exactly the lines [lines], of any sessions, in this order. *)
Inductive reached_by (srt : sorter) (pw : bytes) : list bytes -> context -> Prop :=
| by_none opened precision tol is_quiet : single_precision tol -> reached_by srt pw [] (new_context opened precision tol is_quiet)
| by_line lines c s line c' s' ans : reached_by srt pw lines c -> runs srt pw c s line c' s' ans -> reached_by srt pw (lines ++ [line]) c'.

(** The line that created [n] had the arguments [args0]; since then the lines [after] were executed.  The text [a] was given to [n]. *)
Definition given (n : bytes) (args0 : list bytes) (after : list bytes) (a : bytes) : Prop :=
  In a args0 \/ exists line m args, In line after /\ statement line n m args /\ In a args.
(** All that the variable [n] holds was given to it.  (The numbers in Integer and Float variables are the results of arithmetic.) *)
Definition originates (n : bytes) (args0 after : list bytes) (i : inst) : Prop :=
  match i with
  | IObj (OInt _) | IObj (OFloat _) => True
  | IObj (OBool b) => exists a, given n args0 after a /\ literal_of (B "Boolean") a (OBool b)
  | IObj (OChar ch) => exists a, given n args0 after a /\ literal_of (B "Character") a (OChar ch)
  | IObj (OStr v) => forall ch, In ch v -> exists a, given n args0 after a /\
                       (literal_of (B "Character") a (OChar ch) \/ exists w, literal_of (B "String") a (OStr w) /\ In ch w)
  | IVector t v | ISet t v => forall x, In x v -> exists a, given n args0 after a /\ literal_of t a x
  | IDict kt vt d => forall k x, In (k, x) d ->
                       (exists a, given n args0 after a /\ literal_of kt a k) /\ (exists a, given n args0 after a /\ literal_of vt a x)
  end.

(** [total P w l k]: the weights [w] of the lines in [l] that satisfy [P] add up to [k]. *)
Inductive total (P : bytes -> Prop) (w : bytes -> nat) : list bytes -> nat -> Prop :=
| total_none : total P w [] 0
| total_yes l k x : total P w l k -> P x -> total P w (l ++ [x]) (k + w x)
| total_no l k x : total P w l k -> ~ P x -> total P w (l ++ [x]) k.
Definition one (_ : bytes) : nat := 1%nat.
(** The line is a message to [n] that can add an element, or any message. *)
Definition inserters : list bytes := [B "pushBack:"; B "pushFront:"; B "insert:beforeIndex:"; B "add:"; B "associateValue:withKey:"].
Definition inserts (n line : bytes) : Prop := exists m args, statement line n m args /\ In m inserters.
Definition addresses (n line : bytes) : Prop := exists m args, statement line n m args.
(** The number of elements of a container. *)
Definition cardinal (i : inst) : nat :=
  match i with IObj _ => 0 | IVector _ v | ISet _ v => length v | IDict _ _ d => length d end.
(** The texts inside a container. *)
Definition texts (i : inst) : list obj :=
  match i with IObj _ => [] | IVector _ v | ISet _ v => v | IDict _ _ d => map fst d ++ map snd d end.
(** What [n] contributes to the size of the data: itself and its elements, if it exists. *)
Definition weight (c : context) (n : bytes) : nat := match lookup c n with Some i => 1 + cardinal i | None => 0 end.

(** The lines of a history that were executed. *)
Definition executed_lines (h : list entry) : list bytes :=
  flat_map (fun e => match e_outcome e with Refused => [] | _ => [e_line e] end) h.
