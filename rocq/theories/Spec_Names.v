(** Specification vocabulary for C24-C29 and C36: names, listings, which messages change things. *)
From Verif Require Import Outcome Num Instance Context.
From Verif Require Import Spec_Grammar Spec_State.
From Coq Require Import String List Ascii ZArith Sorting.Sorted.
Import ListNotations.
Open Scope list_scope.

(** "[a,b,c]" *)
Fixpoint joined (l : list bytes) : bytes :=
  match l with
  | [] => []
  | [x] => x
  | x :: r => x ++ B "," ++ joined r
  end.
Definition listing (names : list bytes) : bytes := B "[" ++ joined names ++ B "]".
(** In increasing order, without duplicates. *)
Definition increasing (names : list bytes) : Prop := StronglySorted precedes names.

Definition live (c : context) (n : bytes) : Prop := lookup c n <> None.
(** The name of variable [i] in namespace [ns]. *)
Definition qualified (ns i : bytes) : bytes := ns ++ B "::" ++ i.

(** The messages that may change the variable they are sent to. *)
Definition mutators : list bytes :=
  [B "set:"; B "add:"; B "subtract:"; B "multiplyBy:"; B "divideBy:"; B "pushBack:"; B "pushFront:"; B "popBack";
   B "popFront"; B "popAtIndex:"; B "concatenate:"; B "insert:beforeIndex:"; B "eraseFromIndex:";
   B "eraseFromIndex:toIndex:"; B "clear"; B "removeFirst:"; B "removeFirst:fromIndex:"; B "removeAll:";
   B "replaceFirst:with:"; B "replaceFirst:fromIndex:with:"; B "replaceAll:with:"; B "sort"; B "reverse"; B "remove:";
   B "associateValue:withKey:"; B "removeKey:"].

(** How an error message begins. *)
Definition looks_like_error (ans : bytes) : Prop :=
  exists r, ans = B "SyntaxError:" ++ r \/ ans = B "RuntimeError:" ++ r \/ ans = B "AuthenticationError:" ++ r.

Definition same_data (c c' : context) : Prop := (forall m, lookup c' m = lookup c m) /\ same_settings c c'.

Definition NEWLINE : ascii := ascii_of_nat 10.
(** Data reachable through the network, where a line never contains a newline. *)
Inductive reachable_by_lines (srt : sorter) (pw : bytes) : context -> Prop :=
| line_start opened precision tol is_quiet : single_precision tol -> reachable_by_lines srt pw (new_context opened precision tol is_quiet)
| line_step c s line c' s' ans : ~ In NEWLINE line ->
    reachable_by_lines srt pw c -> runs srt pw c s line c' s' ans -> reachable_by_lines srt pw c'.

(** The type of a variable, as one would write it. *)
Definition type_name (i : inst) : bytes :=
  match i with
  | IObj (OBool _) => B "Boolean" | IObj (OChar _) => B "Character" | IObj (OInt _) => B "Integer"
  | IObj (OFloat _) => B "Float" | IObj (OStr _) => B "String"
  | IVector t _ => B "Vector<" ++ t ++ B ">"
  | ISet t _ => B "Set<" ++ t ++ B ">"
  | IDict k v _ => B "Dictionary<" ++ k ++ B "," ++ v ++ B ">"
  end.
(** Messages to Context that may delete variables, and those that may change settings. *)
Definition deleters : list bytes := [B "deleteVariable:"; B "deleteVariablesOfNamespace:"].
Definition setters : list bytes := [B "setFloatPrecision:"; B "setFloatComparisonTolerance:"].
(** The number of ':' and '?' in a message name. *)
Definition arity (name : bytes) : nat :=
  length (filter (fun c => (Nat.eqb (code c) 58) || (Nat.eqb (code c) 63))%bool name).
(** [c'] comes from [c] by any number of statements of any sessions, none of which is the message [m] to Context. *)
Inductive undisturbed (srt : sorter) (pw m : bytes) (c : context) : context -> Prop :=
| undisturbed_none : undisturbed srt pw m c c
| undisturbed_step c1 s line c2 s' ans : undisturbed srt pw m c c1 -> runs srt pw c1 s line c2 s' ans ->
    (forall args, ~ statement line (B "Context") m args) -> undisturbed srt pw m c c2.
