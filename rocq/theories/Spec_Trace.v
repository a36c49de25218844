(** Specification for C82: which lines of different clients may be executed in either order. *)
From Coq Require Import String List Ascii ZArith.
From Verif Require Import Num Instance Context Server.
From Verif Require Import Spec_Grammar Spec_State Spec_Names Spec_Text Spec_Number Spec_Set Spec_Server Spec_Alone.
Import ListNotations.
Open Scope list_scope.

(** The line concerns variables with the names [N] only: it reads, makes, changes and deletes nothing else, and no setting. *)
Definition within (N : bytes -> Prop) (line : bytes) : Prop := private N line /\ foreign (fun n => ~ N n) line.
Definition disjoint (N M : bytes -> Prop) : Prop := (forall n, N n \/ ~ N n) /\ (forall n, M n \/ ~ M n) /\ forall n, N n -> ~ M n.
(** The line is sent to the variable [n] and does not change it. *)
Definition reads (line n : bytes) : Prop := exists m args, statement line n m args /\ variable n /\ ~ In m mutators.
(** Messages about one element of a set of elements of type [t]. *)
Inductive set_use := AddElement | RemoveElement | FindElement.
Definition set_message_of (u : set_use) : bytes := match u with AddElement => B "add:" | RemoveElement => B "remove:" | FindElement => B "contains?" end.
Definition uses_element (line n t : bytes) (u : set_use) (x : obj) : Prop := exists a, statement line n (set_message_of u) [a] /\ literal_of t a x.
(** Messages about one key of a dictionary; [Associate v]: the value [v] is associated with the key. *)
Inductive key_use := Associate (v : obj) | RemoveKey | ContainsKey | GetValue.
Inductive uses_key (line n kt vt : bytes) (k : obj) : key_use -> Prop :=
| uses_associate a b v : statement line n (B "associateValue:withKey:") [a; b] -> literal_of vt a v -> literal_of kt b k -> uses_key line n kt vt k (Associate v)
| uses_removeKey b : statement line n (B "removeKey:") [b] -> literal_of kt b k -> uses_key line n kt vt k RemoveKey
| uses_containsKey b : statement line n (B "containsKey?") [b] -> literal_of kt b k -> uses_key line n kt vt k ContainsKey
| uses_getValue b : statement line n (B "getValueForKey:") [b] -> literal_of kt b k -> uses_key line n kt vt k GetValue.
(** Adding [d] to an Integer (subtracting it, if negative). *)
Inductive counts (line n : bytes) : Z -> Prop :=
| counts_add a d : statement line n (B "add:") [a] -> denotes_int a d -> fits d -> counts line n d
| counts_subtract a d : statement line n (B "subtract:") [a] -> denotes_int a d -> fits d -> counts line n (- d).

(** The lines may be exchanged when the data are [c]. *)
Inductive independent (c : context) (l1 l2 : bytes) : Prop :=
(** they concern different variables, *)
| independent_apart N M : disjoint N M -> within N l1 -> within M l2 -> independent c l1 l2
(** they read the same variable, *)
| independent_reads n : reads l1 n -> reads l2 n -> independent c l1 l2
(** they concern different elements of a set, or both add or both remove an element, *)
| independent_elements n t v u1 u2 x1 x2 : lookup c n = Some (ISet t v) -> t <> B "Float" ->
    uses_element l1 n t u1 x1 -> uses_element l2 n t u2 x2 -> x1 <> x2 \/ u1 = u2 -> independent c l1 l2
(** they concern different keys of a dictionary, or both remove a key, or both associate the same value with the same key, *)
| independent_keys n kt vt d u1 u2 k1 k2 : lookup c n = Some (IDict kt vt d) -> kt <> B "Float" ->
    uses_key l1 n kt vt k1 u1 -> uses_key l2 n kt vt k2 u2 -> k1 <> k2 \/ u1 = u2 -> independent c l1 l2
(** or they add to a counter, and the second one could also be executed first. *)
| independent_counts n z d1 d2 : lookup c n = Some (IObj (OInt z)) -> counts l1 n d1 -> counts l2 n d2 -> fits (z + d2) -> independent c l1 l2.

(** Histories that differ in the order of independent lines of different sessions only. *)
Inductive exchanged (srt : sorter) (pw : bytes) (c : context) (ss : nat -> session) : list entry -> list entry -> Prop :=
| exchanged_none h : exchanged srt pw c ss h h
| exchanged_neighbours h1 c1 ss1 e1 e2 h2 : serial srt pw c ss h1 c1 ss1 -> e_sid e1 <> e_sid e2 -> independent c1 (e_line e1) (e_line e2) ->
    exchanged srt pw c ss (h1 ++ e1 :: e2 :: h2) (h1 ++ e2 :: e1 :: h2)
| exchanged_twice h1 h2 h3 : exchanged srt pw c ss h1 h2 -> exchanged srt pw c ss h2 h3 -> exchanged srt pw c ss h1 h3.

(** In the history nothing is removed from the set [n]. *)
Definition only_added (n : bytes) (h : list entry) : Prop :=
  Forall (fun e => keeps (e_line e) n /\ silent (e_line e) n [B "remove:"; B "clear"]) h.
(** The element [x] is added in the history. *)
Definition adds (h : list entry) (n t : bytes) (x : obj) : Prop :=
  exists e, In e h /\ e_outcome e <> Refused /\ uses_element (e_line e) n t AddElement x.
