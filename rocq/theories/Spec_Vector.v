(** Specification of the vector messages: their effect on a mathematical sequence (C18, C19). *)
From Coq Require Import String List Ascii ZArith Sorting.Sorted.
From Verif Require Import Num Instance.
From Verif Require Import Spec_Grammar Spec_State Spec_Names Spec_Text Spec_Number Spec_Float Spec_Order.
Import ListNotations.
Open Scope list_scope.
Open Scope Z_scope.

Definition size {A} (l : list A) : Z := Z.of_nat (length l).
(** "[x,y,z]" *)
Definition shows_list (precision : Z) (v : list obj) (ans : bytes) : Prop :=
  exists texts, Forall2 (shows precision) v texts /\ ans = listing texts.

Section Effects.
Context (precision : Z) (tol : spec_float) (t : bytes).

(** C18.  [seq_effect m args v v' ans]: on the sequence [v] of elements of type [t] the message [m] with arguments [args] is
    answered [ans] and leaves [v'].  No rule applies when an index is out of range. *)
Inductive seq_effect : bytes -> list bytes -> list obj -> list obj -> bytes -> Prop :=
| eff_get v ans : shows_list precision v ans -> seq_effect (B "get") [] v v ans
| eff_isEmpty_true : seq_effect (B "isEmpty?") [] [] [] (truth true)
| eff_isEmpty_false x v : seq_effect (B "isEmpty?") [] (x :: v) (x :: v) (truth false)
| eff_size v ans : prints_int (size v) ans -> seq_effect (B "size") [] v v ans
| eff_atIndex a pre x post ans : index_of a (size pre) -> shows precision x ans ->
    seq_effect (B "atIndex:") [a] (pre ++ x :: post) (pre ++ x :: post) ans
| eff_first a n pre post ans : index_of a n -> n = size pre \/ (n > size pre /\ post = []) -> shows_list precision pre ans ->
    seq_effect (B "first:") [a] (pre ++ post) (pre ++ post) ans
| eff_last a n pre post ans : index_of a n -> n = size post \/ (n > size post /\ pre = []) -> shows_list precision post ans ->
    seq_effect (B "last:") [a] (pre ++ post) (pre ++ post) ans
| eff_slice a pre post ans : index_of a (size pre) -> shows_list precision post ans ->
    seq_effect (B "sliceFromIndex:") [a] (pre ++ post) (pre ++ post) ans
| eff_slice_to a b pre mid post ans : index_of a (size pre) -> index_of b (size pre + size mid) -> shows_list precision mid ans ->
    seq_effect (B "sliceFromIndex:toIndex:") [a; b] (pre ++ mid ++ post) (pre ++ mid ++ post) ans
| eff_pushBack a x v : literal_of t a x -> seq_effect (B "pushBack:") [a] v (v ++ [x]) (B "null")
| eff_pushFront a x v : literal_of t a x -> seq_effect (B "pushFront:") [a] v (x :: v) (B "null")
| eff_popBack_empty : seq_effect (B "popBack") [] [] [] (B "null")
| eff_popBack v x ans : shows precision x ans -> seq_effect (B "popBack") [] (v ++ [x]) v ans
| eff_popFront_empty : seq_effect (B "popFront") [] [] [] (B "null")
| eff_popFront v x ans : shows precision x ans -> seq_effect (B "popFront") [] (x :: v) v ans
| eff_popAtIndex a pre x post ans : index_of a (size pre) -> shows precision x ans ->
    seq_effect (B "popAtIndex:") [a] (pre ++ x :: post) (pre ++ post) ans
| eff_insert a b x pre post : literal_of t a x -> index_of b (size pre) ->
    seq_effect (B "insert:beforeIndex:") [a; b] (pre ++ post) (pre ++ x :: post) (B "null")
| eff_erase a pre post : index_of a (size pre) -> seq_effect (B "eraseFromIndex:") [a] (pre ++ post) pre (B "null")
| eff_erase_to a b pre mid post : index_of a (size pre) -> index_of b (size pre + size mid) ->
    seq_effect (B "eraseFromIndex:toIndex:") [a; b] (pre ++ mid ++ post) (pre ++ post) (B "null")
| eff_reverse v : seq_effect (B "reverse") [] v (rev v) (B "null")
| eff_clear v : seq_effect (B "clear") [] v [] (B "null").

(** C19.  [equals x y]: neither is before the other. *)
Definition equals (x y : obj) : Prop := relates tol x y Eq.
(** [l] lists, in increasing order, the positions of [v] (counted from [base]) that hold a value equal to [x]. *)
Definition positions (x : obj) (base : Z) (v : list obj) (l : list Z) : Prop :=
  StronglySorted Z.lt l /\ (forall i, In i l <-> exists k y, i = base + Z.of_nat k /\ nth_error v k = Some y /\ equals y x).
(** [first_match x base v i]: the first of them, or -1. *)
Definition first_match (x : obj) (base : Z) (v : list obj) (i : Z) : Prop :=
  (i = -1 /\ Forall (fun y => ~ equals y x) v) \/
  (exists pre y post, v = pre ++ y :: post /\ Forall (fun y => ~ equals y x) pre /\ equals y x /\ i = base + size pre).
(** The first value equal to [x] is removed / replaced by [z], if there is one. *)
Definition removes_first (x : obj) (v v' : list obj) : Prop :=
  (v' = v /\ Forall (fun y => ~ equals y x) v) \/
  (exists pre y post, v = pre ++ y :: post /\ Forall (fun y => ~ equals y x) pre /\ equals y x /\ v' = pre ++ post).
Definition replaces_first (x z : obj) (v v' : list obj) : Prop :=
  (v' = v /\ Forall (fun y => ~ equals y x) v) \/
  (exists pre y post, v = pre ++ y :: post /\ Forall (fun y => ~ equals y x) pre /\ equals y x /\ v' = pre ++ z :: post).
(** All of them. *)
Inductive removes_all (x : obj) : list obj -> list obj -> Prop :=
| rem_none : removes_all x [] []
| rem_drop y v v' : equals y x -> removes_all x v v' -> removes_all x (y :: v) v'
| rem_keep y v v' : ~ equals y x -> removes_all x v v' -> removes_all x (y :: v) (y :: v').
Definition replaces_all (x z : obj) (v v' : list obj) : Prop :=
  Forall2 (fun y y' => (equals y x /\ y' = z) \/ (~ equals y x /\ y' = y)) v v'.

Inductive search_effect : bytes -> list bytes -> list obj -> list obj -> bytes -> Prop :=
| eff_contains_true a x v : literal_of t a x -> Exists (fun y => equals y x) v -> search_effect (B "contains?") [a] v v (truth true)
| eff_contains_false a x v : literal_of t a x -> Forall (fun y => ~ equals y x) v -> search_effect (B "contains?") [a] v v (truth false)
| eff_contains_from_true a b x pre post : literal_of t a x -> index_of b (size pre) -> Exists (fun y => equals y x) post ->
    search_effect (B "contains?fromIndex:") [a; b] (pre ++ post) (pre ++ post) (truth true)
| eff_contains_from_false a b x pre post : literal_of t a x -> index_of b (size pre) -> Forall (fun y => ~ equals y x) post ->
    search_effect (B "contains?fromIndex:") [a; b] (pre ++ post) (pre ++ post) (truth false)
| eff_count a x v l ans : literal_of t a x -> positions x 0 v l -> prints_int (size l) ans -> search_effect (B "count:") [a] v v ans
| eff_firstIndexOf a x v i ans : literal_of t a x -> first_match x 0 v i -> prints_int i ans -> search_effect (B "firstIndexOf:") [a] v v ans
| eff_firstIndexOf_from a b x pre post i ans : literal_of t a x -> index_of b (size pre) -> first_match x (size pre) post i ->
    prints_int i ans -> search_effect (B "firstIndexOf:fromIndex:") [a; b] (pre ++ post) (pre ++ post) ans
| eff_allIndexesOf a x v l texts : literal_of t a x -> positions x 0 v l -> Forall2 prints_int l texts ->
    search_effect (B "allIndexesOf:") [a] v v (listing texts)
| eff_removeFirst a x v v' : literal_of t a x -> removes_first x v v' -> search_effect (B "removeFirst:") [a] v v' (B "null")
| eff_removeFirst_from a b x pre post post' : literal_of t a x -> index_of b (size pre) -> removes_first x post post' ->
    search_effect (B "removeFirst:fromIndex:") [a; b] (pre ++ post) (pre ++ post') (B "null")
| eff_removeAll a x v v' : literal_of t a x -> removes_all x v v' -> search_effect (B "removeAll:") [a] v v' (B "null")
| eff_replaceFirst a w x z v v' : literal_of t a x -> literal_of t w z -> replaces_first x z v v' ->
    search_effect (B "replaceFirst:with:") [a; w] v v' (B "null")
| eff_replaceFirst_from a b w x z pre post post' : literal_of t a x -> index_of b (size pre) -> literal_of t w z ->
    replaces_first x z post post' -> search_effect (B "replaceFirst:fromIndex:with:") [a; b; w] (pre ++ post) (pre ++ post') (B "null")
| eff_replaceAll a w x z v v' : literal_of t a x -> literal_of t w z -> replaces_all x z v v' ->
    search_effect (B "replaceAll:with:") [a; w] v v' (B "null").
End Effects.

(** The messages above, their number of arguments and which of these are indexes or counts (0 is the first argument). *)
Definition seq_messages : list (bytes * nat * list nat) :=
  [(B "get", 0, []); (B "isEmpty?", 0, []); (B "size", 0, []); (B "atIndex:", 1, [0]); (B "first:", 1, [0]); (B "last:", 1, [0]);
   (B "sliceFromIndex:", 1, [0]); (B "sliceFromIndex:toIndex:", 2, [0; 1]); (B "pushBack:", 1, []); (B "pushFront:", 1, []);
   (B "popBack", 0, []); (B "popFront", 0, []); (B "popAtIndex:", 1, [0]); (B "insert:beforeIndex:", 2, [1]);
   (B "eraseFromIndex:", 1, [0]); (B "eraseFromIndex:toIndex:", 2, [0; 1]); (B "reverse", 0, []); (B "clear", 0, [])]%nat.
Definition search_messages : list (bytes * nat * list nat) :=
  [(B "contains?", 1, []); (B "contains?fromIndex:", 2, [1]); (B "count:", 1, []); (B "firstIndexOf:", 1, []);
   (B "firstIndexOf:fromIndex:", 2, [1]); (B "allIndexesOf:", 1, []); (B "removeFirst:", 1, []); (B "removeFirst:fromIndex:", 2, [1]);
   (B "removeAll:", 1, []); (B "replaceFirst:with:", 2, []); (B "replaceFirst:fromIndex:with:", 3, [1]); (B "replaceAll:with:", 2, [])]%nat.
(** No index, and no element of an Integer vector, is too large for 32 bits. *)
Definition in_range (t : bytes) (indexes : list nat) (args : list bytes) : Prop :=
  forall k a, nth_error args k = Some a -> t = B "Integer" \/ In k indexes -> ~ out_of_range a.
(** The answer when the message is refused. *)
Definition refusal (nargs : nat) (args : list bytes) : bytes := if Nat.eqb (length args) nargs then ERR_ARGUMENT else ERR_NARGS.
