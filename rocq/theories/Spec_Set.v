(** Specification of sets and dictionaries (C21-C23): the mathematical set or finite map that a history of messages builds. *)
From Coq Require Import String List Ascii ZArith Reals Sorting.Sorted.
From Coq Require Import Floats.SpecFloat.
From Verif Require Import Num Instance Context.
From Verif Require Import Spec_Grammar Spec_State Spec_Names Spec_Text Spec_Number Spec_Float Spec_Order Spec_Vector Spec_String.
Import ListNotations.
Open Scope list_scope.
Open Scope Z_scope.

(** [l] is in strictly increasing order (so no two elements are equal, as far as comparisons can tell). *)
Definition strictly_increasing (tol : spec_float) (l : list obj) : Prop := StronglySorted (before tol) l.
(** [l] lists the elements of the set [S], in strictly increasing order. *)
Definition lists (tol : spec_float) (S : obj -> Prop) (l : list obj) : Prop :=
  strictly_increasing tol l /\ forall x, In x l <-> S x.
(** [d] lists the associations of the finite map [f], by strictly increasing key. *)
Definition lists_map (tol : spec_float) (f : obj -> option obj) (d : list (obj * obj)) : Prop :=
  strictly_increasing tol (map fst d) /\ forall k v, In (k, v) d <-> f k = Some v.

(** Mathematical set and map operations. *)
Definition nothing : obj -> Prop := fun _ => False.
Definition with_element (S : obj -> Prop) (x : obj) : obj -> Prop := fun y => S y \/ y = x.
Definition without_element (S : obj -> Prop) (x : obj) : obj -> Prop := fun y => S y /\ y <> x.
Definition obj_dec : forall a b : obj, {a = b} + {a <> b}.
Proof. repeat decide equality. Defined.
Definition no_association : obj -> option obj := fun _ => None.
Definition with_association (f : obj -> option obj) (k v : obj) : obj -> option obj := fun x => if obj_dec x k then Some v else f x.
Definition without_key (f : obj -> option obj) (k : obj) : obj -> option obj := fun x => if obj_dec x k then None else f x.

(** The line does not ask for the deletion of the variable [n]. *)
Definition keeps (line n : bytes) : Prop :=
  ~ statement line (B "Context") (B "deleteVariable:") [n] /\
  forall ns i, n = qualified ns i -> ~ statement line (B "Context") (B "deleteVariablesOfNamespace:") [ns].
(** The line does not send any of the messages [ms] to [n]. *)
Definition silent (line n : bytes) (ms : list bytes) : Prop := forall m args, In m ms -> ~ statement line n m args.

Section History.
Context (srt : sorter) (pw n : bytes).
(** [set_history t c S]: the data [c] came about by some history of statements of any sessions, since whose last creation of
    the variable [n] as a Set<t> the messages add:, remove: and clear have built the set [S]. *)
Inductive set_history (t : bytes) : context -> (obj -> Prop) -> Prop :=
| set_created c s line T m args c' s' ans : reachable srt pw c -> ~ live c n -> set_type T t ->
    statement line T m args -> creates T m args n (ISet t []) -> runs srt pw c s line c' s' ans -> set_history t c' nothing
| set_added c S s line a x c' s' ans : set_history t c S -> statement line n (B "add:") [a] -> literal_of t a x ->
    runs srt pw c s line c' s' ans -> set_history t c' (with_element S x)
| set_removed c S s line a x c' s' ans : set_history t c S -> statement line n (B "remove:") [a] -> literal_of t a x ->
    runs srt pw c s line c' s' ans -> set_history t c' (without_element S x)
| set_cleared c S s line c' s' ans : set_history t c S -> statement line n (B "clear") [] ->
    runs srt pw c s line c' s' ans -> set_history t c' nothing
| set_other c S s line c' s' ans : set_history t c S -> runs srt pw c s line c' s' ans ->
    (keeps line n /\ silent line n [B "add:"; B "remove:"; B "clear"]) \/ looks_like_error ans -> set_history t c' S.
(** The same for a dictionary with keys of type [kt] and values of type [vt]. *)
Inductive dictionary_history (kt vt : bytes) : context -> (obj -> option obj) -> Prop :=
| dictionary_created c s line T m args c' s' ans : reachable srt pw c -> ~ live c n -> dictionary_type T kt vt ->
    statement line T m args -> creates T m args n (IDict kt vt []) -> runs srt pw c s line c' s' ans ->
    dictionary_history kt vt c' no_association
| dictionary_associated c f s line a b v k c' s' ans : dictionary_history kt vt c f ->
    statement line n (B "associateValue:withKey:") [a; b] -> literal_of vt a v -> literal_of kt b k ->
    runs srt pw c s line c' s' ans -> dictionary_history kt vt c' (with_association f k v)
| dictionary_removed c f s line b k c' s' ans : dictionary_history kt vt c f -> statement line n (B "removeKey:") [b] -> literal_of kt b k ->
    runs srt pw c s line c' s' ans -> dictionary_history kt vt c' (without_key f k)
| dictionary_cleared c f s line c' s' ans : dictionary_history kt vt c f -> statement line n (B "clear") [] ->
    runs srt pw c s line c' s' ans -> dictionary_history kt vt c' no_association
| dictionary_other c f s line c' s' ans : dictionary_history kt vt c f -> runs srt pw c s line c' s' ans ->
    (keeps line n /\ silent line n [B "associateValue:withKey:"; B "removeKey:"; B "clear"]) \/ looks_like_error ans ->
    dictionary_history kt vt c' f.
End History.

(** "((k1,v1),(k2,v2))" *)
Definition pair_text (p : bytes * bytes) : bytes := B "(" ++ fst p ++ B "," ++ snd p ++ B ")".
Definition shows_dictionary (precision : Z) (d : list (obj * obj)) (ans : bytes) : Prop :=
  exists texts, Forall2 (fun p q => shows precision (fst p) (fst q) /\ shows precision (snd p) (snd q)) d texts /\
    ans = B "(" ++ joined (map pair_text texts) ++ B ")".

(** The messages and their numbers of arguments. *)
Definition set_messages : list (bytes * nat) :=
  [(B "get", 0%nat); (B "isEmpty?", 0%nat); (B "contains?", 1%nat); (B "size", 0%nat); (B "add:", 1%nat); (B "remove:", 1%nat); (B "clear", 0%nat)].
Definition dictionary_messages : list (bytes * nat) :=
  [(B "get", 0%nat); (B "isEmpty?", 0%nat); (B "containsKey?", 1%nat); (B "size", 0%nat); (B "keys", 0%nat); (B "values", 0%nat);
   (B "getValueForKey:", 1%nat); (B "associateValue:withKey:", 2%nat); (B "removeKey:", 1%nat); (B "clear", 0%nat)].

(** C23.  A history in which the comparison tolerance, whatever it was at the start, was never raised. *)
Definition not_raised (tol tol' : spec_float) : Prop :=
  tol' = tol \/ (finite tol /\ finite tol' /\ (value tol' <= value tol)%R).
Inductive reachable_never_raising (srt : sorter) (pw : bytes) : context -> Prop :=
| never_start opened precision tol is_quiet : single_precision tol -> reachable_never_raising srt pw (new_context opened precision tol is_quiet)
| never_step c s line c' s' ans : reachable_never_raising srt pw c -> runs srt pw c s line c' s' ans ->
    not_raised (tolerance c) (tolerance c') -> reachable_never_raising srt pw c'.
(** The values of [l] are either the same number or far enough apart to be told from each other. *)
Definition separated (tol : spec_float) (l : list obj) : Prop :=
  forall a b, In a l -> In b l ->
    before tol a b \/ before tol b a \/ a = b \/ exists f g, a = OFloat f /\ b = OFloat g /\ extended_of f = extended_of g.

(** The requirement of the sorted containers of the C++ library, when the value [x] is looked up or inserted among [v]. *)
Definition usable (tol : spec_float) (x : obj) (v : list obj) : Prop := weak_order tol (x :: v) /\ strictly_increasing tol v.
(** Adding [x] to [v] has no effect if an equal value is there, else inserts it at its place in the order. *)
Definition added (tol : spec_float) (x : obj) (v v' : list obj) : Prop :=
  strictly_increasing tol v' /\
  ((Exists (fun y => equals tol y x) v /\ v' = v) \/
   (Forall (fun y => ~ equals tol y x) v /\ forall z, In z v' <-> z = x \/ In z v)).
(** Removing [x] from [v] removes the values equal to [x]. *)
Definition removed (tol : spec_float) (x : obj) (v v' : list obj) : Prop :=
  strictly_increasing tol v' /\ forall z, In z v' <-> In z v /\ ~ equals tol z x.
(** Associating [x] with [k] replaces the value at the key equal to [k], if there is one, else adds a new key. *)
Definition associated (tol : spec_float) (k x : obj) (d d' : list (obj * obj)) : Prop :=
  strictly_increasing tol (map fst d') /\
  ((exists k', In k' (map fst d) /\ equals tol k' k /\ forall a b, In (a, b) d' <-> (a = k' /\ b = x) \/ (a <> k' /\ In (a, b) d)) \/
   (Forall (fun k' => ~ equals tol k' k) (map fst d) /\ forall a b, In (a, b) d' <-> (a = k /\ b = x) \/ In (a, b) d)).
Definition dissociated (tol : spec_float) (k : obj) (d d' : list (obj * obj)) : Prop :=
  strictly_increasing tol (map fst d') /\ forall a b, In (a, b) d' <-> In (a, b) d /\ ~ equals tol a k.
(** The messages that look a value up in a set, or a key in a dictionary. *)
Definition set_lookups : list bytes := [B "contains?"; B "add:"; B "remove:"].
Definition dictionary_lookups : list bytes := [B "containsKey?"; B "getValueForKey:"; B "removeKey:"].
