(** What the tolerance changes in the answers and effects of messages to a variable. *)
From Coq Require Import ZArith Reals QArith Sorting.Sorted Sorting.Permutation.
From Verif Require Import Bytes StrUtils Grammar Outcome Parser Num Containers Instance Context Server Platform.
From Verif Require Import Lemmas StringLit Proof_Grammar Proof_Parser Proof_Exec WP Proof_Inv Proof_Literal Proof_Receive Proof_Context Proof_Names Api Proof_Text.
From Verif Require Import Proof_Number Proof_Float Proof_Arith Proof_Order Props_Text Props_State Props_Number Props_Float Props_Order Props_Sorter Proof_Display.
From Verif Require Import Spec_Grammar Spec_State Spec_Names Spec_Text Spec_Number Spec_Float Spec_Order Spec_Local Spec_Display Spec_Tolerance.
Local Open Scope Z_scope.
Local Open Scope list_scope.

Lemma less_no eps eps' a b : no_float a -> no_float b -> is_less_than eps a b = is_less_than eps' a b.
Proof. intros A B. destruct a, b; try reflexivity; try (now destruct (A f)); now destruct (B f). Qed.
Lemma greater_no eps eps' a b : no_float a -> no_float b -> is_greater_than eps a b = is_greater_than eps' a b.
Proof. intros A B. destruct a, b; try reflexivity; try (now destruct (A f)); now destruct (B f). Qed.
Lemma equal_no eps eps' a b : no_float a -> no_float b -> is_equal_to eps a b = is_equal_to eps' a b.
Proof. intros A B. unfold is_equal_to. now rewrite (less_no eps eps' a b A B), (greater_no eps eps' a b A B). Qed.
Lemma lessq_no eps eps' a b : no_float a -> no_float b -> is_less_than_or_equal_to eps a b = is_less_than_or_equal_to eps' a b.
Proof. intros A B. unfold is_less_than_or_equal_to. now rewrite (less_no eps eps' a b A B), (equal_no eps eps' a b A B). Qed.
Lemma greaterq_no eps eps' a b : no_float a -> no_float b -> is_greater_than_or_equal_to eps a b = is_greater_than_or_equal_to eps' a b.
Proof. intros A B. unfold is_greater_than_or_equal_to. now rewrite (greater_no eps eps' a b A B), (equal_no eps eps' a b A B). Qed.
Lemma opt_no eps eps' a b : no_float a -> no_float b -> less_opt eps a b = less_opt eps' a b.
Proof. intros A B. unfold less_opt. now rewrite (less_no eps eps' a b A B). Qed.
Lemma shared_no t a x : t <> B "Float" -> get_shared_instance t a = Ok x -> no_float x.
Proof.
  intros N H. unfold get_shared_instance in H.
  destruct (seq_eqb t $"Boolean"); [destruct (boolean_of a); inversion H; discriminate|].
  destruct (seq_eqb t $"Character"); [destruct (character_of a); inversion H; discriminate|].
  destruct (seq_eqb t $"Integer"); [destruct (integer_of a); inversion H; discriminate|].
  destruct (seq_eqb t $"Float") eqn:E; [apply seq_eqb_eq in E; contradiction|].
  destruct (seq_eqb t $"String"); [destruct (string_of a); inversion H; discriminate|]. discriminate H.
Qed.
Lemma typed_no t x : t <> B "Float" -> has_type t x -> no_float x.
Proof. intros N H f ->. now apply N. Qed.

(** ** orders that agree on a list *)
Section Agree.
Context (lt lt' : obj -> obj -> option bool) (P : obj -> Prop) (Ag : forall a b, P a -> P b -> lt a b = lt' a b).
Lemma ltb_ag a b : P a -> P b -> ltb lt a b = ltb lt' a b. Proof. intros A B. unfold ltb. now rewrite Ag. Qed.
Lemma inc_ag a b : P a -> P b -> incomparable lt a b = incomparable lt' a b. Proof. intros A B. unfold incomparable. now rewrite !ltb_ag. Qed.
Lemma forallb_ag (f g : obj -> bool) l : Forall P l -> (forall x, P x -> f x = g x) -> forallb f l = forallb g l.
Proof. intros F H. induction F; cbn [forallb]; [reflexivity|]. now rewrite H, IHF. Qed.
Lemma swo_ag l : Forall P l -> strict_weak_order_on lt l = strict_weak_order_on lt' l.
Proof.
  intros F. unfold strict_weak_order_on, defined_on. f_equal; [f_equal|].
  - apply forallb_ag; [exact F|]. intros a A. apply forallb_ag; [exact F|]. intros b B. now rewrite Ag.
  - apply forallb_ag; [exact F|]. intros a A. now rewrite ltb_ag.
  - apply forallb_ag; [exact F|]. intros a A. apply forallb_ag; [exact F|]. intros b B. apply forallb_ag; [exact F|]. intros c C. now rewrite !ltb_ag, !inc_ag.
Qed.
Lemma sorted_ag l : Forall P l -> strictly_sorted lt l = strictly_sorted lt' l.
Proof. intros F. induction F as [|a l A F IH]; cbn [strictly_sorted]; [reflexivity|]. rewrite IH. f_equal. apply forallb_ag; [exact F|]. intros b B. now apply ltb_ag. Qed.
Lemma tree_ag k l : P k -> Forall P l -> tree_ok lt k l = tree_ok lt' k l.
Proof. intros K F. unfold tree_ok. rewrite swo_ag by (now constructor). now rewrite sorted_ag. Qed.
Lemma find_ag k l : P k -> Forall P l -> find (fun x => incomparable lt x k) l = find (fun x => incomparable lt' x k) l.
Proof. intros K F. induction F as [|a l A F IH]; cbn [find]; [reflexivity|]. now rewrite inc_ag, IH. Qed.
Lemma set_find_ag k l : P k -> Forall P l -> set_find lt l k = set_find lt' l k.
Proof. intros K F. unfold set_find. now rewrite tree_ag, find_ag. Qed.
Lemma insert_ag k l : P k -> Forall P l -> insert_sorted lt l k = insert_sorted lt' l k.
Proof. intros K F. induction F as [|a l A F IH]; cbn [insert_sorted]; [reflexivity|]. rewrite !ltb_ag by assumption. now rewrite IH. Qed.
Lemma set_insert_ag k l : P k -> Forall P l -> set_insert lt l k = set_insert lt' l k.
Proof. intros K F. unfold set_insert. now rewrite tree_ag, insert_ag. Qed.
Lemma set_erase_ag k l : P k -> Forall P l -> set_erase lt l k = set_erase lt' l k.
Proof.
  intros K F. unfold set_erase. rewrite tree_ag by assumption. destruct (tree_ok lt' k l); [|reflexivity]. f_equal.
  induction F as [|a l A F IH]; cbn [filter]; [reflexivity|]. now rewrite inc_ag, IH.
Qed.
Lemma map_find_ag k (l : list (obj * obj)) : P k -> Forall (fun p => P (fst p)) l -> map_find lt l k = map_find lt' l k.
Proof.
  intros K F. unfold map_find. rewrite tree_ag; [|exact K|now apply Forall_map]. destruct (tree_ok lt' k _); [|reflexivity]. f_equal.
  induction F as [|a l A F IH]; cbn [find]; [reflexivity|]. now rewrite inc_ag, IH.
Qed.
Lemma map_erase_ag k (l : list (obj * obj)) : P k -> Forall (fun p => P (fst p)) l -> map_erase lt l k = map_erase lt' l k.
Proof.
  intros K F. unfold map_erase. rewrite tree_ag; [|exact K|now apply Forall_map]. destruct (tree_ok lt' k _); [|reflexivity]. f_equal.
  induction F as [|a l A F IH]; cbn [filter]; [reflexivity|]. now rewrite inc_ag, IH.
Qed.
Lemma map_assign_ag k v (l : list (obj * obj)) : P k -> Forall (fun p => P (fst p)) l -> map_assign lt l k v = map_assign lt' l k v.
Proof.
  intros K F. unfold map_assign. rewrite tree_ag; [|exact K|now apply Forall_map]. destruct (tree_ok lt' k _); [|reflexivity]. f_equal.
  induction F as [|[x w] l A F IH]; cbn [assign_sorted]; [reflexivity|]. cbn [fst] in A. rewrite !ltb_ag by assumption. now rewrite IH.
Qed.
End Agree.

(** ** the loops of vectors *)
Lemma vec_erase_no v i r : Forall no_float v -> vec_erase_at v i = Ok r -> Forall no_float r.
Proof.
  intros F H. unfold vec_erase_at in H. destruct (_ : bool); [discriminate H|]. inversion H; subst; clear H. rewrite Forall_forall in *. intros x I. apply F.
  apply in_app_or in I as [I|I]; [rewrite <- (firstn_skipn (Z.to_nat i) v)|rewrite <- (firstn_skipn (S (Z.to_nat i)) v)]; apply in_or_app; auto.
Qed.
Lemma vec_set_no v i z r : Forall no_float v -> no_float z -> vec_set v i z = Ok r -> Forall no_float r.
Proof.
  intros F Z H. unfold vec_set in H. destruct (_ : bool); [discriminate H|]. inversion H; subst; clear H. rewrite Forall_forall in *. intros x I.
  apply in_app_or in I as [I|[<-|I]]; [apply F; rewrite <- (firstn_skipn (Z.to_nat i) v)|exact Z|apply F; rewrite <- (firstn_skipn (S (Z.to_nat i)) v)]; apply in_or_app; auto.
Qed.
Section Receive.
Context (p : Z) (eps eps' : f32) (srt : sorter).
Let E : env := {| e_precision := p; e_tolerance := eps; e_sort := srt |}.
Let E' : env := {| e_precision := p; e_tolerance := eps'; e_sort := srt |}.
Lemma contains_ag l x : Forall no_float l -> no_float x -> contains_loop E l x = contains_loop E' l x.
Proof. intros F X. induction F as [|a l A F IH]; cbn [contains_loop]; [reflexivity|]. change (e_tolerance E) with eps. change (e_tolerance E') with eps'. now rewrite (equal_no eps eps'), IH. Qed.
Lemma count_ag l x : Forall no_float l -> no_float x -> forall n, count_loop E l x n = count_loop E' l x n.
Proof.
  intros F X. induction F as [|a l A F IH]; intros n; cbn [count_loop]; [reflexivity|]. change (e_tolerance E) with eps. change (e_tolerance E') with eps'.
  rewrite (equal_no eps eps') by assumption. destruct (is_equal_to eps' a x); cbn [rbind]; auto.
Qed.
Lemma first_ag l x : Forall no_float l -> no_float x -> forall n, first_index_loop E l x n = first_index_loop E' l x n.
Proof.
  intros F X. induction F as [|a l A F IH]; intros n; cbn [first_index_loop]; [reflexivity|]. change (e_tolerance E) with eps. change (e_tolerance E') with eps'.
  rewrite (equal_no eps eps') by assumption. destruct (is_equal_to eps' a x) as [[]|e|u]; cbn [rbind]; auto.
Qed.
Lemma all_ag l x : Forall no_float l -> no_float x -> forall n acc, all_indexes_loop E l x n acc = all_indexes_loop E' l x n acc.
Proof.
  intros F X. induction F as [|a l A F IH]; intros n acc; cbn [all_indexes_loop]; [reflexivity|]. change (e_tolerance E) with eps. change (e_tolerance E') with eps'.
  rewrite (equal_no eps eps') by assumption. destruct (is_equal_to eps' a x) as [e|e|u]; cbn [rbind]; auto.
Qed.
Lemma remove_ag x : no_float x -> forall fuel i v, Forall no_float v -> remove_all_loop E fuel i x v = remove_all_loop E' fuel i x v.
Proof.
  intros X. induction fuel as [|f IH]; intros i v F; cbn [remove_all_loop]; unfold bind, get, lift, put; cbv beta iota; destruct (i <? zlen v); try reflexivity.
  change (e_tolerance E) with eps. change (e_tolerance E') with eps'.
  destruct (vec_at v i) as [y|e|u] eqn:Y; try reflexivity. rewrite (equal_no eps eps' y x (vec_at_no _ _ _ F Y) X). destruct (is_equal_to eps' y x) as [[]|e|u]; try reflexivity; [|now apply IH].
  cbv beta iota. destruct (vec_erase_at v i) as [r|e|u] eqn:R; try reflexivity. apply IH. exact (vec_erase_no _ _ _ F R).
Qed.
Lemma replace_ag et once w x : et <> B "Float" -> no_float x -> forall fuel i v, Forall no_float v -> replace_loop E et fuel once i x w v = replace_loop E' et fuel once i x w v.
Proof.
  intros T X. induction fuel as [|f IH]; intros i v F; cbn [replace_loop]; unfold bind, get, lift, put; cbv beta iota; destruct (i <? zlen v); try reflexivity.
  change (e_tolerance E) with eps. change (e_tolerance E') with eps'.
  destruct (vec_at v i) as [y|e|u] eqn:Y; try reflexivity. rewrite (equal_no eps eps' y x (vec_at_no _ _ _ F Y) X). destruct (is_equal_to eps' y x) as [[]|e|u]; try reflexivity; [|now apply IH].
  cbv beta iota. destruct (get_shared_instance et w) as [z|e|u] eqn:G; try reflexivity. destruct (vec_set v i z) as [r|e|u] eqn:R; try reflexivity. destruct once; [reflexivity|].
  apply IH. exact (vec_set_no _ _ _ _ F (shared_no _ _ _ T G) R).
Qed.
Lemma sort_ag t v : t <> B "Float" -> sort_contract srt -> V32 eps -> V32 eps' -> Forall (has_type t) v -> Forall sound v -> srt (less_opt eps) v = srt (less_opt eps') v.
Proof.
  intros N K Ve Ve' Ht Hs. assert (W := proj2 (swo_weak' _ t v Ve Ht Hs) (weak_order_plain _ t v N Ht)). assert (W' := proj2 (swo_weak' _ t v Ve' Ht Hs) (weak_order_plain _ t v N Ht)).
  destruct (K _ _ W) as [P1 S1], (K _ _ W') as [P2 S2].
  apply (in_order_unique eps t); auto.
  - now apply (Permutation_Forall P1).
  - etransitivity; [symmetry; exact P1|exact P2].
  - apply (contract_in_order _ t v); auto.
  - apply (contract_in_order _ t v); auto. clear - S2 P2 Ht N. assert (T2 := Permutation_Forall P2 Ht). clear P2 Ht. induction S2 as [|a l S IH F]; [constructor|]. inversion T2; subst. constructor; [now apply IH|].
    rewrite Forall_forall in *. intros b I. rewrite (opt_no eps eps'); [now apply F| |]; apply (typed_no t); auto.
Qed.

Lemma dispatch_at {S} (t t' : list (str * (list str -> M S str))) m args s :
  Forall2 (fun x y => fst x = fst y /\ (m = fst x -> snd x args s = snd y args s)) t t' -> dispatch t m args s = dispatch t' m args s.
Proof.
  induction 1 as [|[k op] [k' op'] t t' [E1 H] F IH]; cbn [dispatch]; [reflexivity|]. cbn [fst snd] in *. subst k'. destruct (seq_eqb m k) eqn:Q; auto. apply seq_eqb_eq in Q. auto.
Qed.
Ltac table3 := repeat (apply Forall2_cons; [split; [reflexivity|cbn [fst snd]; intros Em]|]); try apply Forall2_nil.
Ltac crush T F :=
  unfold bind, check_nargs, throw_if, arg, lift, get, put, ret, throw, undefined; cbv beta iota;
  try change (e_tolerance E) with eps; try change (e_tolerance E') with eps';
  repeat match goal with
  | G : get_shared_instance _ _ = Ok ?x |- context [contains_loop E ?l ?x] => rewrite (contains_ag l x) by first [exact (shared_no _ _ _ T G) | exact F | match goal with R : vec_range _ _ _ = Ok _ |- _ => exact (vec_range_no _ _ _ _ F R) end]
  | G : get_shared_instance _ _ = Ok ?x |- context [count_loop E ?l ?x] => rewrite (count_ag l x) by first [exact (shared_no _ _ _ T G) | exact F | match goal with R : vec_range _ _ _ = Ok _ |- _ => exact (vec_range_no _ _ _ _ F R) end]
  | G : get_shared_instance _ _ = Ok ?x |- context [first_index_loop E ?l ?x] => rewrite (first_ag l x) by first [exact (shared_no _ _ _ T G) | exact F | match goal with R : vec_range _ _ _ = Ok _ |- _ => exact (vec_range_no _ _ _ _ F R) end]
  | G : get_shared_instance _ _ = Ok ?x |- context [all_indexes_loop E ?l ?x] => rewrite (all_ag l x) by first [exact (shared_no _ _ _ T G) | exact F]
  | G : get_shared_instance _ _ = Ok ?x |- context [remove_all_loop E ?f ?i ?x] => rewrite (remove_ag x (shared_no _ _ _ T G) f i) by exact F
  | G : get_shared_instance _ _ = Ok ?x |- context [replace_loop E ?et ?f ?o ?i ?x ?w] => rewrite (replace_ag et o w x T (shared_no _ _ _ T G) f i) by exact F
  | G : get_shared_instance _ _ = Ok ?x |- context [set_find (less_opt eps) ?l ?x] => rewrite (set_find_ag (less_opt eps) (less_opt eps') no_float (opt_no eps eps') x l) by first [exact (shared_no _ _ _ T G) | exact F]
  | G : get_shared_instance _ _ = Ok ?x |- context [set_insert (less_opt eps) ?l ?x] => rewrite (set_insert_ag (less_opt eps) (less_opt eps') no_float (opt_no eps eps') x l) by first [exact (shared_no _ _ _ T G) | exact F]
  | G : get_shared_instance _ _ = Ok ?x |- context [set_erase (less_opt eps) ?l ?x] => rewrite (set_erase_ag (less_opt eps) (less_opt eps') no_float (opt_no eps eps') x l) by first [exact (shared_no _ _ _ T G) | exact F]
  | G : get_shared_instance _ _ = Ok ?x |- context [map_find (less_opt eps) ?l ?x] => rewrite (map_find_ag (less_opt eps) (less_opt eps') no_float (opt_no eps eps') x l) by first [exact (shared_no _ _ _ T G) | exact F]
  | G : get_shared_instance _ _ = Ok ?x |- context [map_erase (less_opt eps) ?l ?x] => rewrite (map_erase_ag (less_opt eps) (less_opt eps') no_float (opt_no eps eps') x l) by first [exact (shared_no _ _ _ T G) | exact F]
  | G : get_shared_instance _ _ = Ok ?x |- context [map_assign (less_opt eps) ?l ?x ?v] => rewrite (map_assign_ag (less_opt eps) (less_opt eps') no_float (opt_no eps eps') x v l) by first [exact (shared_no _ _ _ T G) | exact F]
  | |- ?a = ?a => reflexivity
  | |- context [match ?x with _ => _ end] => lazymatch x with context [match _ with _ => _ end] => fail | _ => destruct x eqn:?; cbv beta iota end
  end.
Ltac comparing Hc Em := apply Hc; split; [rewrite Em; vm_compute; auto 40|reflexivity].
Lemma set_same t v m args : ~ compares_floats (ISet t v) m args -> Forall (has_type t) v -> set_receive E t m args v = set_receive E' t m args v.
Proof.
  intros Hc Ht. assert (Hm : In m comparing_messages -> t <> B "Float") by (intros I T; apply Hc; now split).
  assert (F : t <> B "Float" -> Forall no_float v) by (intros T; revert Ht; apply Forall_impl; intros x; now apply typed_no).
  unfold set_receive. apply dispatch_at. table3.
  1,2,4,7: reflexivity.
  all: assert (T : t <> B "Float") by (apply Hm; rewrite Em; vm_compute; auto 40); specialize (F T).
  - unfold set_contains. crush T F.
  - unfold set_add. crush T F.
  - unfold set_remove. crush T F.
Qed.
Lemma dict_same kt vt d m args : ~ compares_floats (IDict kt vt d) m args -> Forall (fun q => has_type kt (fst q)) d -> dict_receive E kt vt m args d = dict_receive E' kt vt m args d.
Proof.
  intros Hc Ht. assert (Hm : In m comparing_messages -> kt <> B "Float") by (intros I T; apply Hc; now split).
  assert (F : kt <> B "Float" -> Forall (fun q : obj * obj => no_float (fst q)) d) by (intros T; revert Ht; apply Forall_impl; intros x; now apply typed_no).
  unfold dict_receive. apply dispatch_at. table3.
  1,2,4,5,6,10: reflexivity.
  all: assert (T : kt <> B "Float") by (apply Hm; rewrite Em; vm_compute; auto 40); specialize (F T).
  - unfold dict_containsKey. crush T F.
  - unfold dict_getValueForKey. crush T F. reflexivity.
  - unfold dict_associateValue_withKey. crush T F.
  - unfold dict_removeKey. crush T F.
Qed.
Lemma vector_same t v m args : ~ compares_floats (IVector t v) m args -> sort_contract srt -> V32 eps -> V32 eps' -> Forall (has_type t) v -> Forall sound v ->
  vector_receive E t m args v = vector_receive E' t m args v.
Proof.
  intros Hc K Ve Ve' Ht Hs. assert (Hm : In m comparing_messages -> t <> B "Float") by (intros I T; apply Hc; now split).
  assert (F : t <> B "Float" -> Forall no_float v) by (intros T; revert Ht; apply Forall_impl; intros x; now apply typed_no).
  unfold vector_receive. apply dispatch_at. table3.
  all: lazymatch goal with
  | |- vector_contains _ _ _ _ = _ => idtac | |- vector_contains_fromIndex _ _ _ _ = _ => idtac | |- vector_count _ _ _ _ = _ => idtac | |- vector_firstIndexOf _ _ _ _ = _ => idtac
  | |- vector_firstIndexOf_fromIndex _ _ _ _ = _ => idtac | |- vector_allIndexesOf _ _ _ _ = _ => idtac | |- vector_removeFirst _ _ _ _ = _ => idtac | |- vector_removeFirst_fromIndex _ _ _ _ = _ => idtac
  | |- vector_removeAll _ _ _ _ = _ => idtac | |- vector_replaceFirst_with _ _ _ _ = _ => idtac | |- vector_replaceFirst_fromIndex_with _ _ _ _ = _ => idtac | |- vector_replaceAll_with _ _ _ _ = _ => idtac
  | |- vector_sort _ _ _ = _ => idtac | |- _ => reflexivity end.
  all: assert (T : t <> B "Float") by (apply Hm; rewrite Em; vm_compute; auto 40); specialize (F T).
  - unfold vector_contains. crush T F.
  - unfold vector_contains_fromIndex. crush T F.
  - unfold vector_count. crush T F.
  - unfold vector_firstIndexOf. crush T F.
  - unfold vector_firstIndexOf_fromIndex. crush T F.
  - unfold vector_allIndexesOf. crush T F.
  - unfold vector_removeFirst. crush T F.
  - unfold vector_removeFirst_fromIndex. crush T F.
  - unfold vector_removeAll. crush T F.
  - unfold vector_replaceFirst_with. crush T F.
  - unfold vector_replaceFirst_fromIndex_with. crush T F.
  - unfold vector_replaceAll_with. crush T F.
  - unfold vector_sort, bind, check_nargs, throw_if, get, put, ret, throw, undefined. change (e_tolerance E) with eps. change (e_tolerance E') with eps'. change (e_sort E) with srt. change (e_sort E') with srt.
    destruct (negb _); cbv beta iota; [reflexivity|]. rewrite (swo_ag (less_opt eps) (less_opt eps') no_float (opt_no eps eps') v F), (sort_ag t v T K Ve Ve' Ht Hs). reflexivity.
Qed.
Ltac table4 := repeat (apply Forall2_cons; [split; [reflexivity|cbn [fst snd]; intros Em; try reflexivity]|]); try apply Forall2_nil.
Lemma character_same ch m args : character_receive E m args ch = character_receive E' m args ch.
Proof. unfold character_receive. apply dispatch_at. table4. Qed.
Lemma string_same v m args : string_receive E m args v = string_receive E' m args v.
Proof. unfold string_receive. apply dispatch_at. table4. Qed.
Lemma integer_compare_same cmp cmp' (args : list str) z : (forall o, cmp (OInt z) (OInt o) = cmp' (OInt z) (OInt o)) -> ~ (exists a, In a args /\ float_value a /\ ~ integer_value a) ->
  integer_compare cmp args z = integer_compare cmp' args z.
Proof.
  intros H F. unfold integer_compare, bind, check_nargs, throw_if, arg, lift, get, put, ret, throw, undefined. destruct (negb _); cbv beta iota; [reflexivity|].
  destruct (nth_error args 0) as [a|] eqn:N; cbv beta iota; [|reflexivity]. apply nth_error_In in N. destruct (is_integer_value a) eqn:Ei; cbn [negb andb].
  - destruct (integer_of a); cbn [rbind]; [|reflexivity|reflexivity]. now rewrite H.
  - destruct (is_float_value a) eqn:Ef; cbn [negb]; [|reflexivity]. exfalso. apply F. exists a. split; [exact N|]. split; [now apply is_float_value_iff|].
    intros X. apply is_integer_value_iff in X. rewrite X in Ei. discriminate Ei.
Qed.
Lemma integer_same z m args : ~ compares_floats (IObj (OInt z)) m args -> integer_receive E m args z = integer_receive E' m args z.
Proof.
  intros Hc. unfold integer_receive. apply dispatch_at. change (e_tolerance E) with eps. change (e_tolerance E') with eps'. table3.
  all: lazymatch goal with |- integer_compare _ _ _ = _ => idtac | |- _ => reflexivity end.
  all: apply integer_compare_same; [intros o; first [apply equal_no|apply less_no|apply lessq_no|apply greater_no|apply greaterq_no]; intros f X; discriminate X|].
  all: intros N; apply Hc; split; [rewrite Em; vm_compute; auto 40|]; split; [rewrite Em; vm_compute; discriminate|exact N].
Qed.
Lemma float_same f m args : ~ compares_floats (IObj (OFloat f)) m args -> float_receive E m args f = float_receive E' m args f.
Proof.
  intros Hc. unfold float_receive. apply dispatch_at. change (e_tolerance E) with eps. change (e_tolerance E') with eps'. table3.
  all: lazymatch goal with |- float_compare _ _ _ = _ => idtac | |- _ => reflexivity end.
  all: exfalso; apply Hc; split; [rewrite Em; vm_compute; auto 40|rewrite Em; vm_compute; discriminate].
Qed.
Definition in_shape (i : inst) : Prop :=
  match i with
  | IObj _ => True
  | IVector t v => Forall (has_type t) v /\ Forall sound v
  | ISet t v => Forall (has_type t) v
  | IDict kt vt d => Forall (fun q => has_type kt (fst q)) d
  end.
Lemma receive_tolerance i m args : ~ compares_floats i m args -> sort_contract srt -> V32 eps -> V32 eps' -> in_shape i -> receive E i m args = receive E' i m args.
Proof.
  intros Hc K Ve Ve' Sh. destruct i as [[b|ch|z|f|s]|t v|t v|kt vt d]; cbn [receive in_shape] in *.
  - reflexivity.
  - apply on_eq, character_same.
  - apply on_eq. now apply integer_same.
  - apply on_eq. now apply float_same.
  - apply on_eq, string_same.
  - apply on_eq. now apply vector_same.
  - apply on_eq. now apply set_same.
  - apply on_eq. now apply dict_same.
Qed.
End Receive.
