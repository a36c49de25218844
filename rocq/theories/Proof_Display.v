(** What the precision of the display changes in the answers of a variable. *)
From Verif Require Import Bytes StrUtils Grammar Outcome Parser Num Containers Instance Context Server Platform.
From Verif Require Import Lemmas StringLit Proof_Grammar Proof_Parser Proof_Exec WP Proof_Inv Proof_Literal Proof_Receive Proof_Context Proof_Names Api Proof_Text Proof_Order Proof_Local Props_State Props_Local.
From Verif Require Import Spec_Grammar Spec_State Spec_Names Spec_Text Spec_Local Spec_Display.
From Coq Require Import Lia.
Local Open Scope list_scope.

(** ** results of the same kind *)
Definition same_kind (r r' : res str) : Prop :=
  match r, r' with Ok _, Ok _ => True | Throw e, Throw e' => e = e' | UB u, UB u' => u = u' | _, _ => False end.
Lemma same_kind_refl r : same_kind r r. Proof. destruct r; cbn; auto. Qed.
Definition like {S} (m m' : M S str) : Prop := forall s, fst (m s) = fst (m' s) /\ same_kind (snd (m s)) (snd (m' s)).
Lemma like_refl {S} (m : M S str) : like m m. Proof. intros s. split; auto. apply same_kind_refl. Qed.
Lemma like_ret {S} a b : like (@ret S str a) (ret b). Proof. intros s. split; cbn; auto. Qed.
Lemma like_bind {S A} (m : M S A) (f g : A -> M S str) : (forall a, like (f a) (g a)) -> like (bind m f) (bind m g).
Proof. intros H s. unfold bind. destruct (m s) as [s1 [a|e|u]]; [apply H|split; cbn; auto|split; cbn; auto]. Qed.
Lemma like_dispatch {S} (t t' : list (str * (list str -> M S str))) m args :
  Forall2 (fun x y => fst x = fst y /\ forall a, like (snd x a) (snd y a)) t t' -> like (dispatch t m args) (dispatch t' m args).
Proof.
  induction 1 as [|[k op] [k' op'] t t' [E H] F IH]; cbn [dispatch]; [apply like_refl|]. cbn [fst snd] in *. subst k'. destruct (seq_eqb m k); auto.
Qed.
Ltac like := repeat first [apply like_refl | apply like_ret | apply like_bind; intros
  | match goal with |- like (if ?b then _ else _) _ => destruct b end | match goal with |- like (match ?b with _ => _ end) _ => destruct b end ].

Ltac table := repeat (apply Forall2_cons; [split; [reflexivity|intros ?; cbn [snd]; try apply like_refl]|]); try apply Forall2_nil.

Ltac table2 := repeat (apply Forall2_cons; [split; [reflexivity|intros ?; cbn [snd]]|]); try apply Forall2_nil.
Lemma in_firstn_skipn {A} (l : list A) i j x : In x (firstn j (skipn i l)) -> In x l.
Proof.
  intros I. assert (I2 : In x (skipn i l)) by (rewrite <- (firstn_skipn j (skipn i l)); apply in_or_app; now left).
  rewrite <- (firstn_skipn i l). apply in_or_app. now right.
Qed.

Section Receive.
Context (p q : Z) (tol : f32) (srt : (obj -> obj -> option bool) -> list obj -> list obj).
Let E : env := {| e_precision := p; e_tolerance := tol; e_sort := srt |}.
Let E' : env := {| e_precision := q; e_tolerance := tol; e_sort := srt |}.
Lemma receive_like i m args : fst (receive E i m args) = fst (receive E' i m args) /\ same_kind (snd (receive E i m args)) (snd (receive E' i m args)).
Proof.
  assert (On : forall S (f : S -> inst) (m1 m2 : M S str) s, like m1 m2 -> fst (on f (m1 s)) = fst (on f (m2 s)) /\ same_kind (snd (on f (m1 s))) (snd (on f (m2 s)))).
  { intros S f m1 m2 s H. unfold on. destruct (H s) as [H1 H2]. destruct (m1 s) as [s1 r1], (m2 s) as [s2 r2]. cbn [fst snd] in *. subst. auto. }
  destruct i as [[b|ch|z|f|v]|et v|et v|kt vt d]; cbn [receive].
  - split; auto. apply same_kind_refl.
  - split; auto. apply same_kind_refl.
  - split; auto. apply same_kind_refl.
  - apply On. unfold float_receive. apply like_dispatch. table. unfold float_get. like.
  - split; auto. apply same_kind_refl.
  - apply On. unfold vector_receive. apply like_dispatch. table.
    all: unfold vector_get, vector_atIndex, vector_popBack, vector_popFront, vector_first, vector_last, vector_sliceFromIndex, vector_sliceFromIndex_toIndex, vector_popAtIndex; like.
  - apply On. unfold set_receive. apply like_dispatch. table. unfold set_get. like.
  - apply On. unfold dict_receive. apply like_dispatch. table.
    all: unfold dict_get, dict_keys, dict_values, dict_getValueForKey; like.
Qed.

(** ** values without floating-point numbers *)
Lemma repr_eq x : no_float x -> obj_repr E x = obj_repr E' x.
Proof. destruct x; intros N; try reflexivity. now destruct (N f). Qed.
Lemma vector_repr_eq v : Forall no_float v -> vector_representation E v = vector_representation E' v.
Proof. intros F. unfold vector_representation. now rewrite (map_ext_Forall _ _ (Forall_impl _ repr_eq F)). Qed.
Lemma set_repr_eq v : Forall no_float v -> set_representation E v = set_representation E' v.
Proof. intros F. unfold set_representation. now rewrite (map_ext_Forall _ _ (Forall_impl _ repr_eq F)). Qed.
Lemma dict_repr_eq d : Forall (fun p => no_float (fst p) /\ no_float (snd p)) d -> dict_representation E d = dict_representation E' d.
Proof.
  intros F. unfold dict_representation. do 2 f_equal. f_equal. apply map_ext_Forall. revert F. apply Forall_impl. intros [k v] [H1 H2]. cbn [fst snd] in *.
  now rewrite (repr_eq _ H1), (repr_eq _ H2).
Qed.
Lemma vec_at_no v i x : Forall no_float v -> vec_at v i = Ok x -> no_float x.
Proof.
  intros F H. unfold vec_at in H. destruct (i <? 0)%Z; [discriminate H|]. destruct (nth_error v (Z.to_nat i)) eqn:N; [|discriminate H].
  inversion H; subst. rewrite Forall_forall in F. apply F. now apply nth_error_In in N.
Qed.
Lemma vec_range_no v i j r : Forall no_float v -> vec_range v i j = Ok r -> Forall no_float r.
Proof.
  intros F H. unfold vec_range in H. destruct (_ : bool); [discriminate H|]. inversion H; subst. rewrite Forall_forall in F |- *. intros x I. apply F.
  apply (in_firstn_skipn _ _ _ _ I).
Qed.
Lemma map_find_no d k o : Forall (fun p => no_float (fst p) /\ no_float (snd p)) d -> map_find (less_opt tol) d k = Ok (Some o) -> no_float (snd o).
Proof.
  intros F H. unfold map_find in H. destruct (tree_ok _ _ _); [|discriminate H]. assert (X : find (fun p : obj * obj => incomparable (less_opt tol) (fst p) k) d = Some o) by congruence.
  apply find_some in X as [I _]. rewrite Forall_forall in F. now apply F.
Qed.
Lemma bind_same {S A} (m : M S A) (f g : A -> M S str) s : (forall s1 a, m s = (s1, Ok a) -> f a s1 = g a s1) -> bind m f s = bind m g s.
Proof. intros H. unfold bind. destruct (m s) as [s1 [a|e|u]] eqn:E1; auto. Qed.
Lemma dispatch_same {S} (t t' : list (str * (list str -> M S str))) m args s :
  Forall2 (fun x y => fst x = fst y /\ forall a, snd x a s = snd y a s) t t' -> dispatch t m args s = dispatch t' m args s.
Proof.
  induction 1 as [|[k op] [k' op'] t t' [E1 H] F IH]; cbn [dispatch]; [reflexivity|]. cbn [fst snd] in *. subst k'. destruct (seq_eqb m k); auto.
Qed.
Lemma on_eq {S} (f : S -> inst) (a b : S * res str) : a = b -> on f a = on f b. Proof. now intros ->. Qed.
Lemma receive_same i m args : without_floats i -> receive E i m args = receive E' i m args.
Proof.
  destruct i as [[b|ch|z|f|v]|et v|et v|kt vt d]; cbn [receive without_floats]; intros N.
  1-3,5: reflexivity.
  - now destruct (N f).
  - apply on_eq. unfold vector_receive. apply dispatch_same. table2.
    all: lazymatch goal with |- vector_get _ _ _ = _ => idtac | |- vector_atIndex _ _ _ = _ => idtac | |- vector_first _ _ _ = _ => idtac | |- vector_last _ _ _ = _ => idtac
           | |- vector_sliceFromIndex _ _ _ = _ => idtac | |- vector_sliceFromIndex_toIndex _ _ _ = _ => idtac | |- vector_popBack _ _ _ = _ => idtac | |- vector_popFront _ _ _ = _ => idtac
           | |- vector_popAtIndex _ _ _ = _ => idtac | |- _ => reflexivity end.
    all: unfold vector_get, vector_atIndex, vector_popBack, vector_popFront, vector_first, vector_last, vector_sliceFromIndex, vector_sliceFromIndex_toIndex, vector_popAtIndex.
    all: unfold bind, check_nargs, throw_if, arg, lift, get, put, ret, throw, undefined.
    all: repeat match goal with |- context [match ?x with _ => _ end] => lazymatch x with context [match _ with _ => _ end] => fail | _ => destruct x eqn:?; cbv beta iota end end; cbv beta iota; try match goal with |- ?a = ?a => reflexivity end.
    all: try (now rewrite vector_repr_eq by assumption).
    all: try match goal with H : vec_range _ _ _ = Ok _ |- _ => now rewrite (vector_repr_eq _ (vec_range_no _ _ _ _ N H)) end.
    all: match goal with H : vec_at _ _ = Ok _ |- _ => now rewrite (repr_eq _ (vec_at_no _ _ _ N H)) end.
  - apply on_eq. unfold set_receive. apply dispatch_same. table2. 2-7: reflexivity. unfold set_get.
    unfold bind, check_nargs, throw_if, get, ret, throw. destruct (_ : bool); [reflexivity|]. now rewrite set_repr_eq by assumption.
  - apply on_eq. unfold dict_receive. apply dispatch_same. table2.
    all: lazymatch goal with |- dict_get _ _ _ = _ => idtac | |- dict_keys _ _ _ = _ => idtac | |- dict_values _ _ _ = _ => idtac | |- dict_getValueForKey _ _ _ _ = _ => idtac | |- _ => reflexivity end.
    all: unfold dict_get, dict_keys, dict_values, dict_getValueForKey. all: try change (e_tolerance E) with tol. all: try change (e_tolerance E') with tol.
    all: unfold bind, check_nargs, throw_if, arg, lift, get, put, ret, throw, undefined.
    all: repeat match goal with |- context [match ?x with _ => _ end] => lazymatch x with context [match _ with _ => _ end] => fail | _ => destruct x eqn:?; cbv beta iota end end; cbv beta iota; try match goal with |- ?a = ?a => reflexivity end.
    + now rewrite dict_repr_eq by assumption.
    + rewrite vector_repr_eq; [reflexivity|]. apply Forall_map. revert N. apply Forall_impl. tauto.
    + rewrite vector_repr_eq; [reflexivity|]. apply Forall_map. revert N. apply Forall_impl. tauto.
    + match goal with H : map_find _ _ _ = Ok _ |- _ => now rewrite (repr_eq _ (map_find_no _ _ _ N H)) end.
Qed.
End Receive.

