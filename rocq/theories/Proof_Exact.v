(** Sets and dictionaries never hold the same value twice, whatever the tolerance did (C23). *)
From Coq Require Import ZArith Reals Psatz Sorting.Sorted Sorting.Permutation.
From Verif Require Import Bytes StrUtils Grammar Outcome Parser Num Containers Instance Context Platform.
From Verif Require Import Lemmas StringLit Proof_Grammar Proof_Parser Proof_Exec WP Proof_Inv Proof_Literal Proof_Receive Proof_Context Proof_Names Api Proof_Text.
From Verif Require Import Proof_Number Proof_Float Proof_Arith Proof_Order Props_Text Props_State Props_Number Props_Float Props_Order Proof_Vector.
From Verif Require Import Proof_Set.
From Verif Require Import Spec_Grammar Spec_State Spec_Names Spec_Text Spec_Number Spec_Float Spec_Order Spec_Vector Spec_String Spec_Set.
Open Scope Z_scope.
Open Scope list_scope.

Section Generic.
Context (lt : obj -> obj -> option bool).
Lemma sorted_strong l : strictly_sorted lt l = true <-> StronglySorted (fun a b => lt a b = Some true) l.
Proof.
  induction l as [|a l IH]; [split; constructor|]. cbn [strictly_sorted]. rewrite andb_true_iff, IH.
  assert (K : forallb (ltb lt a) l = true <-> Forall (fun b => lt a b = Some true) l).
  { rewrite forallb_forall, Forall_forall. split; intros X b Hb; apply ltb_true; auto. }
  rewrite K. split; [intros [X Y]; now constructor|intros X; inversion X; subst; auto].
Qed.
Lemma insert_in x l z : In z (insert_sorted lt l x) -> z = x \/ In z l.
Proof.
  induction l as [|y l IH]; cbn [insert_sorted]; [intros [->|[]]; auto|]. destruct (ltb lt y x); [|destruct (ltb lt x y)].
  - intros [->|H]; [right; now left|]. destruct (IH H); auto. right. now right.
  - intros [->|H]; auto.
  - auto.
Qed.
Lemma insert_generic x l : strict_weak_order lt (x :: l) -> StronglySorted (fun a b => lt a b = Some true) l ->
  StronglySorted (fun a b => lt a b = Some true) (insert_sorted lt l x).
Proof.
  intros (_ & _ & W & _) S. revert W. induction S as [|y l S IH Hy]; intros W; cbn [insert_sorted]; [repeat constructor|].
  destruct (ltb lt y x) eqn:E1; [|destruct (ltb lt x y) eqn:E2].
  - constructor.
    + apply IH. intros a b c Ha Hb Hc. apply W; [destruct Ha|destruct Hb|destruct Hc]; auto; (now left) || (right; now right).
    + rewrite Forall_forall in *. intros z Hz. apply insert_in in Hz as [->|Hz]; auto. now apply ltb_true.
  - constructor; [now constructor|]. apply ltb_true in E2. constructor; auto. rewrite Forall_forall in *. intros z Hz.
    apply (W x y z); auto; [now left|right; now left|right; now right].
  - now constructor.
Qed.
End Generic.

Lemma sub_self m e s : f_lt (f_sub (S754_finite s m e) (S754_finite s m e)) (f_opp (S754_infinity true)) = true.
Proof. unfold f_sub, SFsub. rewrite Z.sub_diag. reflexivity. Qed.
Lemma below_more t x y : (0 <= t)%R -> below (Real t) x y -> below (Real 0) x y.
Proof. intros Ht. destruct x, y; cbn [below]; auto. intros H. lra. Qed.
Lemma before_exactly tol a b t : V32 tol -> fine t a -> fine t b -> less_opt tol a a <> Some true -> less_opt tol b b <> Some true ->
  less_opt tol a b = Some true -> before zero32 a b.
Proof.
  intros V Fa Fb Ia Ib L. destruct (bytes_dec t (B "Float")) as [->|N].
  2:{ apply (before_plain tol zero32); try (eapply type_plain; [exact N|]; (apply Fa || apply Fb)).
      destruct Fa, Fb. apply (less_opt_iff tol t); auto. }
  destruct Fa as [Ta Sa], Fb as [Tb Sb]. destruct a as [x|x|x|f|x]; cbn in Ta; try discriminate. destruct b as [y|y|y|g|y]; cbn in Tb; try discriminate.
  destruct (Classical_Prop.classic (tol = S754_infinity true)) as [->|NM].
  - unfold less_opt in *. cbn [is_less_than] in *. unfold float_less in *.
    destruct f as [[]|[]| |sf mf ef]; try (exfalso; apply Ia; reflexivity); try (exfalso; apply Ia; now rewrite sub_self);
      destruct g as [[]|[]| |sg mg eg]; try (exfalso; apply Ib; reflexivity); try (exfalso; apply Ib; now rewrite sub_self); try discriminate L.
    exact I.
  - rewrite (less_opt_before tol _ _ V Sa Sa) in Ia. rewrite (less_opt_before tol _ _ V Sb Sb) in Ib. rewrite (less_opt_before tol _ _ V Sa Sb) in L.
    cbn [before] in *. change (extended_of zero32) with (Real 0). destruct (extended_of tol) as [|t| |] eqn:Et; try contradiction L;
      try (exfalso; apply NM; destruct tol as [[]|[]| |[]]; cbn in Et; congruence).
    destruct (Rle_or_lt 0 t) as [Ht|Ht]; [eapply below_more; eauto|].
    assert (K : forall x : R, ~ (rounded 24 128 (x - x) < - t)%R -> False).
    { intros x X. apply X. replace (x - x)%R with 0%R by ring. change (rounded 24 128 0) with (rnd32 0). rewrite rnd32_0. lra. }
    destruct (extended_of f) as [|x| |], (extended_of g) as [|y| |]; cbn [below] in *; auto; try (exfalso; eapply K; eauto; fail).
Qed.
Lemma tree_exactly tol t x l : V32 tol -> Forall (fine t) (x :: l) -> tree_ok (less_opt tol) x l = true ->
  StronglySorted (fun a b => less_opt tol a b = Some true) (insert_sorted (less_opt tol) l x) /\
  forall m, (forall z, In z m -> In z (x :: l)) -> StronglySorted (fun a b => less_opt tol a b = Some true) m -> strictly_increasing zero32 m.
Proof.
  intros V F T. unfold tree_ok in T. apply andb_true_iff in T as [T1 T2]. apply swo_iff in T1. apply sorted_strong in T2.
  split; [now apply insert_generic|]. destruct T1 as (_ & Irr & _). rewrite Forall_forall in F.
  intros m Hm. induction 1 as [|a m S IH Ha]; constructor.
  - apply IH. intros z Hz. apply Hm. now right.
  - rewrite Forall_forall in *. intros b Hb.
    assert (Ia : In a (x :: l)) by (apply Hm; now left). assert (Ib : In b (x :: l)) by (apply Hm; now right).
    apply (before_exactly tol a b t); auto.
Qed.
Lemma receive_exactly E i m args : V32 (e_tolerance E) -> inst_good false i ->
  ordered_inst zero32 i -> ~ is_ub (snd (receive E i m args)) -> ordered_inst zero32 (fst (receive E i m args)).
Proof.
  intros V G O U. destruct i as [[]|t v|t v|kt vt d]; cbn [receive on fst snd ordered_inst] in *; try exact I.
  - destruct G as [Ho Gv]. apply set_fine in Gv. destruct (set_changes E t m args v) as [->|[(a & x & -> & Hx & Hm)|[-> ->]]]; auto.
    2:{ change (set_receive E t (B "clear") [] v) with (@nil obj, Ok null). constructor. }
    assert (Fx := reads_fine _ _ _ Ho Hx). assert (F : Forall (fine t) (x :: v)) by now constructor.
    destruct Hm as [->| ->]; [rewrite (set_add_eq E t a x v Hx) in U |- *|rewrite (set_remove_eq E t a x v Hx) in U |- *];
      destruct (tree_ok _ _ _) eqn:T; cbn [fst snd] in *; auto.
    + destruct (tree_exactly _ t x v V F T) as [T1 T2]. apply T2; auto. intros z Hz. apply insert_in in Hz as [->|]; [now left|now right].
    + now apply filter_sorted.
  - destruct G as (Hk & Hv & Gd). assert (Fd := dict_fine _ _ _ _ Gd).
    destruct (dict_changes E kt vt m args d) as [->|[(a & b & x & k & -> & Hx & Hy & ->)|[(b & k & -> & Hy & ->)|[-> ->]]]]; auto.
    + assert (Fx := reads_fine _ _ _ Hk Hy). assert (F : Forall (fine kt) (k :: map fst d)) by now constructor.
      rewrite (dict_assoc_eq E kt vt a b x k d Hx Hy) in U |- *. destruct (tree_ok _ _ _) eqn:T; cbn [fst snd] in *; auto.
      destruct (tree_exactly _ kt k (map fst d) V F T) as [T1 T2]. rewrite assign_keys. apply T2; auto. intros z Hz. apply insert_in in Hz as [->|]; [now left|now right].
    + rewrite (dict_removeKey_eq E kt vt b k d Hy) in U |- *. destruct (tree_ok _ _ _) eqn:T; cbn [fst snd] in *; auto.
      rewrite erase_keys. now apply filter_sorted.
    + change (dict_receive E kt vt (B "clear") [] d) with (@nil (obj * obj), Ok null). constructor.
Qed.
Lemma exactly_ordered srt pw c n i : sort_contract srt -> reachable srt pw c -> lookup c n = Some i -> ordered_inst zero32 i.
Proof.
  intros H1 H2. revert i. induction H2 as [o p d q|c s line c' s' ans Hr IH R]; intros i Hl; [discriminate Hl|].
  destruct (step_cases srt pw c s line c' s' ans n H1 Hr R) as [L|[(m & args & j & Hs & Hm & Hj)|[(T & m & args & j & Hs & Hcr & _ & Hj)|[L _]]]].
  - apply IH; congruence.
  - destruct (step_variable srt pw c s line n m args j c' s' ans H1 Hr Hs Hj R) as (L & _ & U & Tt). rewrite Hl in L. injection L as ->.
    apply (receive_exactly (env_of srt c) j m args); auto.
    + now apply (reachable_tolerance srt pw).
    + apply (ctx_good_lookup false c n j (reachable_good srt pw c H1 Hr) Hj).
  - rewrite Hl in Hj. injection Hj as ->. eapply created_ordered; eauto.
  - congruence.
Qed.
(** ** [before] on floats is transitive *)
Lemma below_trans tol x y z : (forall t, tol = Real t -> (0 <= t)%R) -> tol <> Minus_infinity -> below tol x y -> below tol y z -> below tol x z.
Proof.
  intros Ht Nm. destruct tol as [|t| |]; cbn [below]; auto; try congruence. specialize (Ht t eq_refl). destruct x as [|x| |], y as [|y| |], z as [|z| |]; auto; try tauto.
  intros A B. assert (Y : (y - z < 0)%R).
  { destruct (Rlt_or_le (y - z) 0) as [|L]; auto. apply rnd32_le in L. rewrite rnd32_0 in L. change (rounded 24 128 (y - z)) with (rnd32 (y - z)) in B. lra. }
  assert (X : (x - z <= x - y)%R) by lra. apply rnd32_le in X. change (rounded 24 128 (x - y)) with (rnd32 (x - y)) in A. change (rounded 24 128 (x - z)) with (rnd32 (x - z)). lra.
Qed.
Lemma before_trans_typed tol t a b c : nonneg tol -> has_type t a -> has_type t b -> has_type t c -> before tol a b -> before tol b c -> before tol a c.
Proof.
  intros N Ta Tb Tc. destruct (bytes_dec t (B "Float")) as [->|Nf].
  - destruct a; cbn in Ta; try discriminate. destruct b; cbn in Tb; try discriminate. destruct c; cbn in Tc; try discriminate.
    cbn [before]. apply below_trans; [intros; eapply extended_nonneg; eauto|]. apply nonneg_not_minus in N. destruct tol as [[]|[]| |[]]; cbn; congruence.
  - destruct (C14_strict_total_order tol t Nf) as (_ & X & _). now apply X.
Qed.
Lemma separated_weak tol t l : nonneg tol -> Forall (has_type t) l -> separated tol l -> weak_order tol l.
Proof.
  intros N F S. rewrite Forall_forall in F. split; [intros a _; now apply before_irrefl|]. split.
  - intros a b c Ha Hb Hc. apply (before_trans_typed tol t); auto.
  - assert (K : forall a b, In a l -> In b l -> relates tol a b Eq -> a = b \/ exists f g, a = OFloat f /\ b = OFloat g /\ extended_of f = extended_of g).
    { intros a b Ha Hb [X Y]. destruct (S a b Ha Hb) as [?|[?|[?|?]]]; auto; contradiction. }
    intros a b c Ha Hb Hc X Y. destruct (K a b Ha Hb X) as [->|(f & g & -> & -> & E)]; auto.
    destruct (K _ _ Hb Hc Y) as [<-|(g' & h & Eg & -> & E')]; auto. injection Eg as <-.
    cbn [relates before] in *. rewrite <- E', <- E. rewrite <- E in X. tauto.
Qed.
