(** Reading literals: [get_shared_instance] and [integer_of] against the specification of literals (C46). *)
From Coq Require Import ZArith Reals Psatz QArith Qpower Qabs Qreals.
From Flocq Require Import Core.
From Verif Require Import Bytes StrUtils Grammar Outcome Num Containers Instance.
From Verif Require Import Lemmas StringLit Proof_Grammar Proof_Inv Proof_TextLit Proof_Number Proof_Float Proof_Arith.
From Verif Require Import Spec_Grammar Spec_State Spec_Text Spec_Number Spec_Float Spec_Literal.
Open Scope Z_scope.
Open Scope list_scope.

Lemma int_literal a d : denotes_int a d -> is_integer_value a = true.
Proof. intros H. apply is_integer_value_iff, integer_value_denotes. eauto. Qed.
Lemma float_literal a neg x : denotes_real a neg x -> is_float_value a = true.
Proof. intros H. apply is_float_value_iff, float_value_denotes. eauto. Qed.
Lemma not_int_literal a : ~ integer_value a -> is_integer_value a = false.
Proof. intros H. destruct (is_integer_value a) eqn:E; auto. apply is_integer_value_iff in E. contradiction. Qed.
Lemma not_float_literal a : ~ float_value a -> is_float_value a = false.
Proof. intros H. destruct (is_float_value a) eqn:E; auto. apply is_float_value_iff in E. contradiction. Qed.
Lemma int_is_float a : integer_value a -> float_value a.
Proof. intros H. apply integer_value_denotes in H as [z Hz]. apply int_denotes_real in Hz as (neg & H & _). apply float_value_denotes. eauto. Qed.
Lemma number_int a d : denotes_int a d -> number_of a = if in_int d then Ok (int_to_double d) else UB AtoiRange.
Proof. intros H. unfold number_of. rewrite (int_literal _ _ H), (atoi_denotes _ _ H). now destruct (in_int d). Qed.
Lemma number_float a : ~ integer_value a -> number_of a = Ok (atof a).
Proof. intros H. unfold number_of. now rewrite (not_int_literal _ H). Qed.
Lemma integer_of_int a d : denotes_int a d -> integer_of a = if in_int d then Ok d else UB AtoiRange.
Proof.
  intros H. unfold integer_of. rewrite (int_literal _ _ H), (number_int _ _ H). cbn [negb andb].
  destruct (in_int d) eqn:E; [|reflexivity]. cbn [rbind]. now apply double_to_int_to_double.
Qed.
Lemma double_to_int_Ok f z : double_to_int f = Ok z <-> truncates_to f z.
Proof.
  unfold truncates_to. rewrite double_to_int_spec. rewrite <- in_int_fits. destruct f as [s|s| |s m e]; cbn [finite];
  try (split; [discriminate|intros [[] _]]).
  - destruct (in_int (Ztrunc (value (S754_zero s)))) eqn:E; split; try discriminate.
    + intros X. inversion X; subst. auto. + intros (_ & -> & _). reflexivity. + intros (_ & -> & X). congruence.
  - destruct (in_int (Ztrunc (value (S754_finite s m e)))) eqn:E; split; try discriminate.
    + intros X. inversion X; subst. auto. + intros (_ & -> & _). reflexivity. + intros (_ & -> & X). congruence.
Qed.
Lemma double_to_int_cases f : (exists z, double_to_int f = Ok z /\ truncates_to f z) \/ (double_to_int f = UB IntConversion /\ forall z, ~ truncates_to f z).
Proof.
  destruct (double_to_int f) as [z|e|u] eqn:E.
  - left. exists z. split; auto. now apply double_to_int_Ok.
  - exfalso. rewrite double_to_int_spec in E. destruct f; try discriminate; destruct (in_int _) in E; discriminate.
  - right. assert (u = IntConversion) by (rewrite double_to_int_spec in E; destruct f; try (now inversion E); destruct (in_int _) in E; now inversion E).
    subst u. split; auto. intros z Hz. apply double_to_int_Ok in Hz. congruence.
Qed.

Lemma rounds_same prec emax neg x d d' : rounds_to prec emax neg x d -> rounds_to prec emax neg x d' ->
  (finite d /\ finite d' /\ value d = value d' /\ negative d = negative d') \/ (d = S754_infinity neg /\ d' = S754_infinity neg).
Proof.
  intros [H1 H2] [H3 H4]. destruct (Rlt_le_dec (Rabs (rounded prec emax x)) (powerRZ 2 emax)) as [L|L].
  - left. destruct (H1 L) as (A1 & A2 & A3). destruct (H3 L) as (B1 & B2 & B3). repeat split; auto; congruence.
  - right. auto.
Qed.
Lemma finite_pos_value s m e : value (S754_finite s m e) <> 0%R.
Proof.
  cbn [value]. intros H. apply Rmult_integral in H as [H|H].
  - apply eq_IZR_R0 in H. destruct s; discriminate.
  - revert H. apply powerRZ_NOR. lra.
Qed.
Lemma narrows_same d d' f : finite d -> finite d' -> value d = value d' -> negative d = negative d' -> narrows d f -> narrows d' f.
Proof.
  intros F F' Ev En. destruct d as [s|s| |s m e], d' as [s'|s'| |s' m' e']; cbn [finite] in *; try contradiction.
  - cbn in En. now subst.
  - cbn [value] in Ev. symmetry in Ev. now apply finite_pos_value in Ev.
  - cbn [value] in Ev. now apply finite_pos_value in Ev.
  - unfold narrows. rewrite Ev. cbn [negative] in En. now subst.
Qed.
Lemma narrows_unique d f g : narrows d f -> narrows d g -> V32 f -> V32 g -> f = g.
Proof.
  destruct d as [s|s| |s m e]; cbn [narrows]; try congruence. intros N N' Hf Hg.
  destruct (rounds_same _ _ _ _ _ _ N N') as [(A & A' & C & D)|[-> ->]]; auto.
  eapply (value_inj 24 128); eauto; lia.
Qed.
Lemma literal_float a f : literal_of (B "Float") a (OFloat f) <-> float_value a /\ f = to_float (atof a).
Proof.
  split.
  - intros H. remember (B "Float") as t. remember (OFloat f) as o. destruct H; try discriminate. injection Heqo as ->.
    split; [apply float_value_denotes; eauto|]. destruct (atof_rounds _ _ _ H) as [_ D]. destruct (to_float_narrows (atof a)) as [V N].
    destruct (rounds_same _ _ _ _ _ _ D H0) as [(A & A' & C & E)|[E ->]].
    + eapply narrows_unique; [|exact N|exact H2|exact V]. eapply narrows_same; [| | | |exact H1]; auto.
    + rewrite E in N |- *. cbn [narrows] in *. now rewrite H1, N.
  - intros [H ->]. apply float_value_denotes in H as (neg & x & H). destruct (atof_rounds _ _ _ H) as [_ D].
    destruct (to_float_narrows (atof a)) as [V N]. econstructor; eauto.
Qed.
Lemma integer_of_float a : ~ integer_value a -> float_value a -> integer_of a = double_to_int (atof a).
Proof.
  intros N F. unfold integer_of. rewrite (not_int_literal a N). rewrite (proj2 (is_float_value_iff a) F). cbn [negb andb].
  rewrite (number_float a N). reflexivity.
Qed.
Lemma literal_integer a z : literal_of (B "Integer") a (OInt z) <-> integer_of a = Ok z.
Proof.
  split.
  - intros H. remember (B "Integer") as t. remember (OInt z) as o. destruct H; try discriminate; injection Heqo as ->.
    + rewrite (integer_of_int a z H). now rewrite (proj2 (in_int_fits z) H0).
    + rewrite integer_of_float; auto; [|apply float_value_denotes; eauto]. apply double_to_int_Ok.
      destruct (atof_rounds _ _ _ H0) as [_ D]. destruct H2 as (F & -> & Hz).
      destruct (rounds_same _ _ _ _ _ _ D H1) as [(A & A' & C & E)|[E ->]]; [|contradiction].
      repeat split; auto; [now rewrite C|apply Hz..].
  - intros H. destruct (is_integer_value a) eqn:Ei.
    + apply is_integer_value_iff, integer_value_denotes in Ei as [d Hd]. rewrite (integer_of_int a d Hd) in H.
      destruct (in_int d) eqn:Ed; inversion H; subst. apply lit_integer; auto. now apply in_int_fits.
    + assert (N : ~ integer_value a) by (rewrite <- is_integer_value_iff; congruence).
      assert (F : float_value a).
      { apply is_float_value_iff. unfold integer_of in H. rewrite Ei in H. destruct (is_float_value a); auto; discriminate. }
      rewrite integer_of_float in H by auto. apply double_to_int_Ok in H. apply float_value_denotes in F as (neg & x & F).
      eapply lit_truncated; eauto. apply atof_rounds; auto.
Qed.
Lemma literal_boolean a b : literal_of (B "Boolean") a (OBool b) <-> boolean_of a = Ok b.
Proof.
  unfold boolean_of. split.
  - intros H. remember (B "Boolean") as t. remember (OBool b) as o. destruct H; try discriminate; injection Heqo as <-; reflexivity.
  - destruct (is_boolean_value a) eqn:E; [|discriminate]. cbn [negb]. apply is_boolean_value_iff in E as [->| ->]; intros H; inversion H; constructor.
Qed.
Lemma literal_character a ch : literal_of (B "Character") a (OChar ch) <-> character_of a = Ok ch.
Proof.
  unfold character_of. split.
  - intros H. remember (B "Character") as t. remember (OChar ch) as o. destruct H; try discriminate; injection Heqo as ->; reflexivity.
  - destruct (is_character_value a) eqn:E; [|discriminate]. cbn [negb]. apply str_at_character in E as (x & E & ->). rewrite E. intros H. inversion H; subst. constructor.
Qed.
Lemma literal_string a v : literal_of (B "String") a (OStr v) <-> string_of a = Ok v.
Proof.
  rewrite string_of_iff. split; [|constructor; auto].
  intros H. remember (B "String") as t. remember (OStr v) as o. destruct H; try discriminate; injection Heqo as ->; auto.
Qed.
Lemma literal_typed t a x : literal_of t a x -> has_type t x.
Proof. destruct 1; reflexivity. Qed.
Lemma reads_float a x : get_shared_instance (B "Float") a = Ok x <-> float_value a /\ x = OFloat (to_float (atof a)).
Proof.
  change (get_shared_instance (B "Float") a) with (let! f := float_of a in Ok (OFloat f)). unfold float_of.
  destruct (is_float_value a) eqn:E; cbn [negb rbind].
  - apply is_float_value_iff in E. split; [inversion 1; auto|now intros [_ ->]].
  - split; [discriminate|]. intros [H _]. apply is_float_value_iff in H. congruence.
Qed.
Lemma reads_literal t a x : object_type t -> (get_shared_instance t a = Ok x <-> literal_of t a x).
Proof.
  intros Ht. destruct Ht as [->|[->|[->|[->| ->]]]].
  - transitivity (exists b, x = OBool b /\ boolean_of a = Ok b).
    + change (get_shared_instance (B "Boolean") a) with (let! b := boolean_of a in Ok (OBool b)).
      destruct (boolean_of a); cbn; split; try discriminate; intros H; [inversion H; eauto|destruct H as (? & -> & H); congruence..].
    + split; [intros (b & -> & H); now apply literal_boolean|]. intros H. assert (T := literal_typed _ _ _ H).
      destruct x; try discriminate. exists b. split; auto. now apply literal_boolean.
  - transitivity (exists b, x = OChar b /\ character_of a = Ok b).
    + change (get_shared_instance (B "Character") a) with (let! b := character_of a in Ok (OChar b)).
      destruct (character_of a); cbn; split; try discriminate; intros H; [inversion H; eauto|destruct H as (? & -> & H); congruence..].
    + split; [intros (b & -> & H); now apply literal_character|]. intros H. assert (T := literal_typed _ _ _ H).
      destruct x; try discriminate. eexists. split; [reflexivity|]. now apply literal_character.
  - transitivity (exists b, x = OInt b /\ integer_of a = Ok b).
    + change (get_shared_instance (B "Integer") a) with (let! b := integer_of a in Ok (OInt b)).
      destruct (integer_of a); cbn; split; try discriminate; intros H; [inversion H; eauto|destruct H as (? & -> & H); congruence..].
    + split; [intros (b & -> & H); now apply literal_integer|]. intros H. assert (T := literal_typed _ _ _ H).
      destruct x; try discriminate. eexists. split; [reflexivity|]. now apply literal_integer.
  - rewrite reads_float. split; [intros [F ->]; now apply literal_float|]. intros H. assert (T := literal_typed _ _ _ H).
    destruct x; try discriminate. apply literal_float in H as [H ->]. auto.
  - transitivity (exists b, x = OStr b /\ string_of a = Ok b).
    + change (get_shared_instance (B "String") a) with (let! b := string_of a in Ok (OStr b)).
      destruct (string_of a); cbn; split; try discriminate; intros H; [inversion H; eauto|destruct H as (? & -> & H); congruence..].
    + split; [intros (b & -> & H); now apply literal_string|]. intros H. assert (T := literal_typed _ _ _ H).
      destruct x; try discriminate. eexists. split; [reflexivity|]. now apply literal_string.
Qed.
Lemma literal_object t a x : literal_of t a x -> object_type t.
Proof. destruct 1; unfold object_type; tauto. Qed.
Lemma literal_get t a x : literal_of t a x -> get_shared_instance t a = Ok x.
Proof. intros H. apply reads_literal; auto. eapply literal_object; eauto. Qed.
Lemma get_literal t a x : object_type t -> get_shared_instance t a = Ok x -> literal_of t a x.
Proof. intros H. apply reads_literal; auto. Qed.
Lemma index_get a z : index_of a z -> integer_of a = Ok z.
Proof. apply literal_integer. Qed.
Lemma get_index a z : integer_of a = Ok z -> index_of a z.
Proof. apply literal_integer. Qed.
Lemma literal_unique t a x y : literal_of t a x -> literal_of t a y -> x = y.
Proof. intros H1 H2. apply literal_get in H1, H2. congruence. Qed.
(** Hypotheses about literals become equations of the model. *)
Ltac lits := repeat match goal with
  | H : literal_of _ _ _ |- _ => apply literal_get in H
  | H : index_of _ _ |- _ => apply index_get in H
  end.
Ltac ex_lit := apply get_literal; [unfold object_type; tauto|vm_compute; reflexivity].
Lemma reads_string a x : literal_of (B "String") a x <-> exists v, denotes_string a v /\ x = OStr v.
Proof.
  split.
  - intros H. assert (T := literal_typed _ _ _ H). destruct x as [| | | |v]; try discriminate. exists v. split; auto.
    apply literal_string in H. now apply string_of_iff.
  - intros (v & H & ->). now constructor.
Qed.
Lemma reads_or_error t a : object_type t -> (exists x, literal_of t a x) \/ (exists e, get_shared_instance t a = Throw e) \/ (exists u, get_shared_instance t a = UB u).
Proof. intros Ho. destruct (get_shared_instance t a) eqn:G; eauto. left. eexists. eapply get_literal; eauto. Qed.
