(** String literals: [escape], [unescape], [string_of] against the specification. *)
From Verif Require Import Bytes StrUtils Grammar Outcome Num Containers Instance.
From Verif Require Import Lemmas StringLit Proof_Grammar Proof_Inv.
From Verif Require Import Spec_Grammar Spec_Text.

Lemma escape_with v : escape v c_quote = with_escapes v.
Proof.
  induction v as [|x v IH]; [reflexivity|]. cbn [escape with_escapes flat_map]. rewrite IH. fold (with_escapes v).
  change QUOTE with c_quote. change BACKSLASH with c_bslash. destruct (ceq x c_quote) eqn:E.
  - apply ceq_eq in E. subst x. destruct (ascii_dec c_quote c_quote); [reflexivity|congruence].
  - apply ceq_neq in E. destruct (ascii_dec x c_quote); [congruence|reflexivity].
Qed.
Lemma quoted_printed v : quoted v = printed_string v.
Proof. unfold quoted. now rewrite escape_with. Qed.
Lemma unescape_escape v : unescape (escape v c_quote) c_quote = v.
Proof.
  induction v as [|x v IH]; [reflexivity|]. cbn [escape]. destruct (ceq x c_quote) eqn:E.
  - apply ceq_eq in E. subst x. cbn [app unescape]. rewrite !ceq_refl. cbn [andb].
    destruct (escape v c_quote) as [|y r] eqn:Ee; cbn [unescape] in *; [now rewrite IH|].
    change (ceq c_quote c_bslash) with false. cbn [andb]. now rewrite IH.
  - cbn [app unescape]. destruct (escape v c_quote) as [|y r] eqn:Ee; [now rewrite IH|].
    destruct (ceq x c_bslash && ceq y c_quote) eqn:Eb; [|now rewrite IH]. exfalso.
    apply andb_prop in Eb as [_ Ey]. apply ceq_eq in Ey. subst y.
    destruct v as [|z v]; [discriminate|]. cbn [escape] in Ee. destruct (ceq z c_quote) eqn:Ez; cbn in Ee.
    + discriminate.
    + inversion Ee; subst. rewrite ceq_refl in Ez. discriminate.
Qed.
Lemma unescape_cons2 x y r q : unescape (x :: y :: r) q = if ceq x c_bslash && ceq y q then unescape (y :: r) q else x :: unescape (y :: r) q.
Proof. reflexivity. Qed.
Lemma escape_cons x r q : escape (x :: r) q = (if ceq x q then [c_bslash] else []) ++ x :: escape r q.
Proof. reflexivity. Qed.
Lemma escape_unescape body : forall e, scan e body = true ->
  escape (unescape body c_quote) c_quote =
  match body with c :: _ => if e && ceq c c_quote then c_bslash :: body else body | [] => body end.
Proof.
  induction body as [|c r IH]; intros e H; [reflexivity|]. cbn [scan] in H. destruct e.
  - cbn [andb]. assert (R := IH false H). cbn [andb] in R.
    assert (R' : escape (unescape r c_quote) c_quote = r) by (destruct r; exact R).
    destruct r as [|y r'].
    + cbn. now destruct (ceq c c_quote).
    + rewrite unescape_cons2. destruct (ceq c c_bslash && ceq y c_quote) eqn:Eb.
      * apply andb_prop in Eb as [_ Ey]. apply ceq_eq in Ey. subst y. cbn [scan] in H. discriminate.
      * rewrite escape_cons, R'. now destruct (ceq c c_quote).
  - cbn [andb]. destruct (ceq c c_bslash) eqn:Ec.
    + apply ceq_eq in Ec. subst c. destruct r as [|y r']; [discriminate|].
      assert (R := IH true H). cbn [andb] in R. rewrite unescape_cons2, ceq_refl. cbn [andb].
      destruct (ceq y c_quote) eqn:Ey; [exact R|]. rewrite escape_cons, R. reflexivity.
    + destruct (ceq c c_quote) eqn:Eq; [discriminate|]. assert (R := IH false H). cbn [andb] in R.
      assert (R' : escape (unescape r c_quote) c_quote = r) by (destruct r; exact R).
      destruct r as [|y r']; [cbn; now rewrite Eq|]. rewrite unescape_cons2, Ec. cbn [andb].
      rewrite escape_cons, Eq, R'. reflexivity.
Qed.
Lemma string_of_iff a v : string_of a = Ok v <-> denotes_string a v.
Proof.
  unfold denotes_string. rewrite <- is_string_value_iff. unfold string_of. split.
  - destruct (is_string_value a) eqn:E; cbn [negb]; [|discriminate]. intros H. split; [reflexivity|].
    destruct (unquote_ok a E) as (body & Ha & Hu). rewrite Hu in H. inversion H; subst. clear H Hu.
    rewrite is_string_value_body in E. apply escape_unescape in E.
    assert (E' : escape (unescape body c_quote) c_quote = body) by (destruct body; exact E).
    unfold printed_string. rewrite <- escape_with, E'. reflexivity.
  - intros [E ->]. rewrite E. cbn [negb]. destruct (unquote_ok _ E) as (body & Ha & ->). f_equal.
    unfold printed_string in Ha. rewrite <- escape_with in Ha. inversion Ha as [Hb].
    apply app_inj_tail in Hb as [<- _]. apply unescape_escape.
Qed.
Lemma string_literal_denotes a : string_value a -> exists v, denotes_string a v.
Proof.
  intros H. apply is_string_value_iff in H. destruct (unquote_ok a H) as (body & _ & Hu).
  exists (unescape body c_quote). apply string_of_iff. unfold string_of. now rewrite H.
Qed.
Lemma unquote_denotes a v : denotes_string a v -> is_string_value a = true /\ unquote a = Ok v.
Proof.
  intros H. apply string_of_iff in H. unfold string_of in H. destruct (is_string_value a); cbn in H; [auto|discriminate].
Qed.
Lemma printed_inj v w : printed_string v = printed_string w -> v = w.
Proof.
  unfold printed_string. rewrite <- !escape_with. intros H. inversion H as [H1]. apply app_inj_tail in H1 as [H1 _].
  rewrite <- (unescape_escape v), H1. apply unescape_escape.
Qed.

(** ** which printed strings are literals *)
Fixpoint scan2 (e : bool) (v : str) : bool :=
  match v with
  | [] => negb e
  | c :: r => if ceq c c_bslash then scan2 (negb e) r else if ceq c c_quote then negb e && scan2 false r else scan2 false r
  end.
Lemma scan_escape v : forall e, scan e (escape v c_quote) = scan2 e v.
Proof.
  induction v as [|c r IH]; intros e; [reflexivity|]. cbn [escape scan2]. destruct (ceq c c_bslash) eqn:Eb.
  - apply ceq_eq in Eb. subst c. change (ceq c_bslash c_quote) with false. cbn [app scan]. rewrite ceq_refl.
    destruct e; apply IH.
  - destruct (ceq c c_quote) eqn:Eq; cbn [app scan].
    + apply ceq_eq in Eq. subst c. change (ceq c_bslash c_bslash) with true.
      destruct e; cbn [negb andb scan]; [reflexivity|apply IH].
    + rewrite Eb, Eq. destruct e; apply IH.
Qed.
Definition run_even (pre v : str) : Prop :=
  (forall before after, v = before ++ c_quote :: after -> Nat.even (trail_bs (pre ++ before)) = true) /\
  Nat.even (trail_bs (pre ++ v)) = true.
Lemma run_even_cons pre c v :
  run_even pre (c :: v) <-> (c = c_quote -> Nat.even (trail_bs pre) = true) /\ run_even (pre ++ [c]) v.
Proof.
  unfold run_even. split.
  - intros [H1 H2]. repeat split.
    + intros ->. specialize (H1 [] v eq_refl). now rewrite app_nil_r in H1.
    + intros b a ->. specialize (H1 (c :: b) a eq_refl). now rewrite <- app_assoc.
    + now rewrite <- app_assoc.
  - intros [H0 [H1 H2]]. split.
    + intros b a E. destruct b as [|x b]; cbn in E; inversion E; subst.
      * rewrite app_nil_r. auto.
      * specialize (H1 b a eq_refl). now rewrite <- app_assoc in H1.
    + now rewrite <- app_assoc in H2.
Qed.
Lemma scan2_run v : forall pre, scan2 (Nat.odd (trail_bs pre)) v = true <-> run_even pre v.
Proof.
  induction v as [|c r IH]; intros pre; cbn [scan2].
  - unfold run_even. rewrite app_nil_r. unfold Nat.odd. rewrite negb_involutive. split.
    + intros H; split; auto. intros b a E; destruct b; discriminate.
    + intros [_ H]; exact H.
  - rewrite run_even_cons. rewrite <- IH. rewrite trail_bs_snoc.
    destruct (ceq c c_bslash) eqn:Eb.
    + apply ceq_eq in Eb. subst c. rewrite Nat.odd_succ. rewrite <- Nat.negb_odd. split; [|tauto].
      intros H. split; auto. discriminate.
    + change (Nat.odd 0) with false. destruct (ceq c c_quote) eqn:Eq.
      * apply ceq_eq in Eq. rewrite <- Nat.negb_odd. rewrite andb_true_iff. tauto.
      * apply ceq_neq in Eq. split; [|tauto]. intros H. split; [congruence|exact H].
Qed.
Lemma printed_is_literal v : string_value (printed_string v) <-> even_backslashes v.
Proof.
  rewrite <- is_string_value_iff. unfold printed_string. rewrite <- escape_with.
  change (is_string_value ([QUOTE] ++ escape v c_quote ++ [QUOTE])) with (is_string_value (c_quote :: escape v c_quote ++ [c_quote])).
  rewrite is_string_value_body. unfold lit_body. rewrite scan_escape. rewrite (scan2_run v []). unfold run_even, even_backslashes. cbn [app].
  split; intros [H1 H2]; split.
  - intros b a n E R. apply backslash_run_iff in R. subst n. apply Nat.even_spec. eapply H1. exact E.
  - intros n R. apply backslash_run_iff in R. subst n. now apply Nat.even_spec.
  - intros b a E. apply Nat.even_spec. eapply H1; [exact E|]. now apply backslash_run_iff.
  - apply Nat.even_spec. apply H2. now apply backslash_run_iff.
Qed.
