(** Basic lemmas on the model's string functions. *)
From Verif Require Import Bytes StrUtils Grammar.
From Verif Require Import Spec_Grammar.
From Coq Require Import ZifyBool ZifyNat ZifyN.

Lemma ceq_eq a b : ceq a b = true <-> a = b.
Proof. apply Ascii.eqb_eq. Qed.
Lemma ceq_refl a : ceq a a = true.
Proof. apply ceq_eq; reflexivity. Qed.
Lemma ceq_neq a b : ceq a b = false <-> a <> b.
Proof. apply Ascii.eqb_neq. Qed.
Lemma ceq_sym a b : ceq a b = ceq b a.
Proof. apply Ascii.eqb_sym. Qed.

Lemma seq_eqb_eq a b : seq_eqb a b = true <-> a = b.
Proof.
  revert b; induction a as [|x a IH]; intros [|y b]; cbn; split; try easy.
  - intros H; apply andb_prop in H as [H1 H2]. apply ceq_eq in H1. apply IH in H2. congruence.
  - intros H; inversion H; subst. rewrite ceq_refl. now apply IH.
Qed.
Lemma seq_eqb_refl a : seq_eqb a a = true.
Proof. now apply seq_eqb_eq. Qed.
Lemma seq_eqb_neq a b : seq_eqb a b = false <-> a <> b.
Proof. rewrite <- seq_eqb_eq. destruct (seq_eqb a b); split; congruence. Qed.

(** Deciding a property of bytes by checking all 256. *)
Definition all_ascii : list ascii := map ascii_of_nat (seq 0 256).
Lemma all_ascii_complete c : In c all_ascii.
Proof.
  unfold all_ascii. rewrite <- (ascii_nat_embedding c). apply in_map. apply in_seq.
  pose proof (nat_ascii_bounded c). lia.
Qed.
Lemma by_all_ascii (p : ascii -> bool) : forallb p all_ascii = true -> forall c, p c = true.
Proof. intros H c. rewrite forallb_forall in H. apply H, all_ascii_complete. Qed.

Definition spaceb (c : ascii) : bool := let n := code c in (((9 <=? n) && (n <=? 13)) || (n =? 32))%nat.
Definition letterb (c : ascii) : bool :=
  let n := code c in (((65 <=? n) && (n <=? 90)) || ((97 <=? n) && (n <=? 122)))%nat.
Definition digitb (c : ascii) : bool := let n := code c in ((48 <=? n) && (n <=? 57))%nat.

Lemma is_space_iff c : is_space c = true <-> space c.
Proof.
  assert (E : is_space c = spaceb c).
  { revert c. assert (H : forall c, Bool.eqb (is_space c) (spaceb c) = true) by (apply by_all_ascii; vm_compute; reflexivity).
    intro c. apply Bool.eqb_prop, H. }
  rewrite E. unfold spaceb, space. cbv zeta. lia.
Qed.
Lemma is_alpha_iff c : is_alpha c = true <-> letter c.
Proof.
  assert (E : is_alpha c = letterb c).
  { revert c. assert (H : forall c, Bool.eqb (is_alpha c) (letterb c) = true) by (apply by_all_ascii; vm_compute; reflexivity).
    intro c. apply Bool.eqb_prop, H. }
  rewrite E. unfold letterb, letter. cbv zeta. lia.
Qed.
Lemma is_numeric_iff c : is_numeric c = true <-> digit c.
Proof.
  assert (E : is_numeric c = digitb c).
  { revert c. assert (H : forall c, Bool.eqb (is_numeric c) (digitb c) = true) by (apply by_all_ascii; vm_compute; reflexivity).
    intro c. apply Bool.eqb_prop, H. }
  rewrite E. unfold digitb, digit. cbv zeta. lia.
Qed.

Lemma is_space_false c : is_space c = false <-> ~ space c.
Proof. rewrite <- is_space_iff. destruct (is_space c); split; congruence. Qed.
Lemma is_numeric_false c : is_numeric c = false <-> ~ digit c.
Proof. rewrite <- is_numeric_iff. destruct (is_numeric c); split; congruence. Qed.
Lemma is_alpha_false c : is_alpha c = false <-> ~ letter c.
Proof. rewrite <- is_alpha_iff. destruct (is_alpha c); split; congruence. Qed.

Definition is_name_char (c : ascii) : bool := is_alphanumeric c || ceq c c_us.
Lemma is_name_char_iff c : is_name_char c = true <-> name_char c.
Proof.
  unfold is_name_char, is_alphanumeric, name_char.
  rewrite !orb_true_iff, is_alpha_iff, is_numeric_iff, ceq_eq.
  unfold c_us, B; cbn [list_ascii_of_string]. intuition congruence.
Qed.

Lemma forallb_iff {A} (p : A -> bool) (P : A -> Prop) l :
  (forall x, p x = true <-> P x) -> (forallb p l = true <-> Forall P l).
Proof. intros H. rewrite forallb_forall, Forall_forall. firstorder. Qed.

Lemma forallb_app' {A} (p : A -> bool) a b : forallb p (a ++ b) = forallb p a && forallb p b.
Proof. apply forallb_app. Qed.

(** ** trimming *)
Definition sp (s : str) : Prop := Forall space s.

Lemma ltrim_spaces_app s t : spaces s -> ltrim (s ++ t) = ltrim t.
Proof.
  induction 1 as [|c r Hc Hr IH]; [reflexivity|].
  cbn. apply is_space_iff in Hc. now rewrite Hc.
Qed.
Lemma ltrim_cons_nonspace c t : ~ space c -> ltrim (c :: t) = c :: t.
Proof. intros H. cbn. apply is_space_false in H. now rewrite H. Qed.
Lemma ltrim_spec s : exists sp0, s = sp0 ++ ltrim s /\ spaces sp0 /\ (ltrim s = [] \/ exists c r, ltrim s = c :: r /\ ~ space c).
Proof.
  induction s as [|c r IH]; cbn.
  - exists []; repeat split; auto. constructor.
  - destruct (is_space c) eqn:E.
    + destruct IH as (sp0 & H1 & H2 & H3). exists (c :: sp0). repeat split; auto.
      * cbn. now rewrite <- H1.
      * constructor; auto. now apply is_space_iff.
    + exists []. repeat split; [constructor|]. right. exists c, r. split; auto. now apply is_space_false.
Qed.
Lemma ltrim_all_spaces s : spaces s -> ltrim s = [].
Proof. intros H. rewrite <- (app_nil_r s). now rewrite ltrim_spaces_app. Qed.
Lemma rtrim_app_spaces t s : spaces s -> rtrim (t ++ s) = rtrim t.
Proof.
  intros H. unfold rtrim. rewrite rev_app_distr. rewrite ltrim_spaces_app; auto.
  unfold spaces in *. apply Forall_rev; auto.
Qed.
Lemma rtrim_snoc_nonspace t c : ~ space c -> rtrim (t ++ [c]) = t ++ [c].
Proof.
  intros H. unfold rtrim. rewrite rev_app_distr. cbn [rev app]. rewrite ltrim_cons_nonspace by auto.
  cbn [rev]. now rewrite rev_involutive.
Qed.
Lemma rtrim_spec s : exists sp0, s = rtrim s ++ sp0 /\ spaces sp0 /\ (rtrim s = [] \/ exists r c, rtrim s = r ++ [c] /\ ~ space c).
Proof.
  destruct (ltrim_spec (rev s)) as (sp0 & H1 & H2 & H3).
  exists (rev sp0). unfold rtrim. repeat split.
  - rewrite <- rev_app_distr, <- H1. now rewrite rev_involutive.
  - apply Forall_rev; auto.
  - destruct H3 as [H3|(c & r & H3 & H4)]; rewrite H3; [left; reflexivity|].
    right. exists (rev r), c. split; auto.
Qed.

Lemma ltrim_length s : (length (ltrim s) <= length s)%nat.
Proof. induction s as [|c r IH]; cbn; [lia|]. destruct (is_space c); cbn; lia. Qed.

Lemma skip_spaces_app s t : spaces s -> ltrim (s ++ t) = ltrim t.
Proof. apply ltrim_spaces_app. Qed.

(** ** prefixes and suffixes *)
Lemma prefix_loop_iff s p : prefix_loop s p = true <-> exists t, s = p ++ t.
Proof.
  revert s; induction p as [|y p IH]; intros s; cbn [prefix_loop].
  - split; [intros _; exists s; reflexivity | destruct s; auto].
  - destruct s as [|x s]; [split; [discriminate | intros [t H]; discriminate]|]; cbn [prefix_loop].
    rewrite andb_true_iff, ceq_eq, IH. split.
    + intros [-> [t ->]]. now exists t.
    + intros [t H]. inversion H; subst. split; auto. now exists t.
Qed.
Lemma starts_with_iff s p : starts_with s p = true <-> exists t, s = p ++ t.
Proof.
  unfold starts_with. destruct (Nat.ltb_spec (length s) (length p)) as [H|H].
  - split; [discriminate|]. intros [t ->]. rewrite app_length in H. lia.
  - apply prefix_loop_iff.
Qed.
Lemma ends_with_iff s p : ends_with s p = true <-> exists t, s = t ++ p.
Proof.
  unfold ends_with. destruct (Nat.ltb_spec (length s) (length p)) as [H|H].
  - split; [discriminate|]. intros [t ->]. rewrite app_length in H. lia.
  - rewrite prefix_loop_iff. split; intros [t E].
    + exists (rev t). rewrite <- (rev_involutive s), E, rev_app_distr, rev_involutive. reflexivity.
    + exists (rev t). rewrite E, rev_app_distr. reflexivity.
Qed.

(** ** substr *)
Lemma substr_app_prefix a b : substr (a ++ b) 0 (length a) = a.
Proof. unfold substr. cbn. rewrite firstn_app, Nat.sub_diag, firstn_all. cbn. apply app_nil_r. Qed.
Lemma substr_from_app a b : substr_from (a ++ b) (length a) = b.
Proof. unfold substr_from. rewrite skipn_app, Nat.sub_diag, skipn_all. reflexivity. Qed.
Lemma substr_from_app_cons a c b : substr_from (a ++ c :: b) (length a + 1) = b.
Proof.
  unfold substr_from. replace (a ++ c :: b) with ((a ++ [c]) ++ b) by (rewrite <- app_assoc; reflexivity).
  replace (length a + 1)%nat with (length (a ++ [c])) by (rewrite app_length; reflexivity).
  apply substr_from_app.
Qed.
Lemma split_at s i : s = substr s 0 i ++ substr_from s i.
Proof. unfold substr, substr_from. cbn. symmetry. apply firstn_skipn. Qed.
Lemma split_at_elt s i : (i < length s)%nat -> s = substr s 0 i ++ at_ s i :: substr_from s (i + 1).
Proof.
  intros H. unfold substr, substr_from, at_. cbn [skipn].
  revert i H; induction s as [|c r IH]; intros [|i] H; cbn in *; try lia.
  - reflexivity.
  - f_equal. apply (IH i). lia.
Qed.
Lemma at_app_mid a c b : at_ (a ++ c :: b) (length a) = c.
Proof. unfold at_. rewrite app_nth2 by lia. now rewrite Nat.sub_diag. Qed.
Lemma substr_length s i : (i <= length s)%nat -> length (substr s 0 i) = i.
Proof. intros H. unfold substr. cbn. rewrite firstn_length. lia. Qed.
Lemma at_last s c : at_ (s ++ [c]) (length (s ++ [c]) - 1) = c.
Proof.
  replace (length (s ++ [c]) - 1)%nat with (length s) by (rewrite app_length; cbn; lia).
  apply at_app_mid.
Qed.
Lemma substr_init s c : substr (s ++ [c]) 0 (length (s ++ [c]) - 1) = s.
Proof.
  replace (length (s ++ [c]) - 1)%nat with (length s) by (rewrite app_length; cbn; lia).
  apply substr_app_prefix.
Qed.

(** ** first_index *)
Lemma first_index_some p s i :
  first_index p s = Some i <->
  exists a c b, s = a ++ c :: b /\ length a = i /\ p c = true /\ Forall (fun x => p x = false) a.
Proof.
  revert i; induction s as [|x s IH]; intros i; cbn.
  - split; [discriminate|]. intros (a & c & b & H & _). destruct a; discriminate.
  - destruct (p x) eqn:E.
    + split.
      * intros H; inversion H; subst. exists [], x, s. repeat split; auto.
      * intros (a & c & b & H & L & Hc & Hf). destruct a as [|y a].
        -- cbn in L. now subst.
        -- inversion H; subst. inversion Hf; congruence.
    + destruct (first_index p s) as [j|]; cbn.
      * split.
        -- intros H; inversion H; subst. destruct (proj1 (IH j) eq_refl) as (a & c & b & H1 & H2 & H3 & H4).
           exists (x :: a), c, b. subst. repeat split; auto.
        -- intros (a & c & b & H & L & Hc & Hf). destruct a as [|y a].
           ++ inversion H; congruence.
           ++ inversion H; subst. inversion Hf; subst.
              assert (Some j = Some (length a)) as K by (apply IH; exists a, c, b; auto).
              inversion K; subst. reflexivity.
      * split; [discriminate|]. intros (a & c & b & H & L & Hc & Hf). destruct a as [|y a].
        -- inversion H; congruence.
        -- inversion H; subst. inversion Hf; subst.
           assert (@None nat = Some (length a)) as K by (apply IH; exists a, c, b; auto). discriminate.
Qed.
Lemma first_index_none p s : first_index p s = None <-> Forall (fun x => p x = false) s.
Proof.
  induction s as [|x s IH]; cbn; [split; auto|].
  destruct (p x) eqn:E.
  - split; [discriminate|]. intros H; inversion H; congruence.
  - destruct (first_index p s); cbn; split; intros H; try discriminate.
    + inversion H; subst. apply IH in H3. discriminate.
    + constructor; auto. now apply IH.
    + reflexivity.
Qed.
