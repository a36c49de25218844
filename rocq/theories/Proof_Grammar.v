(** The recognisers of src/grammar.cpp accept exactly the documented languages. *)
From Verif Require Import Bytes StrUtils Grammar.
From Verif Require Import Spec_Grammar Lemmas StringLit.
From Coq Require Import ZifyBool ZifyNat.

Lemma B_lit s : B s = lit s. Proof. reflexivity. Qed.

Lemma is_spaces_iff s : is_spaces s = true <-> spaces s.
Proof.
  unfold is_spaces. destruct (ltrim_spec s) as (sp0 & E & Hs & H). split.
  - intros L. destruct H as [H|(c & r & H & _)]; rewrite H in *; [|discriminate].
    rewrite app_nil_r in E. now subst.
  - intros Hsp. now rewrite ltrim_all_spaces.
Qed.

Lemma is_boolean_value_iff s : is_boolean_value s = true <-> boolean_value s.
Proof. unfold is_boolean_value, boolean_value. now rewrite orb_true_iff, !seq_eqb_eq. Qed.

Lemma is_character_value_iff s : is_character_value s = true <-> character_value s.
Proof.
  unfold is_character_value, character_value. split.
  - destruct (Nat.eqb_spec (length s) 3) as [L|L]; [|discriminate]. cbn [negb].
    destruct s as [|a [|b [|c [|d s]]]]; try discriminate. unfold at_; cbn [nth].
    rewrite andb_true_iff, !ceq_eq. intros [-> ->]. now exists b.
  - intros [c ->]. reflexivity.
Qed.

Lemma is_integer_value_iff s : is_integer_value s = true <-> integer_value s.
Proof.
  unfold is_integer_value, integer_value. split.
  - destruct s as [|c r]; [discriminate|].
    destruct (is_numeric c) eqn:En; cbn [negb andb orb].
    + destruct (forallb is_numeric r) eqn:Er; [|discriminate]. intros _.
      exists [], (c :: r). repeat split; [now left| |discriminate].
      constructor; [now apply is_numeric_iff|]. apply (forallb_iff is_numeric); auto. apply is_numeric_iff.
    + destruct (negb (ceq c c_plus) && negb (ceq c c_minus)) eqn:Es; [discriminate|].
      destruct (forallb is_numeric r) eqn:Er; [|discriminate]. cbn [negb]. intros L.
      exists [c], r. repeat split.
      * right. apply andb_false_iff in Es as [Es|Es]; apply negb_false_iff, ceq_eq in Es; subst; auto.
      * apply (forallb_iff is_numeric); auto. apply is_numeric_iff.
      * destruct r; [discriminate|discriminate].
  - intros (sg & ds & -> & Hs & Hd & Hn).
    assert (Hf : forallb is_numeric ds = true) by (apply (forallb_iff is_numeric digit); auto; apply is_numeric_iff).
    destruct Hs as [->|[->| ->]]; cbn [app].
    + destruct ds as [|d ds]; [congruence|]. cbn in Hf. apply andb_prop in Hf as [H1 H2]. now rewrite H1, H2.
    + cbn [list_ascii_of_string B app]. rewrite Hf. destruct ds; [congruence|]. reflexivity.
    + cbn [list_ascii_of_string B app]. rewrite Hf. destruct ds; [congruence|]. reflexivity.
Qed.

(** ** floats *)
Definition exponent (ex : str) : Prop := ex = [] \/ exists i, ex = c_e :: i /\ integer_value i.

Lemma dot_not_digit : ~ digit c_dot. Proof. unfold digit. cbn. lia. Qed.
Lemma e_not_digit : ~ digit c_e. Proof. unfold digit. cbn. lia. Qed.

(** What [float_loop] accepts from counters (p, n): a run of digits and points, then an optional exponent. *)
Definition dotdigit (c : ascii) : Prop := digit c \/ c = c_dot.
Fixpoint count_dots (s : str) : nat := match s with [] => 0 | c :: r => (if ceq c c_dot then 1 else 0) + count_dots r end.
Fixpoint count_digits (s : str) : nat := match s with [] => 0 | c :: r => (if is_numeric c then 1 else 0) + count_digits r end.

Lemma float_loop_iff s : forall p n,
  float_loop s p n = true <->
  exists m ex, s = m ++ ex /\ Forall dotdigit m /\ exponent ex /\ (p + count_dots m <= 1)%nat /\ (0 < n + count_digits m)%nat.
Proof.
  induction s as [|c r IH]; intros p n; cbn [float_loop].
  - rewrite andb_true_iff. split.
    + intros [H1 H2]. exists [], []. cbn. repeat split; auto; try lia. now left.
    + intros (m & ex & E & _ & _ & H). symmetry in E. apply app_eq_nil in E as [-> ->]. cbn in H. lia.
  - destruct (is_numeric c) eqn:En; cbn [negb andb].
    + assert (Hd : ceq c c_dot = false).
      { apply ceq_neq. intros ->. apply is_numeric_iff in En. now apply dot_not_digit in En. }
      rewrite Hd, IH. split.
      * intros (m & ex & -> & H1 & H2 & H3 & H4). exists (c :: m), ex. cbn. rewrite Hd, En.
        repeat split; auto; try lia. constructor; auto. left. now apply is_numeric_iff.
      * intros (m & ex & E & H1 & H2 & H3 & H4). destruct m as [|x m].
        -- cbn in E; subst ex. destruct H2 as [H2|(i & H2 & _)]; [discriminate|]. inversion H2; subst.
           apply is_numeric_iff in En. now apply e_not_digit in En.
        -- inversion E; subst. cbn in H3, H4. rewrite Hd in H3. rewrite En in H4. inversion H1; subst.
           exists m, ex. repeat split; auto; lia.
    + destruct (ceq c c_dot) eqn:Ed; cbn [negb].
      * rewrite IH. split.
        -- intros (m & ex & -> & H1 & H2 & H3 & H4). exists (c :: m), ex. cbn. rewrite Ed, En.
           repeat split; auto; try lia. constructor; auto. right. now apply ceq_eq.
        -- intros (m & ex & E & H1 & H2 & H3 & H4). destruct m as [|x m].
           ++ cbn in E; subst ex. destruct H2 as [H2|(i & H2 & _)]; [discriminate|]. inversion H2; subst.
              apply ceq_eq in Ed. discriminate.
           ++ inversion E; subst. cbn in H3, H4. rewrite Ed in H3. rewrite En in H4. inversion H1; subst.
              exists m, ex. repeat split; auto; lia.
      * assert (Hm : forall m ex, c :: r = m ++ ex -> Forall dotdigit m -> m = [] /\ ex = c :: r).
        { intros m ex E H1. destruct m as [|x m]; [auto|]. inversion E; subst. inversion H1; subst.
          destruct H2 as [H2|H2]; [apply is_numeric_iff in H2; congruence|].
          apply ceq_neq in Ed. congruence. }
        destruct (ceq c c_e) eqn:Ee; cbn [negb].
        -- apply ceq_eq in Ee; subst c. rewrite !andb_true_iff, is_integer_value_iff. split.
           ++ intros [[H1 H2] H3]. exists [], (c_e :: r). cbn. repeat split; auto; try lia.
              right. now exists r.
           ++ intros (m & ex & E & H1 & H2 & H3 & H4). destruct (Hm _ _ E H1) as [-> ->].
              cbn in H3, H4. destruct H2 as [H2|(i & H2 & Hi)]; [discriminate|]. inversion H2; subst.
              repeat split; auto; lia.
        -- split; [discriminate|]. intros (m & ex & E & H1 & H2 & H3 & H4). destruct (Hm _ _ E H1) as [-> ->].
           destruct H2 as [H2|(i & H2 & Hi)]; [discriminate|]. inversion H2; subst.
           apply ceq_neq in Ee. congruence.
Qed.

Lemma count_dots_digits m : digits m -> count_dots m = 0 /\ count_digits m = length m.
Proof.
  induction 1 as [|c m Hc Hm [IH1 IH2]]; cbn; auto.
  assert (Hd : ceq c c_dot = false) by (apply ceq_neq; intros ->; now apply dot_not_digit in Hc).
  apply is_numeric_iff in Hc. rewrite Hd, Hc. lia.
Qed.
Lemma count_dots_app a b : count_dots (a ++ b) = count_dots a + count_dots b.
Proof. induction a as [|c a IH]; cbn; auto. rewrite IH. lia. Qed.
Lemma count_digits_app a b : count_digits (a ++ b) = count_digits a + count_digits b.
Proof. induction a as [|c a IH]; cbn; auto. rewrite IH. lia. Qed.

Lemma no_dots_digits m : Forall dotdigit m -> count_dots m = 0 -> digits m.
Proof.
  induction 1 as [|c m Hc Hm IH]; cbn; intros E; [constructor|].
  destruct (ceq c c_dot) eqn:Ed; [lia|]. constructor.
  - destruct Hc as [Hc| ->]; auto. now rewrite ceq_refl in Ed.
  - apply IH. lia.
Qed.

Lemma mantissa_iff m : mantissa m <-> Forall dotdigit m /\ (count_dots m <= 1)%nat /\ (0 < count_digits m)%nat.
Proof.
  assert (Hdd : forall s, digits s -> Forall dotdigit s) by (intros s H; eapply Forall_impl; [|exact H]; now left).
  unfold mantissa. split.
  - intros [(H & Hn)|[(a & b & -> & Ha & Hb & Hn)|(a & b & -> & Ha & Hb & Hn)]].
    + pose proof (count_dots_digits _ H) as [H1 H2]. rewrite H1, H2.
      repeat split; auto; try lia. destruct m; [congruence|cbn; lia].
    + pose proof (count_dots_digits _ Ha) as [H1 H2]. pose proof (count_dots_digits _ Hb) as [H3 H4].
      rewrite !count_dots_app, !count_digits_app, H1, H2, H3, H4. cbn.
      repeat split; try lia; [|destruct b; [congruence|cbn; lia]].
      apply Forall_app; split; auto. constructor; [now right|auto].
    + pose proof (count_dots_digits _ Ha) as [H1 H2]. pose proof (count_dots_digits _ Hb) as [H3 H4].
      rewrite !count_dots_app, !count_digits_app, H1, H2, H3, H4. cbn.
      repeat split; try lia; [|destruct a; [congruence|cbn; lia]].
      apply Forall_app; split; auto. constructor; [now right|auto].
  - intros (H1 & H2 & H3).
    destruct (count_dots m) as [|k] eqn:Ec.
    + left. split; [now apply no_dots_digits|]. intros ->. cbn in H3. lia.
    + assert (exists a b, m = a ++ c_dot :: b) as (a & b & ->).
      { clear - Ec. revert k Ec; induction m as [|c m IH]; intros k Ec; cbn in Ec; [discriminate|].
        destruct (ceq c c_dot) eqn:E.
        - apply ceq_eq in E; subst. now exists [], m.
        - destruct (IH k) as (a & b & ->); [lia|]. now exists (c :: a), b. }
      rewrite count_dots_app in Ec. cbn in Ec. apply Forall_app in H1 as [Ha Hb]. inversion Hb; subst.
      assert (Da : digits a) by (apply no_dots_digits; auto; lia).
      assert (Db : digits b) by (apply no_dots_digits; auto; lia).
      right. rewrite count_digits_app in H3. cbn in H3.
      destruct a as [|x a].
      * left. exists [], b. repeat split; auto. intros ->. cbn in H3. lia.
      * right. exists (x :: a), b. repeat split; auto. discriminate.
Qed.

Lemma exponent_iff ex : exponent ex <-> (ex = [] \/ exists i, ex = B "e" ++ i /\ integer_value i).
Proof. reflexivity. Qed.

Lemma sign_char_not_dotdigit c : c = c_plus \/ c = c_minus -> ~ dotdigit c.
Proof. intros [-> | ->] [H|H]; try discriminate; unfold digit in H; cbn in H; lia. Qed.

Lemma is_float_value_iff s : is_float_value s = true <-> float_value s.
Proof.
  assert (L : forall t, float_loop t 0 0 = true <-> exists m ex, t = m ++ ex /\ mantissa m /\ exponent ex).
  { intros t. rewrite float_loop_iff. split.
    - intros (m & ex & -> & H1 & H2 & H3 & H4). exists m, ex. repeat split; auto.
      apply mantissa_iff. repeat split; auto.
    - intros (m & ex & -> & H1 & H2). apply mantissa_iff in H1 as (H1 & H3 & H4).
      exists m, ex. repeat split; auto. }
  unfold float_value.
  assert (Hmnil : ~ mantissa []) by (rewrite mantissa_iff; cbn; lia).
  destruct s as [|c r]; cbn [is_float_value].
  - split; [discriminate|]. intros (sg & m & ex & E & _ & Hm & _).
    symmetry in E. apply app_eq_nil in E as [_ E]. apply app_eq_nil in E as [-> _]. contradiction.
  - destruct (ceq c c_plus || ceq c c_minus) eqn:Es.
    + apply orb_true_iff in Es. rewrite !ceq_eq in Es. rewrite L. split.
      * intros (m & ex & -> & Hm & He). exists [c], m, ex. repeat split; auto.
        right. destruct Es as [-> | ->]; auto.
      * intros (sg & m & ex & E & Hs & Hm & He).
        destruct Hs as [->|[->| ->]]; cbn in E.
        -- destruct m as [|x m]; [contradiction|]. inversion E; subst.
           apply mantissa_iff in Hm as (Hm & _). inversion Hm; subst. now apply sign_char_not_dotdigit in Es.
        -- inversion E; subst. now exists m, ex.
        -- inversion E; subst. now exists m, ex.
    + apply orb_false_iff in Es as [E1 E2]. apply ceq_neq in E1, E2. rewrite L. split.
      * intros (m & ex & E & Hm & He). exists [], m, ex. repeat split; auto. now left.
      * intros (sg & m & ex & E & Hs & Hm & He).
        destruct Hs as [->|[->| ->]]; cbn in E; [now exists m, ex| |]; inversion E; subst; exfalso; [now apply E1|now apply E2].
Qed.

(** ** types *)
Lemma is_object_type_iff s : is_object_type s = true <-> object_type s.
Proof.
  unfold is_object_type, object_type, is_boolean_type, is_character_type, is_integer_type, is_float_type, is_string_type.
  rewrite !orb_true_iff, !seq_eqb_eq. unfold lit, B. tauto.
Qed.
Lemma is_object_value_iff s : is_object_value s = true <-> object_value s.
Proof.
  unfold is_object_value, object_value.
  rewrite !orb_true_iff, is_boolean_value_iff, is_character_value_iff, is_integer_value_iff, is_float_value_iff,
    is_string_value_iff. tauto.
Qed.

Lemma trim_spec s : exists a b, s = a ++ trim s ++ b /\ spaces a /\ spaces b.
Proof.
  destruct (ltrim_spec s) as (a & Ea & Ha & _). destruct (rtrim_spec (ltrim s)) as (b & Eb & Hb & _).
  exists a, b. unfold trim. rewrite <- Eb. auto.
Qed.
(** Texts without blanks at either end. *)
Definition tight (s : str) : Prop :=
  s <> [] /\ (forall c r, s = c :: r -> ~ space c) /\ (forall r c, s = r ++ [c] -> ~ space c).
Lemma trim_tight a t b : spaces a -> spaces b -> tight t -> trim (a ++ t ++ b) = t.
Proof.
  intros Ha Hb (Hn & Hf & Hl). unfold trim. rewrite ltrim_spaces_app by auto.
  destruct t as [|c r]; [congruence|]. cbn [app]. rewrite ltrim_cons_nonspace by eauto.
  change (c :: r ++ b) with ((c :: r) ++ b). rewrite rtrim_app_spaces by auto.
  destruct (c :: r) as [|d r'] using rev_ind; [congruence|]. rewrite rtrim_snoc_nonspace; eauto.
Qed.
Lemma tight_by_ends s : match s with [] => False | c :: _ => is_space c = false end ->
  match rev s with [] => False | c :: _ => is_space c = false end -> tight s.
Proof.
  intros H1 H2. repeat split.
  - intros ->; auto.
  - intros c r ->. now apply is_space_false.
  - intros r c ->. rewrite rev_app_distr in H2. now apply is_space_false.
Qed.
Lemma object_type_tight t : object_type t -> tight t.
Proof.
  intros [->|[->|[->|[->| ->]]]]; apply tight_by_ends; reflexivity.
Qed.

Lemma container_iff (p : str) n s :
  length p = n ->
  (starts_with s p = true /\ ends_with s $">" = true /\ is_object_type (trim (substr s n (length s - S n))) = true /\ (n < length s)%nat)
  <-> exists t s1 s2, s = p ++ s1 ++ t ++ s2 ++ B ">" /\ spaces s1 /\ spaces s2 /\ object_type t.
Proof.
  intros Hn. rewrite starts_with_iff, ends_with_iff. split.
  - intros ((t & ->) & (u & E) & H & L).
    rewrite app_length in *. subst n.
    destruct t as [|c t'] using rev_ind; [cbn in L; lia|]. clear IHt'.
    rewrite app_assoc in E. apply app_inj_tail in E as [_ ->].
    unfold substr in H. rewrite skipn_app, skipn_all, Nat.sub_diag in H. cbn [skipn app] in H.
    rewrite app_length in H. cbn [length] in H.
    replace (length p + (length t' + 1) - S (length p))%nat with (length t') in H by lia.
    rewrite firstn_app, Nat.sub_diag, firstn_all in H. cbn [firstn] in H. rewrite app_nil_r in H.
    destruct (trim_spec t') as (a & b & Et & Ha & Hb).
    exists (trim t'), a, b. repeat split; auto; [|now apply is_object_type_iff].
    rewrite Et at 1. now rewrite <- !app_assoc.
  - intros (t & s1 & s2 & -> & H1 & H2 & Ht). repeat split.
    + eauto.
    + exists (p ++ s1 ++ t ++ s2). now rewrite <- !app_assoc.
    + subst n. unfold substr. rewrite skipn_app, skipn_all, Nat.sub_diag. cbn [skipn app].
      set (u := s1 ++ t ++ s2).
      replace (s1 ++ t ++ s2 ++ B ">") with (u ++ B ">") by (unfold u; now rewrite <- !app_assoc).
      rewrite !app_length. cbn [length B list_ascii_of_string].
      replace (length p + (length u + 1) - S (length p))%nat with (length u) by lia.
      rewrite firstn_app, Nat.sub_diag, firstn_all. cbn [firstn]. rewrite app_nil_r.
      unfold u. rewrite trim_tight by (auto using object_type_tight). now apply is_object_type_iff.
    + subst n. rewrite !app_length. cbn. lia.
Qed.

Lemma is_vector_type_iff s : is_vector_type s = true <-> exists t, vector_type s t.
Proof.
  unfold is_vector_type, vector_type. rewrite <- (container_iff $"Vector<" 7) by reflexivity.
  destruct (starts_with s $"Vector<") eqn:E1; cbn [negb orb]; [|split; [discriminate | now intros (? & _)]].
  destruct (ends_with s $">") eqn:E2; cbn [negb]; [|split; [discriminate | now intros (_ & ? & _)]].
  apply starts_with_iff in E1 as (t & ->). apply ends_with_iff in E2 as (u & E).
  destruct t as [|c t]; [exfalso; rewrite app_nil_r in E; destruct u as [|? u] using rev_ind; [discriminate|];
    assert (X := f_equal (@rev ascii) E); rewrite !rev_app_distr in X; cbn in X; discriminate|].
  split; [intros H | now intros (_ & _ & H & _)]. repeat split; auto.
  rewrite app_length. cbn. lia.
Qed.
Lemma is_set_type_iff s : is_set_type s = true <-> exists t, set_type s t.
Proof.
  unfold is_set_type, set_type. rewrite <- (container_iff $"Set<" 4) by reflexivity.
  destruct (starts_with s $"Set<") eqn:E1; cbn [negb orb]; [|split; [discriminate | now intros (? & _)]].
  destruct (ends_with s $">") eqn:E2; cbn [negb]; [|split; [discriminate | now intros (_ & ? & _)]].
  apply starts_with_iff in E1 as (t & ->). apply ends_with_iff in E2 as (u & E).
  destruct t as [|c t]; [exfalso; rewrite app_nil_r in E; destruct u as [|? u] using rev_ind; [discriminate|];
    assert (X := f_equal (@rev ascii) E); rewrite !rev_app_distr in X; cbn in X; discriminate|].
  split; [intros H | now intros (_ & _ & H & _)]. repeat split; auto.
  rewrite app_length. cbn. lia.
Qed.

Lemma object_type_no_comma t : object_type t -> Forall (fun x => ceq x c_comma = false) t.
Proof. intros [->|[->|[->|[->| ->]]]]; repeat constructor. Qed.
Lemma spaces_no_comma t : spaces t -> Forall (fun x => ceq x c_comma = false) t.
Proof.
  intros H. eapply Forall_impl; [|exact H]. intros c Hc. apply ceq_neq. intros ->. unfold space in Hc. cbn in Hc. lia.
Qed.

Lemma dict_inner_iff u :
  match first_index (fun c => ceq c c_comma) u with
  | Some i => is_object_type (trim (substr u 0 i)) && is_object_type (trim (substr_from u (i + 1)))
  | None => false
  end = true <->
  exists k v s1 s2 s3 s4, u = s1 ++ k ++ s2 ++ B "," ++ s3 ++ v ++ s4 /\
    spaces s1 /\ spaces s2 /\ spaces s3 /\ spaces s4 /\ object_type k /\ object_type v.
Proof.
  split.
  - destruct (first_index _ u) as [i|] eqn:E; [|discriminate].
    apply first_index_some in E as (a & c & b & -> & <- & Hc & _). apply ceq_eq in Hc; subst c.
    rewrite substr_app_prefix, substr_from_app_cons, andb_true_iff, !is_object_type_iff. intros [Hk Hv].
    destruct (trim_spec a) as (s1 & s2 & Ea & H1 & H2). destruct (trim_spec b) as (s3 & s4 & Eb & H3 & H4).
    exists (trim a), (trim b), s1, s2, s3, s4. repeat split; auto.
    rewrite Ea at 1. rewrite Eb at 1. rewrite <- !app_assoc. reflexivity.
  - intros (k & v & s1 & s2 & s3 & s4 & -> & H1 & H2 & H3 & H4 & Hk & Hv).
    assert (E : first_index (fun c => ceq c c_comma) (s1 ++ k ++ s2 ++ B "," ++ s3 ++ v ++ s4)
                = Some (length (s1 ++ k ++ s2))).
    { apply first_index_some. exists (s1 ++ k ++ s2), c_comma, (s3 ++ v ++ s4). repeat split.
      - now rewrite <- !app_assoc.
      - rewrite !Forall_app. auto using spaces_no_comma, object_type_no_comma. }
    rewrite E. set (a := s1 ++ k ++ s2). set (b := s3 ++ v ++ s4).
    replace (s1 ++ k ++ s2 ++ B "," ++ b) with (a ++ c_comma :: b) by (unfold a; rewrite <- !app_assoc; reflexivity).
    rewrite substr_app_prefix, substr_from_app_cons. unfold a, b.
    rewrite !trim_tight by (auto using object_type_tight). rewrite andb_true_iff, !is_object_type_iff. auto.
Qed.

Lemma is_dictionary_type_iff s : is_dictionary_type s = true <-> exists k v, dictionary_type s k v.
Proof.
  unfold is_dictionary_type, dictionary_type.
  destruct (starts_with s $"Dictionary<") eqn:E1; cbn [negb orb].
  2:{ split; [discriminate|]. intros (k & v & s1 & s2 & s3 & s4 & -> & _).
      assert (X : starts_with (B "Dictionary<" ++ s1 ++ k ++ s2 ++ B "," ++ s3 ++ v ++ s4 ++ B ">") $"Dictionary<" = true)
        by (apply starts_with_iff; eauto). congruence. }
  destruct (ends_with s $">") eqn:E2; cbn [negb].
  2:{ split; [discriminate|]. intros (k & v & s1 & s2 & s3 & s4 & -> & _).
      assert (X : ends_with (B "Dictionary<" ++ s1 ++ k ++ s2 ++ B "," ++ s3 ++ v ++ s4 ++ B ">") $">" = true)
        by (apply ends_with_iff; exists (B "Dictionary<" ++ s1 ++ k ++ s2 ++ B "," ++ s3 ++ v ++ s4);
            now rewrite <- !app_assoc). congruence. }
  apply starts_with_iff in E1 as (t & ->). apply ends_with_iff in E2 as (w & E).
  destruct t as [|c t' ] using rev_ind; [exfalso; rewrite app_nil_r in E; destruct w as [|? w] using rev_ind; [discriminate|];
    assert (X := f_equal (@rev ascii) E); rewrite !rev_app_distr in X; cbn in X; discriminate|]. clear IHt'.
  rewrite app_assoc in E. apply app_inj_tail in E as [_ ->].
  assert (Hs : substr ($"Dictionary<" ++ t' ++ $">") 11 (length ($"Dictionary<" ++ t' ++ $">") - 12) = t').
  { unfold substr. change 11%nat with (length $"Dictionary<"). rewrite skipn_app, skipn_all, Nat.sub_diag. cbn [skipn app].
    rewrite !app_length. cbn [length lit list_ascii_of_string].
    replace (11 + (length t' + 1) - 12)%nat with (length t') by lia.
    rewrite firstn_app, Nat.sub_diag, firstn_all. cbn [firstn]. apply app_nil_r. }
  change [">"%char] with $">". rewrite Hs. rewrite dict_inner_iff. split.
  - intros (k & v & s1 & s2 & s3 & s4 & -> & H). exists k, v, s1, s2, s3, s4. split; [|exact H].
    now rewrite <- !app_assoc.
  - intros (k & v & s1 & s2 & s3 & s4 & E & H). exists k, v, s1, s2, s3, s4. split; [|exact H].
    apply app_inv_head in E.
    replace (s1 ++ k ++ s2 ++ B "," ++ s3 ++ v ++ s4 ++ B ">") with ((s1 ++ k ++ s2 ++ B "," ++ s3 ++ v ++ s4) ++ B ">") in E
      by (rewrite <- !app_assoc; reflexivity).
    now apply app_inj_tail in E as [E _].
Qed.

Lemma is_container_type_iff s : is_container_type s = true <-> container_type s.
Proof.
  unfold is_container_type, container_type.
  rewrite !orb_true_iff, is_vector_type_iff, is_set_type_iff, is_dictionary_type_iff. tauto.
Qed.
Lemma is_type_iff s : is_type s = true <-> type s.
Proof. unfold is_type, type. now rewrite orb_true_iff, is_object_type_iff, is_container_type_iff. Qed.

(** ** names *)
Lemma is_reserved_word_iff s : is_reserved_word s = true <-> reserved_word s.
Proof.
  unfold is_reserved_word. rewrite existsb_exists. unfold reserved_word. split.
  - intros (x & Hx & E). apply seq_eqb_eq in E. subst. exact Hx.
  - intros H. exists s. split; [exact H | apply seq_eqb_refl].
Qed.
Lemma is_identifier_iff s : is_identifier s = true <-> identifier s.
Proof.
  unfold identifier. destruct s as [|c r]; cbn [is_identifier].
  - split; [discriminate|]. intros (c & r & E & _). discriminate.
  - change (fun x => is_alphanumeric x || ceq x c_us) with is_name_char. split.
    + destruct (is_alpha c) eqn:Ea; [|discriminate]. cbn [negb].
      destruct (forallb is_name_char r) eqn:Er; [|discriminate]. cbn [negb].
      intros H. apply negb_true_iff in H. exists c, r. repeat split; auto.
      * now apply is_alpha_iff.
      * apply (forallb_iff is_name_char); auto using is_name_char_iff.
      * intros R. apply is_reserved_word_iff in R. congruence.
    + intros (c' & r' & E & H1 & H2 & H3). inversion E; subst.
      apply is_alpha_iff in H1. rewrite H1. cbn [negb].
      apply (forallb_iff is_name_char) in H2; auto using is_name_char_iff. rewrite H2. cbn [negb].
      apply negb_true_iff, not_true_iff_false. now rewrite is_reserved_word_iff.
Qed.

Lemma identifier_name_chars s : identifier s -> Forall name_char s.
Proof. intros (c & r & -> & H1 & H2 & _). constructor; auto. now left. Qed.
Lemma name_char_not_colon c : name_char c -> c <> c_colon.
Proof. intros [[H|H]|[H|H]] ->; try (unfold digit in H; cbn in H; lia); try (cbn in H; lia); discriminate. Qed.

Lemma first_double_colon_some s i : first_double_colon s = Some i ->
  exists a b, s = a ++ c_colon :: c_colon :: b /\ length a = i.
Proof.
  revert i; induction s as [|c r IH]; intros i; cbn [first_double_colon]; [discriminate|].
  destruct r as [|d r]; [discriminate|].
  destruct (ceq c c_colon && ceq d c_colon) eqn:E.
  - intros H; inversion H; subst. apply andb_prop in E as [E1 E2]. apply ceq_eq in E1, E2. subst.
    now exists [], r.
  - destruct (first_double_colon (d :: r)) as [j|]; cbn [option_map]; [|discriminate].
    intros H; inversion H; subst. destruct (IH j eq_refl) as (a & b & -> & <-).
    now exists (c :: a), b.
Qed.
Lemma first_double_colon_name a b : Forall (fun c => c <> c_colon) a ->
  first_double_colon (a ++ c_colon :: c_colon :: b) = Some (length a).
Proof.
  induction 1 as [|c a Hc Ha IH]; cbn [app first_double_colon]; [reflexivity|].
  apply ceq_neq in Hc. destruct (a ++ c_colon :: c_colon :: b) as [|d r] eqn:E; [destruct a; discriminate|].
  rewrite Hc. cbn [andb]. rewrite IH. reflexivity.
Qed.
Lemma first_double_colon_none s : Forall (fun c => c <> c_colon) s -> first_double_colon s = None.
Proof.
  induction 1 as [|c s Hc Hs IH]; cbn [first_double_colon]; [reflexivity|].
  apply ceq_neq in Hc. destruct s; [reflexivity|]. rewrite Hc. cbn [andb]. now rewrite IH.
Qed.
Lemma identifier_no_colon s : identifier s -> Forall (fun c => c <> c_colon) s.
Proof. intros H. eapply Forall_impl; [|apply identifier_name_chars, H]. apply name_char_not_colon. Qed.

Lemma is_variable_iff s : is_variable s = true <-> variable s.
Proof.
  unfold is_variable, variable, is_namespace, namespace. split.
  - destruct (length s =? 0)%nat; [discriminate|].
    destruct (first_double_colon s) as [i|] eqn:E.
    + apply first_double_colon_some in E as (a & b & -> & <-).
      rewrite substr_app_prefix.
      replace (length a + 2)%nat with (length (a ++ [c_colon]) + 1)%nat by (rewrite app_length; cbn; lia).
      replace (a ++ c_colon :: c_colon :: b) with ((a ++ [c_colon]) ++ c_colon :: b) by (rewrite <- app_assoc; reflexivity).
      rewrite substr_from_app_cons, andb_true_iff, !is_identifier_iff. intros [H1 H2].
      right. exists a, b. repeat split; auto. rewrite <- app_assoc. reflexivity.
    + rewrite is_identifier_iff. auto.
  - intros [H|(a & b & -> & H1 & H2)].
    + assert (L : (length s =? 0)%nat = false) by (destruct H as (c & r & -> & _); reflexivity). rewrite L.
      rewrite first_double_colon_none by now apply identifier_no_colon. now apply is_identifier_iff.
    + change (a ++ B "::" ++ b) with (a ++ c_colon :: c_colon :: b).
      assert (L : (length (a ++ c_colon :: c_colon :: b) =? 0)%nat = false) by (rewrite app_length; cbn; apply Nat.eqb_neq; lia).
      rewrite L, first_double_colon_name by now apply identifier_no_colon.
      rewrite substr_app_prefix.
      replace (length a + 2)%nat with (length (a ++ [c_colon]) + 1)%nat by (rewrite app_length; cbn; lia).
      replace (a ++ c_colon :: c_colon :: b) with ((a ++ [c_colon]) ++ c_colon :: b) by (rewrite <- app_assoc; reflexivity).
      rewrite substr_from_app_cons, andb_true_iff, !is_identifier_iff. auto.
Qed.

Lemma is_actor_iff s : is_actor s = true <-> actor s.
Proof.
  unfold is_actor, actor, is_connection, is_context.
  rewrite !orb_true_iff, !seq_eqb_eq, is_type_iff, is_variable_iff. unfold lit, B. tauto.
Qed.

(** ** messages *)
Lemma snoc_cases (s : str) : s = [] \/ exists r c, s = r ++ [c].
Proof. destruct s as [|c r] using rev_ind; [now left | right; eauto]. Qed.
Lemma ltb_snoc (r : str) c : (0 <? length (r ++ [c]))%nat = true.
Proof. apply Nat.ltb_lt. rewrite app_length. cbn. lia. Qed.

Lemma is_unary_message_iff s : is_unary_message s = true <-> unary_message s.
Proof.
  unfold is_unary_message, unary_message.
  destruct (snoc_cases s) as [->|(r & c & ->)].
  - cbn. split; [discriminate|]. intros [(c & r & E & _)|(i & E & _)]; [discriminate|]. destruct i; discriminate.
  - rewrite ltb_snoc, at_last, substr_init. cbn [andb].
    rewrite orb_true_iff, andb_true_iff, !is_identifier_iff, ceq_eq. split.
    + intros [H|[-> H]]; [now left|]. right. exists r. auto.
    + intros [H|(i & E & H)]; [now left|]. right. apply app_inj_tail in E as [-> ->]. auto.
Qed.
Lemma is_keyword_message_token_iff s : is_keyword_message_token s = true <-> keyword_message_token s.
Proof.
  unfold is_keyword_message_token, keyword_message_token.
  destruct (snoc_cases s) as [->|(r & c & ->)].
  - cbn. split; [discriminate|]. intros (i & [E|E] & _); destruct i; discriminate.
  - rewrite ltb_snoc, at_last, substr_init. cbn [andb].
    rewrite andb_true_iff, orb_true_iff, is_identifier_iff, !ceq_eq. split.
    + intros [[-> | ->] H]; exists r; auto.
    + intros (i & [E|E] & H); apply app_inj_tail in E as [-> ->]; auto.
Qed.
Lemma is_keyword_message_argument_iff s : is_keyword_message_argument s = true <-> keyword_message_argument s.
Proof.
  unfold is_keyword_message_argument, keyword_message_argument, is_namespace, namespace.
  rewrite !orb_true_iff, is_object_value_iff, is_identifier_iff, is_variable_iff. tauto.
Qed.
