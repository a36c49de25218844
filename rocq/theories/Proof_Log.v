(** Statements are prefix-free, and the text of the log is unambiguous (property C55). *)
From Verif Require Import Bytes StrUtils Grammar Outcome Parser Num Containers Instance Context Server Platform.
From Verif Require Import Lemmas StringLit Proof_Grammar Proof_Parser Proof_Exec WP Proof_Inv Proof_Literal Proof_Receive Proof_Context Proof_Names Api Proof_Local Props_State Proof_Server Props_Server Props_Local.
From Verif Require Import Spec_Grammar Spec_State Spec_Names Spec_Text Spec_Server Spec_Local.
Open Scope list_scope.

Definition SEMI : ascii := ";"%char.
Definition stop (c : ascii) : Prop := space c \/ c = SEMI.
Definition plain (c : ascii) : Prop := ~ stop c.
Lemma digit_plain c : digit c -> plain c.
Proof. intros H [S| ->]; unfold digit, space in *; cbn in *; lia. Qed.
Lemma letter_plain c : letter c -> plain c.
Proof. intros H [S| ->]; unfold letter, space in *; cbn in *; lia. Qed.
Lemma name_char_plain c : name_char c -> plain c.
Proof.
  intros [H|[H|H]]; [now apply letter_plain|now apply digit_plain|]. inversion H; subst. intros [S|S]; [unfold space in S; cbn in S; lia|discriminate].
Qed.
Lemma plain_by_bool s : forallb (fun c => negb (is_space c) && negb (ceq c SEMI))%bool s = true -> Forall plain s.
Proof.
  intros H. rewrite forallb_forall in H. apply Forall_forall. intros c Hc. specialize (H c Hc). apply andb_prop in H as [H1 H2].
  apply negb_true_iff in H1, H2. apply is_space_false in H1. apply ceq_neq in H2. intros [S|S]; contradiction.
Qed.
Lemma digits_plain s : digits s -> Forall plain s.
Proof. intros H. eapply Forall_impl; [|exact H]. apply digit_plain. Qed.
Lemma sign_plain s : sign s -> Forall plain s.
Proof. intros [->|[->| ->]]; apply plain_by_bool; reflexivity. Qed.
Lemma integer_plain s : integer_value s -> Forall plain s.
Proof. intros (sg & ds & -> & H1 & H2 & _). apply Forall_app; auto using sign_plain, digits_plain. Qed.
Lemma mantissa_plain s : mantissa s -> Forall plain s.
Proof.
  intros H. apply mantissa_iff in H as (H & _). eapply Forall_impl; [|exact H].
  intros c [Hc| ->]; [now apply digit_plain|]. intros [S|S]; [unfold space in S; cbn in S; lia|discriminate].
Qed.
Lemma float_plain s : float_value s -> Forall plain s.
Proof.
  intros (sg & m & ex & -> & H1 & H2 & H3). rewrite !Forall_app. repeat split; auto using sign_plain, mantissa_plain.
  destruct H3 as [->|(i & -> & Hi)]; [constructor|]. apply Forall_app. split; [|now apply integer_plain].
  apply plain_by_bool; reflexivity.
Qed.
Lemma identifier_plain s : identifier s -> Forall plain s.
Proof. intros H. eapply Forall_impl; [|apply identifier_name_chars, H]. apply name_char_plain. Qed.
Lemma variable_plain s : variable s -> Forall plain s.
Proof.
  intros [H|(n & i & -> & H1 & H2)]; [now apply identifier_plain|].
  rewrite !Forall_app. repeat split; auto using identifier_plain. apply plain_by_bool; reflexivity.
Qed.
Lemma argument_cases' a : keyword_message_argument a -> Forall plain a \/ character_value a \/ string_value a.
Proof.
  intros [[H|[H|[H|[H|H]]]]|[H|H]]; auto using integer_plain, float_plain, identifier_plain, variable_plain.
  left. destruct H as [->| ->]; apply plain_by_bool; reflexivity.
Qed.
Lemma apos_plain : plain APOSTROPHE. Proof. intros [S|S]; [unfold space in S; cbn in S; lia|discriminate]. Qed.
Lemma quote_plain : plain QUOTE. Proof. intros [S|S]; [unfold space in S; cbn in S; lia|discriminate]. Qed.
Lemma argument_first a : keyword_message_argument a -> exists c r, a = c :: r /\ plain c.
Proof.
  intros H. destruct (argument_cases' a H) as [Ha|[(c & ->)|(b & -> & _)]].
  - destruct a as [|c r]; [now apply argument_not_nil in H|]. inversion Ha; subst. eauto.
  - eexists _, _. split; [reflexivity|apply apos_plain].
  - eexists _, _. split; [reflexivity|apply quote_plain].
Qed.
Lemma argument_stop' p s r : keyword_message_argument (p ++ s :: r) -> stop s -> ~ keyword_message_argument p.
Proof.
  intros H Hs Hp. destruct (argument_cases' _ H) as [Ha|[(c & E)|Ha]].
  - apply Forall_app in Ha as [_ Ha]. inversion Ha; subst. contradiction.
  - destruct p as [|x [|y [|z p]]].
    + now apply argument_not_nil in Hp.
    + inversion E; subst. apply is_keyword_message_argument_iff in Hp. vm_compute in Hp. discriminate.
    + inversion E; subst. now apply apos_plain in Hs.
    + inversion E; subst. destruct p; discriminate.
  - destruct p as [|x p]; [now apply argument_not_nil in Hp|].
    assert (x = QUOTE) by (destruct Ha as (b & E & _); now inversion E). subst x.
    apply argument_quote in Hp. apply is_string_value_iff in Hp, Ha.
    apply (string_literal_prefix_free (QUOTE :: p) (s :: r)) in Hp; [discriminate|exact Ha].
Qed.

(** ** cutting two writings of one text *)
Lemma two_cuts (p q : bytes) s r s' r' : p ++ s :: r = q ++ s' :: r' ->
  (p = q /\ s = s' /\ r = r') \/ (exists m, q = p ++ s :: m) \/ (exists m, p = q ++ s' :: m).
Proof.
  revert q. induction p as [|x p IH]; intros [|y q] E; inversion E; subst; auto.
  - right. left. now exists q.
  - right. right. now exists p.
  - destruct (IH q H1) as [(-> & -> & ->)|[(m & ->)|(m & ->)]]; [left; auto|right; left; now exists m|right; right; now exists m].
Qed.
Lemma cut_by (P : bytes -> Prop) (T : ascii -> Prop) (HP : forall p s r, P (p ++ s :: r) -> T s -> ~ P p) p q s r s' r' :
  P p -> P q -> T s -> T s' -> p ++ s :: r = q ++ s' :: r' -> p = q /\ s = s' /\ r = r'.
Proof.
  intros Pp Pq Ts Ts' E. destruct (two_cuts _ _ _ _ _ _ E) as [H|[(m & ->)|(m & ->)]]; auto; exfalso; eapply HP; eauto.
Qed.
Lemma cut_class (T : ascii -> Prop) p q s r s' r' : Forall (fun c => ~ T c) p -> Forall (fun c => ~ T c) q -> T s -> T s' ->
  p ++ s :: r = q ++ s' :: r' -> p = q /\ s = s' /\ r = r'.
Proof.
  intros Pp Pq Ts Ts'. apply (cut_by (Forall (fun c => ~ T c)) T); auto.
  intros p0 s0 r0 H Hs _. apply Forall_app in H as [_ H]. inversion H; subst. contradiction.
Qed.
Lemma cut_spaces sp sp' x r x' r' : spaces sp -> spaces sp' -> ~ space x -> ~ space x' -> sp ++ x :: r = sp' ++ x' :: r' ->
  sp = sp' /\ x = x' /\ r = r'.
Proof.
  intros H H' N N'. apply (cut_class (fun c => ~ space c)); auto; (eapply Forall_impl; [|eassumption]); auto.
Qed.
Lemma semi_nsp : ~ space SEMI. Proof. unfold space. cbn. lia. Qed.
(** What follows an argument: white space and a semicolon, or white space and more. *)
Lemma after_spaces sp r : spaces sp -> exists s q, sp ++ SEMI :: r = s :: q /\ stop s.
Proof. intros H. destruct sp as [|x sp]; cbn [app]; eexists _, _; (split; [reflexivity|]); [now right|inversion H; now left]. Qed.
Lemma keyword_first m n g : keyword_message m n g -> exists c r, m = c :: r /\ ~ space c /\ c <> SEMI.
Proof.
  intros H. assert (X : exists tok r, m = tok ++ r /\ keyword_message_token tok) by (inversion H; subst; eauto).
  destruct X as (tok & r & -> & Ht). destruct (token_shape tok Ht) as (i & d & -> & _ & _ & Hi).
  assert (Y := identifier_plain _ Hi). destruct Hi as (c & q & -> & _). inversion Y; subst. eexists _, _. split; [reflexivity|].
  split; intros X; apply H2; [now left|now right].
Qed.
Lemma token_cut t1 t2 r1 r2 : keyword_message_token t1 -> keyword_message_token t2 -> t1 ++ r1 = t2 ++ r2 -> t1 = t2 /\ r1 = r2.
Proof.
  intros H1 H2 E. destruct (token_shape _ H1) as (i & d & -> & Hd & Hi & _). destruct (token_shape _ H2) as (i' & d' & -> & Hd' & Hi' & _).
  rewrite <- !app_assoc in E. cbn [app] in E.
  apply (cut_class (fun c => is_kw_delim c = true)) in E as (-> & -> & ->); auto; (eapply Forall_impl; [|eassumption]); cbn; congruence.
Qed.
Lemma argument_cut a1 a2 s1 r1 s2 r2 : keyword_message_argument a1 -> keyword_message_argument a2 -> stop s1 -> stop s2 ->
  a1 ++ s1 :: r1 = a2 ++ s2 :: r2 -> a1 = a2 /\ s1 = s2 /\ r1 = r2.
Proof. apply (cut_by keyword_message_argument stop). exact argument_stop'. Qed.
Lemma spaces_argument_cut sp1 a1 s1 r1 sp2 a2 s2 r2 : spaces sp1 -> spaces sp2 -> keyword_message_argument a1 -> keyword_message_argument a2 ->
  stop s1 -> stop s2 -> sp1 ++ a1 ++ s1 :: r1 = sp2 ++ a2 ++ s2 :: r2 -> sp1 = sp2 /\ a1 = a2 /\ s1 = s2 /\ r1 = r2.
Proof.
  intros S1 S2 A1 A2 T1 T2 E. destruct (argument_first a1 A1) as (c1 & q1 & E1 & P1). destruct (argument_first a2 A2) as (c2 & q2 & E2 & P2).
  rewrite E1, E2 in E. cbn [app] in E. apply cut_spaces in E as (-> & -> & E); auto; [|intros X; apply P1; now left|intros X; apply P2; now left].
  assert (E' : a1 ++ s1 :: r1 = a2 ++ s2 :: r2) by (rewrite E1, E2; cbn [app]; now rewrite E).
  destruct (argument_cut _ _ _ _ _ _ A1 A2 T1 T2 E') as (? & ? & ?). auto.
Qed.
Lemma keyword_cut m1 n1 g1 : keyword_message m1 n1 g1 -> forall m2 n2 g2 sp1 r1 sp2 r2, keyword_message m2 n2 g2 -> spaces sp1 -> spaces sp2 ->
  m1 ++ sp1 ++ SEMI :: r1 = m2 ++ sp2 ++ SEMI :: r2 -> m1 = m2 /\ sp1 = sp2 /\ r1 = r2.
Proof.
  induction 1 as [t1 b1 a1 T1 B1 A1|t1 b1 a1 s1 b1' msg1 nm1 ar1 T1 B1 A1 S1 B1' M1 IH]; intros m2 n2 g2 sp1 r1 sp2 r2 H2 P1 P2 E;
    inversion H2 as [t2 b2 a2 T2 B2 A2|t2 b2 a2 s2 b2' msg2 nm2 ar2 T2 B2 A2 S2 B2' M2]; subst; repeat rewrite <- app_assoc in E; cbn [app] in E;
    apply token_cut in E as [-> E]; auto.
  - destruct (after_spaces sp1 r1 P1) as (x1 & q1 & E1 & X1). destruct (after_spaces sp2 r2 P2) as (x2 & q2 & E2 & X2).
    rewrite E1, E2 in E. apply spaces_argument_cut in E as (-> & -> & -> & ->); auto. split; [reflexivity|].
    rewrite <- E2 in E1. apply cut_spaces in E1 as (-> & _ & ->); auto using semi_nsp.
  - exfalso. destruct (after_spaces sp1 r1 P1) as (x1 & q1 & E1 & X1). rewrite E1 in E.
    apply spaces_argument_cut in E as (-> & -> & -> & ->); auto; [|now left].
    destruct (keyword_first _ _ _ M2) as (c & q & -> & Nc & Nc'). cbn [app] in E1. change (s2 :: b2' ++ c :: q ++ sp2 ++ SEMI :: r2) with ((s2 :: b2') ++ c :: q ++ sp2 ++ SEMI :: r2) in E1.
    apply cut_spaces in E1 as (_ & X & _); auto using semi_nsp. now constructor.
  - exfalso. destruct (after_spaces sp2 r2 P2) as (x2 & q2 & E2 & X2). rewrite E2 in E.
    apply spaces_argument_cut in E as (-> & -> & -> & <-); auto; [|now left].
    destruct (keyword_first _ _ _ M1) as (c & q & -> & Nc & Nc'). cbn [app] in E2. change (x2 :: b1' ++ c :: q ++ sp1 ++ SEMI :: r1) with ((x2 :: b1') ++ c :: q ++ sp1 ++ SEMI :: r1) in E2.
    apply cut_spaces in E2 as (_ & X & _); auto using semi_nsp. now constructor.
  - apply spaces_argument_cut in E as (-> & -> & -> & E); auto; try (now left).
    destruct (keyword_first _ _ _ M1) as (c1 & q1 & E1 & N1 & _). destruct (keyword_first _ _ _ M2) as (c2 & q2 & E2 & N2 & _).
    assert (Y : b1' = b2' /\ msg1 ++ sp1 ++ SEMI :: r1 = msg2 ++ sp2 ++ SEMI :: r2).
    { rewrite E1, E2 in E |- *. cbn [app] in E |- *. apply cut_spaces in E as (-> & -> & ->); auto. }
    destruct Y as [-> Y]. destruct (IH _ _ _ _ _ _ _ M2 P1 P2 Y) as (-> & -> & ->). auto.
Qed.
Lemma identifier_class i : identifier i -> Forall name_char i. Proof. exact (identifier_name_chars i). Qed.
Definition after_name (c : ascii) : Prop := ~ name_char c.
Lemma stop_after_name c : stop c -> after_name c. Proof. intros H N. now apply name_char_plain in N. Qed.
Lemma delim_after_name d : is_kw_delim d = true -> after_name d.
Proof.
  intros H N. unfold is_kw_delim in H. apply orb_true_iff in H. rewrite !ceq_eq in H.
  destruct H as [-> | ->]; destruct N as [N|[N|N]]; try discriminate; unfold letter, digit in N; cbn in N; lia.
Qed.
Lemma name_cut i j s r s' r' : identifier i -> identifier j -> after_name s -> after_name s' -> i ++ s :: r = j ++ s' :: r' -> i = j /\ s = s' /\ r = r'.
Proof.
  intros H1 H2 N1 N2. apply (cut_class after_name); auto; (eapply Forall_impl; [|eapply identifier_class; eassumption]); intros c Hc X; now apply X.
Qed.
Lemma unary_keyword_cut m1 m2 n2 g2 sp1 r1 sp2 r2 : unary_message m1 -> keyword_message m2 n2 g2 -> spaces sp1 ->
  m1 ++ sp1 ++ SEMI :: r1 = m2 ++ sp2 ++ SEMI :: r2 -> False.
Proof.
  intros H1 H2 P1 E.
  assert (X : exists tok sp a r, m2 = tok ++ sp ++ a ++ r /\ keyword_message_token tok /\ spaces sp /\ keyword_message_argument a).
  { destruct H2 as [tok sp a Ht Hs Ha|tok sp a s sp' msg name args Ht Hs Ha _ _ _]; [exists tok, sp, a, []|exists tok, sp, a, ([s] ++ sp' ++ msg)]; (split; [|auto]);
      [rewrite app_nil_r; reflexivity|reflexivity]. }
  destruct X as (tok & sp & a & r & -> & Ht & Hs & Ha). destruct (token_shape tok Ht) as (i & d & -> & Hd & _ & Hi). rewrite <- !app_assoc in E. cbn [app] in E.
  destruct (argument_first a Ha) as (c & q & -> & Hc).
  assert (Z : forall sp1 r1 t, spaces sp1 -> sp1 ++ SEMI :: r1 = sp ++ (c :: q) ++ t -> False).
  { intros s0 r0 t P0 E0. cbn [app] in E0. apply cut_spaces in E0 as (_ & X & _); auto using semi_nsp; [|intros Y; apply Hc; now left]. apply Hc. now right. }
  destruct H1 as [H1|(j & -> & H1)].
  - destruct (after_spaces sp1 r1 P1) as (x1 & q1 & E1 & X1). rewrite E1 in E.
    apply name_cut in E as (_ & -> & _); auto using stop_after_name, delim_after_name.
    destruct X1 as [X1|X1]; [|subst d; vm_compute in Hd; discriminate].
    unfold is_kw_delim in Hd. apply orb_true_iff in Hd. rewrite !ceq_eq in Hd. destruct Hd; subst d; unfold space in X1; cbn in X1; lia.
  - rewrite <- app_assoc in E. cbn [app B list_ascii_of_string] in E. apply name_cut in E as (-> & <- & E); [exact (Z _ _ _ P1 E)|exact H1|exact Hi|apply delim_after_name; reflexivity|now apply delim_after_name].
Qed.
Lemma unary_cut m1 m2 sp1 r1 sp2 r2 : unary_message m1 -> unary_message m2 -> spaces sp1 -> spaces sp2 ->
  m1 ++ sp1 ++ SEMI :: r1 = m2 ++ sp2 ++ SEMI :: r2 -> m1 = m2 /\ sp1 = sp2 /\ r1 = r2.
Proof.
  intros H1 H2 P1 P2 E. destruct (after_spaces sp1 r1 P1) as (x1 & q1 & E1 & X1). destruct (after_spaces sp2 r2 P2) as (x2 & q2 & E2 & X2).
  assert (Q : after_name "?"%char) by (apply delim_after_name; reflexivity).
  assert (D : forall x, stop x -> x <> "?"%char) by (intros x [H|H] ->; [unfold space in H; cbn in H; lia|discriminate]).
  assert (F : sp1 ++ SEMI :: r1 = sp2 ++ SEMI :: r2 -> sp1 = sp2 /\ r1 = r2) by (intros Y; apply cut_spaces in Y as (-> & _ & ->); auto using semi_nsp).
  destruct H1 as [H1|(i & -> & H1)], H2 as [H2|(j & -> & H2)]; repeat rewrite <- app_assoc in E; cbn [app B list_ascii_of_string] in E.
  - rewrite E1, E2 in E. apply name_cut in E as (-> & -> & ->); auto using stop_after_name. split; auto. apply F. rewrite E1, E2. reflexivity.
  - rewrite E1 in E. apply name_cut in E as (_ & X & _); auto using stop_after_name. exfalso. exact (D _ X1 X).
  - rewrite E2 in E. apply name_cut in E as (_ & X & _); auto using stop_after_name. exfalso. exact (D _ X2 (eq_sym X)).
  - apply name_cut in E as (-> & _ & E); auto.
Qed.
Lemma message_cut m1 n1 g1 m2 n2 g2 sp1 r1 sp2 r2 : message m1 n1 g1 -> message m2 n2 g2 -> spaces sp1 -> spaces sp2 ->
  m1 ++ sp1 ++ SEMI :: r1 = m2 ++ sp2 ++ SEMI :: r2 -> m1 = m2 /\ sp1 = sp2 /\ r1 = r2.
Proof.
  intros H1 H2 P1 P2 E. destruct H1 as [m1 U1|m1 n1 g1 K1], H2 as [m2 U2|m2 n2 g2 K2].
  - exact (unary_cut _ _ _ _ _ _ U1 U2 P1 P2 E).
  - destruct (unary_keyword_cut _ _ _ _ _ _ _ _ U1 K2 P1 E).
  - destruct (unary_keyword_cut _ _ _ _ _ _ _ _ U2 K1 P2 (eq_sym E)).
  - exact (keyword_cut _ _ _ K1 _ _ _ _ _ _ _ K2 P1 P2 E).
Qed.
Lemma tight_first_cons s : tight s -> exists c r, s = c :: r /\ ~ space c.
Proof. intros (N & F & _). destruct s as [|c r]; [congruence|]. exists c, r. split; [reflexivity|]. eapply F; reflexivity. Qed.
(** A statement ends at one place only. *)
Lemma statement_cut l1 a1 m1 g1 l2 a2 m2 g2 x1 x2 : statement l1 a1 m1 g1 -> statement l2 a2 m2 g2 ->
  (forall r c, l1 = r ++ [c] -> ~ space c) -> (forall r c, l2 = r ++ [c] -> ~ space c) -> l1 ++ x1 = l2 ++ x2 -> l1 = l2 /\ x1 = x2.
Proof.
  intros (o1 & s1 & i1 & t1 & j1 & z1 & -> & O1 & A1 & S1 & I1 & M1 & J1 & Z1) (o2 & s2 & i2 & t2 & j2 & z2 & -> & O2 & A2 & S2 & I2 & M2 & J2 & Z2) T1 T2 E.
  assert (L : forall o a s i t j z, spaces z -> (forall r c, o ++ a ++ [s] ++ i ++ t ++ j ++ B ";" ++ z = r ++ [c] -> ~ space c) -> z = []).
  { intros o a s i t j z Hz H. destruct z as [|c z _] using rev_ind; [reflexivity|]. exfalso.
    apply Forall_app in Hz as [_ Hz]. inversion Hz; subst. apply (H (o ++ a ++ [s] ++ i ++ t ++ j ++ B ";" ++ z) c); auto. now rewrite <- !app_assoc. }
  apply L in T1; auto. apply L in T2; auto. subst z1 z2. clear L.
  change (B ";" ++ []) with [SEMI] in *. repeat rewrite <- app_assoc in E. cbn [app] in E.
  destruct (tight_first_cons _ (actor_tight a1 A1)) as (c1 & q1 & E1 & N1). destruct (tight_first_cons _ (actor_tight a2 A2)) as (c2 & q2 & E2 & N2).
  assert (Y : o1 = o2 /\ a1 ++ s1 :: i1 ++ t1 ++ j1 ++ SEMI :: x1 = a2 ++ s2 :: i2 ++ t2 ++ j2 ++ SEMI :: x2).
  { rewrite E1, E2 in E |- *. cbn [app] in E |- *. apply cut_spaces in E as (-> & -> & ->); auto. }
  destruct Y as [-> Y]. apply (cut_by actor space actor_stop) in Y as (-> & -> & Y); auto.
  destruct (tight_first_cons _ (message_tight _ _ _ M1)) as (d1 & p1 & F1 & K1). destruct (tight_first_cons _ (message_tight _ _ _ M2)) as (d2 & p2 & F2 & K2).
  assert (W : i1 = i2 /\ t1 ++ j1 ++ SEMI :: x1 = t2 ++ j2 ++ SEMI :: x2).
  { rewrite F1, F2 in Y |- *. cbn [app] in Y |- *. apply cut_spaces in Y as (-> & -> & ->); auto. }
  destruct W as [-> W]. destruct (message_cut _ _ _ _ _ _ _ _ _ _ M1 M2 J1 J2 W) as (-> & -> & ->). auto.
Qed.

(** ** records *)
Definition record_of (srt : sorter) (pw : bytes) (e : bytes * bytes) : Prop :=
  exists line c s c' s', ~ In NEWLINE line /\ trimmed line (fst e) /\ reachable_by_lines srt pw c /\ runs srt pw c s line c' s' (snd e).
Lemma by_lines_reachable srt pw c : reachable_by_lines srt pw c -> reachable srt pw c.
Proof. induction 1; [now constructor|]. eapply reach_step; [eassumption|eassumption]. Qed.
Lemma last_gt (a b : bytes) x y : ~ In GT a -> ~ In GT b -> x ++ GT :: a = y ++ GT :: b -> a = b.
Proof.
  intros Ha Hb E. apply (f_equal (@rev ascii)) in E. rewrite !rev_app_distr in E. cbn [rev] in E. rewrite <- !app_assoc in E. cbn [app] in E.
  apply (cut_class (fun c => c = GT)) in E as (E & _); auto.
  - apply (f_equal (@rev ascii)) in E. now rewrite !rev_involutive in E.
  - apply Forall_forall. intros c Hc ->. now apply in_rev in Hc.
  - apply Forall_forall. intros c Hc ->. now apply in_rev in Hc.
Qed.
Lemma arrow_split (t a : bytes) : t ++ B " -> " ++ a = (t ++ B " -") ++ GT :: (" "%char :: a).
Proof. rewrite <- app_assoc. reflexivity. Qed.
Lemma arrow_answers t1 t2 a1 a2 : ~ In GT a1 -> ~ In GT a2 -> t1 ++ B " -> " ++ a1 = t2 ++ B " -> " ++ a2 -> a1 = a2.
Proof.
  intros H1 H2 E. rewrite !arrow_split in E. apply last_gt in E; [now inversion E| |]; intros [X|X]; try discriminate; contradiction.
Qed.
Lemma error_no_gt a : error_answer a -> ~ In GT a.
Proof. unfold error_answer. cbn [In]. intros H. repeat (destruct H as [<-|H]; [apply not_in_by_bool; reflexivity|]). contradiction. Qed.
Lemma exc_texts_error e : error_answer (exc_text e). Proof. exact (error_answer_exc e). Qed.
Lemma last_of_app (a b : bytes) d : b <> [] -> last (a ++ b) d = last b d.
Proof. intros N. destruct b as [|c b _] using rev_ind; [congruence|]. now rewrite app_assoc, !last_last. Qed.
Lemma syntax_error_apart srt pw c s line c' s' ans t1 t2 : sort_contract srt -> reachable srt pw c -> runs srt pw c s line c' s' ans ->
  (exists a m args, statement line a m args) -> t1 ++ B " -> " ++ ans = t2 ++ B " -> " ++ ERR_SYNTAX -> False.
Proof.
  intros H1 H2 R (a & m & args & St) E. assert (Hg := reachable_good srt pw c H1 H2).
  destruct (execute_good false srt pw line c s H1 Hg (clean_false _)) as [(c1 & s1 & t & H & _ & [Ha _] & _)|[(e & H & He)|(u & H & _)]].
  - destruct (runs_unique _ _ _ _ _ _ _ _ _ _ _ R H) as (-> & -> & ->). destruct Ha as [_ Ha]. unfold ends_safely in Ha.
    apply (f_equal (fun x => last x " "%char)) in E. rewrite !app_assoc in E. rewrite (last_of_app _ ERR_SYNTAX) in E by discriminate.
    destruct t as [|x t].
    + rewrite app_nil_r, last_of_app in E by discriminate. discriminate.
    + rewrite last_of_app in E by discriminate. apply Ha. rewrite E. reflexivity.
  - destruct (runs_unique _ _ _ _ _ _ _ _ _ _ _ R H) as (-> & -> & ->).
    apply arrow_answers in E; [|apply error_no_gt, exc_texts_error|apply error_no_gt; now left].
    change ERR_SYNTAX with (exc_text InvalidStatement) in E. apply exc_text_inj in E. subst e.
    destruct He as [[_ He]|(a' & m' & args' & _ & He)]; [eapply He; eauto|].
    unfold stmt_exc in He. revert He. clear. intros He. repeat match goal with H : _ \/ _ |- _ => destruct H | H : _ /\ _ |- _ => destruct H | H : exists _, _ |- _ => destruct H end; try discriminate.

  - eapply runs_ub; eauto.
Qed.
Lemma record_unambiguous srt1 pw1 srt2 pw2 e1 e2 : sort_contract srt1 -> sort_contract srt2 -> record_of srt1 pw1 e1 -> record_of srt2 pw2 e2 ->
  fst e1 ++ B " -> " ++ snd e1 = fst e2 ++ B " -> " ++ snd e2 -> e1 = e2.
Proof.
  destruct e1 as [t1 a1], e2 as [t2 a2]. cbn [fst snd]. intros K1 K2 (l1 & c1 & s1 & d1 & u1 & _ & T1 & Q1 & R1) (l2 & c2 & s2 & d2 & u2 & _ & T2 & Q2 & R2) E. cbn [fst snd] in *.
  apply by_lines_reachable in Q1, Q2.
  assert (Syn : forall srt pw c s l c' s' ans t, sort_contract srt -> reachable srt pw c -> runs srt pw c s l c' s' ans -> trimmed l t ->
     (exists a m args, statement l a m args /\ statement t a m args) \/ ans = ERR_SYNTAX).
  { intros srt pw c s l c' s' ans t K Q R T. destruct (statement_dec l) as [(a & m & args & S)|N].
    - left. exists a, m, args. split; [exact S|]. now apply (C52_surrounding_space _ _ T).
    - right. now apply (C27_syntax_error_iff_not_a_statement _ _ _ _ _ _ _ _ K Q R). }
  destruct (Syn _ _ _ _ _ _ _ _ _ K1 Q1 R1 T1) as [(b1 & m1 & g1 & S1 & S1')|E1], (Syn _ _ _ _ _ _ _ _ _ K2 Q2 R2 T2) as [(b2 & m2 & g2 & S2 & S2')|E2].
  - destruct T1 as (? & ? & _ & _ & _ & _ & L1), T2 as (? & ? & _ & _ & _ & _ & L2).
    destruct (statement_cut _ _ _ _ _ _ _ _ _ _ S1' S2' L1 L2 E) as [-> X]. apply app_inv_head in X. now subst.
  - exfalso. subst a2. eapply (syntax_error_apart srt1); eauto.
  - exfalso. subst a1. symmetry in E. eapply (syntax_error_apart srt2); eauto.
  - subst. rewrite !app_assoc in E. apply app_inv_tail in E. apply app_inv_tail in E. now subst.
Qed.
Lemma record_no_newline srt pw e : sort_contract srt -> record_of srt pw e -> ~ In NEWLINE (fst e) /\ ~ In NEWLINE (snd e).
Proof.
  intros K (l & c & s & d & u & N & (x & y & -> & _) & Q & R). split.
  - intros H. apply N. rewrite !in_app_iff. auto.
  - eapply C36_answers_are_single_lines; eauto.
Qed.
Lemma app_cut_length (a b x y : bytes) : List.length a = List.length b -> a ++ x = b ++ y -> a = b /\ x = y.
Proof.
  revert b. induction a as [|c a IH]; intros [|d b] L E; cbn in L; try discriminate; [auto|]. inversion E; subst.
  destruct (IH b) as [-> ->]; auto.
Qed.
Lemma written_unique srt1 pw1 srt2 pw2 l1 : sort_contract srt1 -> sort_contract srt2 -> forall l2 text, Forall (record_of srt1 pw1) l1 -> Forall (record_of srt2 pw2) l2 ->
  written l1 text -> written l2 text -> l1 = l2.
Proof.
  intros K1 K2. induction l1 as [|[t1 a1] l1 IH]; intros l2 text F1 F2 W1 W2.
  - inversion W1; subst. inversion W2 as [|st t a l tx L N W E E']; [reflexivity|]. destruct st; discriminate.
  - inversion W1 as [|st1 t a l tx1 L1 N1 W1' E1 E1']; subst. inversion F1 as [|? ? X1 F1']; subst.
    inversion W2 as [E2 E2'|st2 t2 a2 l2' tx2 L2 N2 W2' E2 E2'].
    + destruct st1; discriminate.
    + subst l2. inversion F2 as [|? ? X2 F2']; subst.
      assert (S : st2 = st1 /\ t2 ++ B " -> " ++ a2 ++ NEWLINE :: tx2 = t1 ++ B " -> " ++ a1 ++ NEWLINE :: tx1).
      { change ([NEWLINE] ++ ?x) with (NEWLINE :: x) in *. apply app_cut_length in E2' as [-> E2']; [split; [reflexivity|exact E2']|congruence]. }
      destruct S as [-> S]. destruct (record_no_newline _ _ _ K1 X1) as [M1 P1]. destruct (record_no_newline _ _ _ K2 X2) as [M2 P2]. cbn [fst snd] in *.
      assert (A : ~ In NEWLINE (B " -> ")) by (apply not_in_by_bool; reflexivity).
      replace (t2 ++ B " -> " ++ a2 ++ NEWLINE :: tx2) with ((t2 ++ B " -> " ++ a2) ++ NEWLINE :: tx2) in S by (rewrite <- !app_assoc; reflexivity).
      replace (t1 ++ B " -> " ++ a1 ++ NEWLINE :: tx1) with ((t1 ++ B " -> " ++ a1) ++ NEWLINE :: tx1) in S by (rewrite <- !app_assoc; reflexivity).
      apply (cut_class (fun c => c = NEWLINE)) in S as (S & _ & ->); auto;
        try (apply Forall_forall; intros c Hc ->; rewrite !in_app_iff in Hc; intuition).
      assert (Y := record_unambiguous _ _ _ _ _ _ K2 K1 X2 X1 S). inversion Y; subst. f_equal. eapply IH; eauto.
Qed.
Lemma serial_records srt pw c ss h c' ss' : sort_contract srt -> reachable_by_lines srt pw c -> serial srt pw c ss h c' ss' ->
  (forall e, In e h -> ~ In NEWLINE (e_line e)) -> exists l, records h l /\ logs c l c' /\ Forall (record_of srt pw) l.
Proof.
  intros K Q. induction 1 as [|h c1 ss1 sid line c2 s2 o H IH P]; intros N; [exists []; split; [constructor|split; [apply logs_refl|constructor]]|].
  assert (N' : forall e, In e h -> ~ In NEWLINE (e_line e)) by (intros x Hx; apply N; apply in_or_app; now left).
  assert (R1 : reachable_by_lines srt pw c1) by (eapply serial_reachable; eauto).
  assert (Nl : ~ In NEWLINE line).
  { apply (N {| e_sid := sid; e_line := line; e_outcome := o |}). apply in_or_app. right. now left. }
  destruct (IH N') as (l & R & L & F).
  assert (G : forall ans s', runs srt pw c1 (Some (ss1 sid)) line c2 s' ans ->
      exists t, trimmed line t /\ logs c (l ++ [(t, ans)]) c2 /\ Forall (record_of srt pw) (l ++ [(t, ans)])).
  { intros ans s' Y. destruct (runs_logs _ _ _ _ _ _ _ _ Y) as (t & Tr & Lg). exists t. split; [exact Tr|]. split; [eapply logs_trans; eauto|].
    apply Forall_app. split; [exact F|]. constructor; [|constructor]. exists line, c1, (Some (ss1 sid)), c2, s'. auto. }
  inversion P as [|? ? ans A Y|? ? ans A Y]; subst.
  - exists l. split; [now constructor|]. split; [exact L|exact F].
  - destruct (G _ _ Y) as (t & Tr & Lg & E). exists (l ++ [(t, ans)]). split; [|auto]. eapply records_executed; eauto.
  - destruct (G _ _ Y) as (t & Tr & Lg & E). exists (l ++ [(t, ans)]). split; [|auto]. eapply records_executed; eauto.
Qed.
