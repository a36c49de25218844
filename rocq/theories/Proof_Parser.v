(** The statement recogniser and the parser agree with the grammar (properties C01, C02, C03). *)
From Verif Require Import Bytes StrUtils Grammar Outcome Parser.
From Verif Require Import Spec_Grammar Lemmas StringLit Proof_Grammar.

Definition nsp (c : ascii) : Prop := ~ space c.

(** ** texts without blanks *)
Lemma digit_nsp c : digit c -> nsp c.
Proof. unfold nsp, digit, space. lia. Qed.
Lemma letter_nsp c : letter c -> nsp c.
Proof. unfold nsp, letter, space. lia. Qed.
Lemma name_char_nsp c : name_char c -> nsp c.
Proof.
  intros [H|[H|H]]; [now apply letter_nsp|now apply digit_nsp|]. inversion H; subst. unfold nsp, space. cbn. lia.
Qed.
Lemma nsp_by_bool s : forallb (fun c => negb (is_space c)) s = true -> Forall nsp s.
Proof.
  intros H. rewrite forallb_forall in H. apply Forall_forall. intros c Hc. specialize (H c Hc).
  apply negb_true_iff in H. now apply is_space_false.
Qed.
Lemma digits_nsp s : digits s -> Forall nsp s.
Proof. intros H. eapply Forall_impl; [|exact H]. apply digit_nsp. Qed.
Lemma sign_nsp s : sign s -> Forall nsp s.
Proof. intros [->|[->| ->]]; apply nsp_by_bool; reflexivity. Qed.
Lemma integer_nsp s : integer_value s -> Forall nsp s.
Proof. intros (sg & ds & -> & H1 & H2 & _). apply Forall_app; auto using sign_nsp, digits_nsp. Qed.
Lemma mantissa_nsp s : mantissa s -> Forall nsp s.
Proof.
  intros H. apply mantissa_iff in H as (H & _). eapply Forall_impl; [|exact H].
  intros c [Hc| ->]; [now apply digit_nsp|]. unfold nsp, space. cbn. lia.
Qed.
Lemma float_nsp s : float_value s -> Forall nsp s.
Proof.
  intros (sg & m & ex & -> & H1 & H2 & H3). rewrite !Forall_app. repeat split; auto using sign_nsp, mantissa_nsp.
  destruct H3 as [->|(i & -> & Hi)]; [constructor|]. apply Forall_app. split; [|now apply integer_nsp].
  apply nsp_by_bool; reflexivity.
Qed.
Lemma identifier_nsp s : identifier s -> Forall nsp s.
Proof. intros H. eapply Forall_impl; [|apply identifier_name_chars, H]. apply name_char_nsp. Qed.
Lemma variable_nsp s : variable s -> Forall nsp s.
Proof.
  intros [H|(n & i & -> & H1 & H2)]; [now apply identifier_nsp|].
  rewrite !Forall_app. repeat split; auto using identifier_nsp. apply nsp_by_bool; reflexivity.
Qed.
Lemma object_type_nsp s : object_type s -> Forall nsp s.
Proof. intros [->|[->|[->|[->| ->]]]]; apply nsp_by_bool; reflexivity. Qed.

Lemma nsp_tight s : s <> [] -> Forall nsp s -> tight s.
Proof.
  intros Hn H. repeat split; auto.
  - intros c r ->. now inversion H.
  - intros r c ->. apply Forall_app in H as [_ H]. now inversion H.
Qed.

Lemma argument_cases a : keyword_message_argument a -> Forall nsp a \/ character_value a \/ string_value a.
Proof.
  intros [[H|[H|[H|[H|H]]]]|[H|H]]; auto using integer_nsp, float_nsp, identifier_nsp, variable_nsp.
  left. destruct H as [->| ->]; apply nsp_by_bool; reflexivity.
Qed.
Lemma argument_not_nil : ~ keyword_message_argument [].
Proof. rewrite <- is_keyword_message_argument_iff. vm_compute. discriminate. Qed.

Lemma apos_nsp : nsp APOSTROPHE. Proof. unfold nsp, space; cbn; lia. Qed.
Lemma quote_nsp : nsp QUOTE. Proof. unfold nsp, space; cbn; lia. Qed.

Lemma argument_tight a : keyword_message_argument a -> tight a.
Proof.
  intros H. destruct (argument_cases a H) as [Ha|[(c & ->)|(b & -> & _)]].
  - apply nsp_tight; auto. intros ->. now apply argument_not_nil.
  - apply tight_by_ends; reflexivity.
  - apply tight_by_ends; [reflexivity|]. cbn. rewrite rev_app_distr. reflexivity.
Qed.

(** Only string literals begin with a quote. *)
Lemma letter_not_quote c : letter c -> c <> QUOTE. Proof. intros H ->. unfold letter in H. cbn in H. lia. Qed.
Lemma argument_quote r : keyword_message_argument (QUOTE :: r) -> string_value (QUOTE :: r).
Proof.
  intros H. assert (HI : forall s, identifier s -> forall r, s <> QUOTE :: r).
  { intros s (c & r' & -> & Hc & _) r0 E. inversion E; subst. now apply letter_not_quote in Hc. }
  destruct H as [[H|[H|[H|[H|H]]]]|[H|[H|(n & i & E & H & _)]]]; auto; exfalso.
  - destruct H; discriminate.
  - destruct H as [c H]. discriminate.
  - apply is_integer_value_iff in H. cbn in H. discriminate.
  - apply is_float_value_iff in H. cbn in H. discriminate.
  - now apply (HI _ H r).
  - now apply (HI _ H r).
  - destruct n as [|x n]; [destruct H as (? & ? & ? & _); discriminate|]. inversion E; subst. now apply (HI _ H n).
Qed.

(** Unique reading of arguments: no argument is extended, at a blank, to another argument. *)
Lemma argument_stop p s r :
  keyword_message_argument (p ++ s :: r) -> space s -> ~ keyword_message_argument p.
Proof.
  intros H Hs Hp. destruct (argument_cases _ H) as [Ha|[(c & E)|Ha]].
  - apply Forall_app in Ha as [_ Ha]. inversion Ha; subst. contradiction.
  - destruct p as [|x [|y [|z p]]].
    + now apply argument_not_nil in Hp.
    + inversion E; subst. apply is_keyword_message_argument_iff in Hp. vm_compute in Hp. discriminate.
    + inversion E; subst. now apply apos_nsp in Hs.
    + inversion E; subst. destruct p; discriminate.
  - destruct p as [|x p]; [now apply argument_not_nil in Hp|].
    assert (x = QUOTE) by (destruct Ha as (b & E & _); now inversion E). subst x.
    apply argument_quote in Hp. apply is_string_value_iff in Hp, Ha.
    apply (string_literal_prefix_free (QUOTE :: p) (s :: r)) in Hp; [discriminate|exact Ha].
Qed.

(** ** actors *)
Definition LT : ascii := "<"%char.
Definition GT : ascii := ">"%char.
Lemma name_char_not_lt c : name_char c -> c <> LT.
Proof. intros [H|[H|H]] ->; [unfold letter in H; cbn in H; lia | unfold digit in H; cbn in H; lia | discriminate]. Qed.
Lemma variable_no_lt s : variable s -> ~ In LT s.
Proof.
  assert (HI : forall s, identifier s -> ~ In LT s).
  { intros t H Hin. apply identifier_name_chars in H. rewrite Forall_forall in H. now apply (name_char_not_lt LT (H _ Hin)). }
  intros [H|(n & i & -> & H1 & H2)]; [now apply HI|].
  rewrite !in_app_iff. intros [H|[H|H]]; [now apply (HI _ H1)| |now apply (HI _ H2)].
  cbn in H. destruct H as [H|[H|H]]; discriminate || contradiction.
Qed.
Lemma not_in_by_bool x s : existsb (ceq x) s = false -> ~ In x s.
Proof.
  intros H Hin. assert (X : existsb (ceq x) s = true) by (apply existsb_exists; exists x; split; auto using ceq_refl). congruence.
Qed.
Lemma object_type_no_gt t : object_type t -> ~ In GT t.
Proof. intros [->|[->|[->|[->| ->]]]]; apply not_in_by_bool; reflexivity. Qed.
Lemma object_type_no_lt t : object_type t -> ~ In LT t.
Proof. intros [->|[->|[->|[->| ->]]]]; apply not_in_by_bool; reflexivity. Qed.
Lemma spaces_no_gt t : spaces t -> ~ In GT t.
Proof. intros H Hin. unfold spaces in H. rewrite Forall_forall in H. specialize (H _ Hin). unfold space in H. cbn in H. lia. Qed.

(** A container type is [p "<" u ">"] with no blank before the "<" and no ">" before the last character. *)
Lemma container_shape s : container_type s ->
  exists p u, s = p ++ LT :: u ++ [GT] /\ Forall nsp p /\ ~ In GT (p ++ LT :: u).
Proof.
  intros [(t & s1 & s2 & -> & H1 & H2 & Ht)|[(t & s1 & s2 & -> & H1 & H2 & Ht)|(k & v & s1 & s2 & s3 & s4 & -> & H1 & H2 & H3 & H4 & Hk & Hv)]].
  - exists (B "Vector"), (s1 ++ t ++ s2). repeat split.
    + rewrite <- !app_assoc. reflexivity.
    + apply nsp_by_bool; reflexivity.
    + rewrite in_app_iff. intros [H|[H|H]]; [revert H; apply not_in_by_bool; reflexivity|discriminate|].
      rewrite !in_app_iff in H. destruct H as [H|[H|H]]; [now apply spaces_no_gt in H|now apply object_type_no_gt in H|now apply spaces_no_gt in H].
  - exists (B "Set"), (s1 ++ t ++ s2). repeat split.
    + rewrite <- !app_assoc. reflexivity.
    + apply nsp_by_bool; reflexivity.
    + rewrite in_app_iff. intros [H|[H|H]]; [revert H; apply not_in_by_bool; reflexivity|discriminate|].
      rewrite !in_app_iff in H. destruct H as [H|[H|H]]; [now apply spaces_no_gt in H|now apply object_type_no_gt in H|now apply spaces_no_gt in H].
  - exists (B "Dictionary"), (s1 ++ k ++ s2 ++ B "," ++ s3 ++ v ++ s4). repeat split.
    + rewrite <- !app_assoc. reflexivity.
    + apply nsp_by_bool; reflexivity.
    + rewrite in_app_iff. intros [H|[H|H]]; [revert H; apply not_in_by_bool; reflexivity|discriminate|].
      rewrite !in_app_iff in H.
      destruct H as [H|[H|[H|[H|[H|[H|H]]]]]];
        [now apply spaces_no_gt in H|now apply object_type_no_gt in H|now apply spaces_no_gt in H
        |revert H; apply not_in_by_bool; reflexivity
        |now apply spaces_no_gt in H|now apply object_type_no_gt in H|now apply spaces_no_gt in H].
Qed.

Lemma actor_cases a : actor a -> (Forall nsp a /\ ~ In LT a /\ a <> []) \/ container_type a.
Proof.
  intros [->|[->|[[H|H]|H]]]; auto.
  - left. repeat split; [apply nsp_by_bool; reflexivity|apply not_in_by_bool; reflexivity|discriminate].
  - left. repeat split; [apply nsp_by_bool; reflexivity|apply not_in_by_bool; reflexivity|discriminate].
  - left. repeat split; auto using object_type_nsp, object_type_no_lt. now apply object_type_tight.
  - left. repeat split; auto using variable_nsp, variable_no_lt.
    destruct H as [(c & r & -> & _)|(n & i & -> & _)]; [discriminate|]. destruct n; discriminate.
Qed.
Lemma actor_tight a : actor a -> tight a.
Proof.
  intros H. destruct (actor_cases a H) as [(H1 & _ & H2)|Hc]; [now apply nsp_tight|].
  destruct (container_shape a Hc) as (p & u & -> & Hp & _). repeat split.
  - destruct p; discriminate.
  - intros c r E. destruct p as [|x p]; inversion E; subst; [unfold space; cbn; lia|now inversion Hp].
  - intros r c E. change (p ++ LT :: u ++ [GT]) with (p ++ (LT :: u) ++ [GT]) in E. rewrite app_assoc in E. apply app_inj_tail in E as [_ <-].
    unfold space; cbn; lia.
Qed.

Lemma app_split_nsp (p q : str) s r c w :
  Forall nsp q -> nsp c -> space s -> p ++ s :: r = q ++ c :: w -> exists m, p = q ++ c :: m.
Proof.
  revert p; induction q as [|x q IH]; intros p Hq Hc Hs E.
  - destruct p as [|y p]; inversion E; subst; [contradiction|]. now exists p.
  - inversion Hq; subst. destruct p as [|y p]; inversion E; subst; [contradiction|].
    destruct (IH p) as (m & ->); auto. now exists m.
Qed.

(** Unique reading of actors: no actor is extended, at a blank, to another actor. *)
Lemma actor_stop p s r : actor (p ++ s :: r) -> space s -> ~ actor p.
Proof.
  intros H Hs Hp. destruct (actor_cases _ H) as [(Ha & _)|Hc].
  - apply Forall_app in Ha as [_ Ha]. inversion Ha; subst. contradiction.
  - destruct (container_shape _ Hc) as (q & u & E & Hq & Hgt).
    destruct (app_split_nsp p q s r LT (u ++ [GT])) as (m & Em); auto; [unfold nsp, space; cbn; lia|].
    destruct (actor_cases _ Hp) as [(_ & Hlt & _)|Hc'].
    + apply Hlt. rewrite Em. apply in_app_iff. right. now left.
    + destruct (container_shape _ Hc') as (q' & u' & E' & _ & _).
      assert (Hin : In GT p) by (rewrite E'; rewrite in_app_iff; right; right; rewrite in_app_iff; right; now left).
      replace (q ++ LT :: u ++ [GT]) with ((q ++ LT :: u) ++ [GT]) in E by (rewrite <- app_assoc; reflexivity).
      destruct r as [|z r'] using rev_ind; [|clear IHr'].
      * apply app_inj_tail in E as [_ ->]. unfold space in Hs; cbn in Hs; lia.
      * change (p ++ s :: r' ++ [z]) with (p ++ (s :: r') ++ [z]) in E. rewrite app_assoc in E.
        apply app_inj_tail in E as [E _]. apply Hgt. rewrite <- E, in_app_iff. now left.
Qed.

(** ** the actor loop *)
Lemma actor_loop_ok a s rest : forall pre post, a = pre ++ post -> actor a -> space s ->
  actor_loop (a ++ s :: rest) (post ++ s :: rest) (length pre) = Ok (length a).
Proof.
  intros pre post. revert pre; induction post as [|c post IH]; intros pre E Ha Hs.
  - rewrite app_nil_r in E. subst pre. cbn [app actor_loop].
    rewrite substr_app_prefix. apply is_space_iff in Hs. apply is_actor_iff in Ha. rewrite Hs, Ha. reflexivity.
  - cbn [app actor_loop].
    assert (C : negb (is_space c) || negb (is_actor (substr (a ++ s :: rest) 0 (length pre))) = true).
    { rewrite E, <- app_assoc, substr_app_prefix. apply orb_true_iff.
      destruct (is_space c) eqn:Ec; [right|now left]. apply negb_true_iff.
      destruct (is_actor pre) eqn:Ep; [|reflexivity]. apply is_actor_iff in Ep. apply is_space_iff in Ec.
      exfalso. eapply actor_stop; eauto. now rewrite <- E. }
    rewrite C. replace (S (length pre)) with (length (pre ++ [c])) by (rewrite app_length; cbn; lia).
    apply IH; auto. rewrite E, <- app_assoc. reflexivity.
Qed.

Lemma find_seq_first (p : nat -> bool) n i : (i < n)%nat -> p i = true -> (forall j, (j < i)%nat -> p j = false) ->
  find p (seq 0 n) = Some i.
Proof.
  intros Hi Hp Hb.
  assert (G : forall k m, (k <= i < k + m)%nat -> find p (seq k m) = Some i).
  { intros k m; revert k; induction m as [|m IH]; intros k Hk; [lia|]. cbn.
    destruct (Nat.eq_dec k i) as [->|Hne]; [now rewrite Hp|]. rewrite Hb by lia. apply IH. lia. }
  apply G. lia.
Qed.

Lemma first_actor_space a s rest : actor a -> space s ->
  first_such (fun i => is_space (at_ (a ++ s :: rest) i) && is_actor (substr (a ++ s :: rest) 0 i)) (length (a ++ s :: rest))
  = Some (length a).
Proof.
  intros Ha Hs. apply find_seq_first.
  - rewrite app_length. cbn. lia.
  - rewrite at_app_mid, substr_app_prefix. apply is_space_iff in Hs. apply is_actor_iff in Ha. now rewrite Hs, Ha.
  - intros j Hj. destruct (is_space (at_ (a ++ s :: rest) j)) eqn:Es; [|reflexivity]. cbn [andb].
    destruct (is_actor (substr (a ++ s :: rest) 0 j)) eqn:Ea; [|reflexivity]. exfalso.
    apply is_actor_iff in Ea. apply is_space_iff in Es.
    assert (E1 : at_ (a ++ s :: rest) j = at_ a j) by (unfold at_; now rewrite app_nth1).
    assert (E2 : substr (a ++ s :: rest) 0 j = substr a 0 j)
      by (unfold substr; cbn; rewrite firstn_app; replace (j - length a)%nat with 0 by lia; cbn; now rewrite app_nil_r).
    rewrite E1 in Es. rewrite E2 in Ea. eapply actor_stop; eauto. now rewrite <- split_at_elt.
Qed.

(** ** keyword messages *)
Lemma token_shape tok : keyword_message_token tok ->
  exists i d, tok = i ++ [d] /\ is_kw_delim d = true /\ Forall (fun c => is_kw_delim c = false) i /\ identifier i.
Proof.
  intros (i & E & Hi).
  assert (Hf : Forall (fun c => is_kw_delim c = false) i).
  { eapply Forall_impl; [|apply identifier_name_chars, Hi]. intros c Hc. unfold is_kw_delim.
    apply orb_false_iff. rewrite !ceq_neq. split; intros ->; destruct Hc as [H|[H|H]];
      try discriminate; unfold letter, digit in H; cbn in H; lia. }
  destruct E as [-> | ->]; [exists i, c_colon|exists i, c_qmark]; repeat split; auto.
Qed.
Lemma first_index_delim i d rest : Forall (fun c => is_kw_delim c = false) i -> is_kw_delim d = true ->
  first_index is_kw_delim (i ++ d :: rest) = Some (length i).
Proof. intros H1 H2. apply first_index_some. exists i, d, rest. auto. Qed.

Lemma is_keyword_message_part_iff s : is_keyword_message_part s = true <->
  exists tok sp a, s = tok ++ sp ++ a /\ keyword_message_token tok /\ spaces sp /\ keyword_message_argument a.
Proof.
  unfold is_keyword_message_part. split.
  - destruct (first_index is_kw_delim s) as [i|] eqn:E; [|discriminate].
    apply first_index_some in E as (p & d & b & -> & <- & Hd & Hp).
    replace (p ++ d :: b) with ((p ++ [d]) ++ b) by (rewrite <- app_assoc; reflexivity).
    replace (length p + 1)%nat with (length (p ++ [d])) by (rewrite app_length; reflexivity).
    rewrite substr_app_prefix, substr_from_app, andb_true_iff, is_keyword_message_token_iff, is_keyword_message_argument_iff.
    intros [H1 H2]. destruct (ltrim_spec b) as (sp & Eb & Hsp & _).
    exists (p ++ [d]), sp, (ltrim b). repeat split; auto. now rewrite <- Eb.
  - intros (tok & sp & a & -> & Ht & Hs & Ha).
    destruct (token_shape tok Ht) as (i & d & E & Hd & Hi & _).
    assert (F : first_index is_kw_delim (tok ++ sp ++ a) = Some (length i))
      by (rewrite E, <- app_assoc; now apply first_index_delim).
    rewrite F. replace (length i + 1)%nat with (length tok) by (rewrite E, app_length; reflexivity).
    rewrite substr_app_prefix, substr_from_app, ltrim_spaces_app by auto.
    destruct (argument_tight a Ha) as (Hn & Hf & _). destruct a as [|c a]; [congruence|].
    rewrite ltrim_cons_nonspace by eauto. now rewrite andb_true_iff, is_keyword_message_token_iff, is_keyword_message_argument_iff.
Qed.

Lemma tight_first_ltrim s t : tight s -> ltrim (s ++ t) = s ++ t.
Proof. intros (Hn & Hf & _). destruct s as [|c r]; [congruence|]. cbn [app]. apply ltrim_cons_nonspace. eauto. Qed.

Lemma tight_ltrim s : tight s -> ltrim s = s.
Proof. intros H. rewrite <- (app_nil_r s) at 1. now rewrite tight_first_ltrim, app_nil_r. Qed.

Lemma token_tight tok : keyword_message_token tok -> tight tok.
Proof.
  intros H. destruct (token_shape tok H) as (i & d & -> & Hd & _ & Hi). apply nsp_tight.
  - destruct i; discriminate.
  - apply Forall_app. split; [now apply identifier_nsp|]. constructor; [|constructor].
    unfold is_kw_delim in Hd. apply orb_true_iff in Hd. rewrite !ceq_eq in Hd.
    destruct Hd as [-> | ->]; unfold nsp, space; cbn; lia.
Qed.

Lemma tight_app a m b : tight a -> tight b -> tight (a ++ m ++ b).
Proof.
  intros (Ha & Fa & _) (Hb & _ & Lb). repeat split.
  - destruct a; [congruence|discriminate].
  - intros c r E. destruct a as [|x a]; [congruence|]. inversion E; subst. eauto.
  - intros r c E. destruct b as [|y b'] using rev_ind; [congruence|]. clear IHb'.
    rewrite !app_assoc in E. apply app_inj_tail in E as [_ <-]. eauto.
Qed.

Lemma keyword_message_tight m name args : keyword_message m name args -> tight m.
Proof.
  induction 1 as [tok sp a Ht Hs Ha|tok sp a s sp' msg name args Ht Hs Ha Hsp Hs' Hm IH].
  - apply tight_app; auto using token_tight, argument_tight.
  - replace (tok ++ sp ++ a ++ [s] ++ sp' ++ msg) with (tok ++ (sp ++ a ++ [s] ++ sp') ++ msg)
      by (rewrite <- !app_assoc; reflexivity).
    apply tight_app; auto using token_tight.
Qed.

Lemma is_keyword_message_fuel_iff n : forall s, (length s < n)%nat ->
  (is_keyword_message_fuel n s = true <-> exists name args, keyword_message s name args).
Proof.
  induction n as [|n IH]; intros s Hl; [lia|]. cbn [is_keyword_message_fuel]. split.
  - destruct (is_keyword_message_part s) eqn:Ep.
    + intros _. apply is_keyword_message_part_iff in Ep as (tok & sp & a & -> & Ht & Hs & Ha).
      exists tok, [a]. now constructor.
    + intros H. apply existsb_exists in H as (i & Hi & H). apply in_seq in Hi.
      destruct (is_space (at_ s i)) eqn:Es; [|discriminate].
      destruct (is_keyword_message_part (substr s 0 i)) eqn:Ep'; [|discriminate].
      assert (E := split_at_elt s i ltac:(lia)). destruct (ltrim_spec (substr_from s (i + 1))) as (sp' & E' & Hsp' & _).
      apply IH in H as (name & args & Hm).
      2:{ pose proof (ltrim_length (substr_from s (i + 1))). unfold substr_from in *. rewrite skipn_length in *. lia. }
      apply is_keyword_message_part_iff in Ep' as (tok & sp & a & E2 & Ht & Hs & Ha).
      apply is_space_iff in Es.
      exists (tok ++ name), (a :: args). rewrite E, E2, E'.
      replace ((tok ++ sp ++ a) ++ at_ s i :: sp' ++ ltrim (substr_from s (i + 1)))
        with (tok ++ sp ++ a ++ [at_ s i] ++ sp' ++ ltrim (substr_from s (i + 1))) by (rewrite <- !app_assoc; reflexivity).
      now constructor.
  - intros (name & args & H). destruct (is_keyword_message_part s) eqn:Ep; [reflexivity|].
    destruct H as [tok sp a Ht Hs Ha|tok sp a c sp' msg name' args' Ht Hs Ha Hc Hs' Hm].
    + exfalso. assert (X : is_keyword_message_part (tok ++ sp ++ a) = true) by (apply is_keyword_message_part_iff; eauto 8).
      congruence.
    + apply existsb_exists. exists (length (tok ++ sp ++ a)).
      replace (tok ++ sp ++ a ++ [c] ++ sp' ++ msg) with ((tok ++ sp ++ a) ++ c :: sp' ++ msg) in *
        by (rewrite <- !app_assoc; reflexivity).
      split; [apply in_seq; rewrite (app_length (tok ++ sp ++ a)); cbn; lia|].
      rewrite at_app_mid, substr_app_prefix, substr_from_app_cons, ltrim_spaces_app by auto.
      apply is_space_iff in Hc. rewrite Hc.
      assert (X : is_keyword_message_part (tok ++ sp ++ a) = true) by (apply is_keyword_message_part_iff; eauto 8).
      rewrite X. rewrite tight_ltrim by (eapply keyword_message_tight; eauto).
      apply IH; eauto. rewrite !app_length in Hl. cbn [length] in Hl. rewrite !app_length in Hl. lia.
Qed.
Lemma is_keyword_message_iff s : is_keyword_message s = true <-> exists name args, keyword_message s name args.
Proof. apply is_keyword_message_fuel_iff. lia. Qed.

(** A keyword message is no unary message. *)
Lemma kw_has_inner_delim m name args : keyword_message m name args ->
  exists i d rest, m = i ++ d :: rest /\ is_kw_delim d = true /\ rest <> [].
Proof.
  intros H.
  assert (G : forall tok x, keyword_message_token tok -> x <> [] -> exists i d rest, tok ++ x = i ++ d :: rest /\ is_kw_delim d = true /\ rest <> []).
  { intros tok x Ht Hx. destruct (token_shape tok Ht) as (i & d & -> & Hd & _). exists i, d, x.
    rewrite <- app_assoc. auto. }
  destruct H as [tok sp a Ht Hs Ha|tok sp a s sp' msg name args Ht Hs Ha Hsp Hs' Hm]; apply G; auto.
  - destruct (argument_tight a Ha) as (Hn & _). destruct sp; [auto|discriminate].
  - destruct sp; [destruct a; discriminate|discriminate].
Qed.
Lemma identifier_no_delim i : identifier i -> Forall (fun c => is_kw_delim c = false) i.
Proof.
  intros Hi. destruct (token_shape (i ++ B ":")) as (j & d & E & _ & Hj & _); [exists i; auto|].
  apply app_inj_tail in E as [-> _]. auto.
Qed.
Lemma kw_not_unary m name args : keyword_message m name args -> ~ unary_message m.
Proof.
  intros H. destruct (kw_has_inner_delim _ _ _ H) as (i & d & rest & -> & Hd & Hr).
  intros [Hu|(j & E & Hu)]; apply identifier_no_delim in Hu.
  - apply Forall_app in Hu as [_ Hu]. inversion Hu; subst. congruence.
  - destruct rest as [|z r'] using rev_ind; [congruence|clear IHr'].
    change (i ++ d :: r' ++ [z]) with (i ++ (d :: r') ++ [z]) in E. rewrite app_assoc in E.
    apply app_inj_tail in E as [<- _]. apply Forall_app in Hu as [_ Hu]. inversion Hu; subst. congruence.
Qed.

(** ** the keyword loop *)
Lemma skip_spaces_ltrim s : skip_spaces s = ltrim s.
Proof. induction s as [|c r IH]; cbn; [reflexivity|]. destruct (is_space c); auto. Qed.
Lemma token_loop_ok i d rest : Forall (fun c => is_kw_delim c = false) i -> is_kw_delim d = true ->
  token_loop (i ++ d :: rest) = Ok (i ++ [d], rest).
Proof.
  intros Hi Hd. induction Hi as [|c i Hc Hi IH]; cbn [app token_loop]; [now rewrite Hd|]. rewrite Hc, IH. reflexivity.
Qed.
Lemma arg_loop_ok a rest : keyword_message_argument a -> (rest = [] \/ exists s r, rest = s :: r /\ space s) ->
  forall pre post, a = pre ++ post -> arg_loop (post ++ rest) (rev pre) = (a, rest).
Proof.
  intros Ha Hr pre post. revert pre; induction post as [|c post IH]; intros pre E.
  - rewrite app_nil_r in E. subst pre. cbn [app]. destruct Hr as [->|(s & r & -> & Hs)]; cbn [arg_loop].
    + now rewrite rev_involutive.
    + rewrite rev_involutive. apply is_space_iff in Hs. apply is_keyword_message_argument_iff in Ha. now rewrite Hs, Ha.
  - cbn [app arg_loop].
    assert (C : negb (is_space c) || negb (is_keyword_message_argument (rev (rev pre))) = true).
    { rewrite rev_involutive. apply orb_true_iff. destruct (is_space c) eqn:Ec; [right|now left].
      apply negb_true_iff. destruct (is_keyword_message_argument pre) eqn:Ep; [|reflexivity].
      apply is_keyword_message_argument_iff in Ep. apply is_space_iff in Ec. exfalso. subst a. eapply argument_stop; eauto. }
    rewrite C. replace (c :: rev pre) with (rev (pre ++ [c])) by (rewrite rev_app_distr; reflexivity).
    apply IH. now rewrite <- app_assoc.
Qed.

Lemma keyword_loop_nil fuel name args : keyword_loop fuel [] name args = Ok (name, args).
Proof. destruct fuel; reflexivity. Qed.

Lemma keyword_loop_ok m name args : keyword_message m name args ->
  forall fuel name0 args0, (length m < fuel)%nat -> keyword_loop fuel m name0 args0 = Ok (name0 ++ name, args0 ++ args).
Proof.
  induction 1 as [tok sp a Ht Hs Ha|tok sp a s sp' msg name args Ht Hs Ha Hsp Hs' Hm IH]; intros fuel name0 args0 Hf.
  - destruct (token_shape tok Ht) as (i & d & -> & Hd & Hi & _).
    assert (N : exists x y, (i ++ [d]) ++ sp ++ a = x :: y) by (destruct i; cbn; eauto).
    destruct N as (x & y & N). rewrite N in *. destruct fuel as [|f]; [lia|]. cbn [keyword_loop].
    rewrite <- N, <- app_assoc. cbn [app]. rewrite token_loop_ok by auto. cbn [rbind fst snd].
    rewrite skip_spaces_ltrim, ltrim_spaces_app by auto.
    assert (A := arg_loop_ok a [] Ha (or_introl eq_refl) [] a eq_refl). assert (T := tight_first_ltrim a [] (argument_tight a Ha)).
    rewrite app_nil_r in A, T. cbn [rev] in A. rewrite T, A. cbn [fst snd skip_spaces]. apply keyword_loop_nil.
  - destruct (token_shape tok Ht) as (i & d & -> & Hd & Hi & _).
    assert (N : exists x y, (i ++ [d]) ++ sp ++ a ++ [s] ++ sp' ++ msg = x :: y) by (destruct i; cbn; eauto).
    destruct N as (x & y & N). rewrite N in *. destruct fuel as [|f]; [lia|]. cbn [keyword_loop].
    rewrite <- N, <- app_assoc. cbn [app]. rewrite token_loop_ok by auto. cbn [rbind fst snd].
    rewrite skip_spaces_ltrim, ltrim_spaces_app by auto.
    rewrite tight_first_ltrim by now apply argument_tight.
    assert (A := arg_loop_ok a (s :: sp' ++ msg) Ha (or_intror (ex_intro _ s (ex_intro _ _ (conj eq_refl Hsp)))) [] a eq_refl).
    cbn [rev] in A. rewrite A. cbn [fst snd]. change skip_spaces with ltrim.
    change (s :: sp' ++ msg) with ((s :: sp') ++ msg). rewrite ltrim_spaces_app by (constructor; auto).
    rewrite tight_ltrim by (eapply keyword_message_tight; eauto).
    rewrite IH.
    + rewrite <- !app_assoc. reflexivity.
    + assert (L := f_equal (@length _) N). rewrite !app_length in L. cbn in L, Hf. lia.
Qed.

(** ** statements *)
Lemma message_tight m name args : message m name args -> tight m.
Proof.
  intros [s [H|(i & -> & H)]|s n a H].
  - apply nsp_tight; [destruct H as (c & r & -> & _); discriminate|now apply identifier_nsp].
  - apply nsp_tight; [destruct i; discriminate|]. apply Forall_app. split; [now apply identifier_nsp|].
    apply nsp_by_bool; reflexivity.
  - eapply keyword_message_tight; eauto.
Qed.

(** What [is_statement] and [parse] compute from a line of the grammar's shape. *)
Lemma strip_statement sp0 a s sp1 msg name args sp2 sp3 :
  spaces sp0 -> actor a -> message msg name args -> spaces sp2 -> spaces sp3 ->
  trim (sp0 ++ a ++ [s] ++ sp1 ++ msg ++ sp2 ++ B ";" ++ sp3) = (a ++ s :: sp1 ++ msg ++ sp2) ++ [c_semi] /\
  rtrim (a ++ s :: sp1 ++ msg ++ sp2) = a ++ s :: sp1 ++ msg.
Proof.
  intros H0 Ha Hm H2 H3. split.
  - replace (sp0 ++ a ++ [s] ++ sp1 ++ msg ++ sp2 ++ B ";" ++ sp3)
      with (sp0 ++ ((a ++ s :: sp1 ++ msg ++ sp2) ++ [c_semi]) ++ sp3)
      by (rewrite <- !app_assoc; cbn [app]; now rewrite <- !app_assoc).
    apply trim_tight; auto.
    replace ((a ++ s :: sp1 ++ msg ++ sp2) ++ [c_semi]) with (a ++ (s :: sp1 ++ msg ++ sp2) ++ [c_semi])
      by (rewrite <- !app_assoc; reflexivity).
    apply tight_app; [now apply actor_tight|]. apply tight_by_ends; reflexivity.
  - replace (a ++ s :: sp1 ++ msg ++ sp2) with ((a ++ s :: sp1 ++ msg) ++ sp2) by (rewrite <- !app_assoc; cbn; now rewrite <- !app_assoc).
    rewrite rtrim_app_spaces by auto. destruct (message_tight _ _ _ Hm) as (Hn & _ & Hl).
    destruct msg as [|c m'] using rev_ind; [congruence|]. clear IHm'.
    replace (a ++ s :: sp1 ++ m' ++ [c]) with ((a ++ s :: sp1 ++ m') ++ [c]) by (rewrite <- !app_assoc; cbn; now rewrite <- !app_assoc).
    apply rtrim_snoc_nonspace. eauto.
Qed.

Lemma message_check_iff m : is_unary_message m || is_keyword_message m = true <-> exists name args, message m name args.
Proof.
  rewrite orb_true_iff, is_unary_message_iff, is_keyword_message_iff. split.
  - intros [H|(n & a & H)]; [exists m, []; now constructor|exists n, a; now constructor].
  - intros (n & a & [s H|s n' a' H]); eauto.
Qed.

Lemma is_statement_iff line : is_statement line = true <-> exists a name args, statement line a name args.
Proof.
  split.
  - unfold is_statement. destruct (snoc_cases (trim line)) as [E|(t & c & E)]; rewrite E; [discriminate|].
    rewrite at_last, substr_init.
    destruct (length (t ++ [c]) =? 0)%nat; [discriminate|]. cbn [orb].
    destruct (ceq c c_semi) eqn:Ec; [|discriminate]. apply ceq_eq in Ec; subst c. cbn [negb].
    destruct (first_such _ _) as [i|] eqn:Ef; [|discriminate].
    apply find_some in Ef as [Hi Hp]. apply in_seq in Hi. apply andb_prop in Hp as [Hs Ha].
    intros Hm. apply message_check_iff in Hm as (name & args & Hm).
    destruct (trim_spec line) as (sp0 & sp3 & El & H0 & H3). rewrite E in El.
    destruct (rtrim_spec t) as (sp2 & Et & H2 & _).
    assert (Er := split_at_elt (rtrim t) i ltac:(lia)).
    destruct (ltrim_spec (substr_from (rtrim t) (i + 1))) as (sp1 & E1 & H1 & _).
    exists (substr (rtrim t) 0 i), name, args, sp0, (at_ (rtrim t) i), sp1, (ltrim (substr_from (rtrim t) (i + 1))), sp2, sp3.
    repeat split; auto; try (now apply is_actor_iff); try (now apply is_space_iff).
    set (msg := ltrim (substr_from (rtrim t) (i + 1))) in *.
    rewrite El, Et at 1. rewrite Er at 1. rewrite E1 at 1. rewrite <- !app_assoc. cbn [app]. rewrite <- !app_assoc. reflexivity.
  - intros (a & name & args & sp0 & s & sp1 & msg & sp2 & sp3 & -> & H0 & Ha & Hs & H1 & Hm & H2 & H3).
    destruct (strip_statement sp0 a s sp1 msg name args sp2 sp3 H0 Ha Hm H2 H3) as [E1 E2].
    unfold is_statement. rewrite E1, at_last, substr_init.
    assert (L : (length ((a ++ s :: sp1 ++ msg ++ sp2) ++ [c_semi]) =? 0)%nat = false)
      by (apply Nat.eqb_neq; rewrite app_length; cbn; lia).
    rewrite L, ceq_refl. cbn [negb orb]. rewrite E2, first_actor_space by auto.
    rewrite substr_from_app_cons, ltrim_spaces_app by auto.
    rewrite tight_ltrim by (eapply message_tight; eauto).
    apply message_check_iff. eauto.
Qed.

Lemma parse_statement line a name args : statement line a name args ->
  parse line = Ok {| p_actor := a; p_message := name; p_args := args |}.
Proof.
  intros H. unfold parse. rewrite (proj2 (is_statement_iff line)) by eauto. cbn [negb].
  destruct H as (sp0 & s & sp1 & msg & sp2 & sp3 & -> & H0 & Ha & Hs & H1 & Hm & H2 & H3).
  destruct (strip_statement sp0 a s sp1 msg name args sp2 sp3 H0 Ha Hm H2 H3) as [E1 E2].
  rewrite E1, substr_init, E2.
  assert (A := actor_loop_ok a s (sp1 ++ msg) [] a eq_refl Ha Hs). cbn [length] in A. rewrite A. cbn [rbind].
  rewrite substr_app_prefix, substr_from_app_cons, ltrim_spaces_app by auto.
  rewrite tight_ltrim by (eapply message_tight; eauto).
  destruct Hm as [m Hu|m n r Hk].
  - apply is_unary_message_iff in Hu. now rewrite Hu.
  - destruct (is_unary_message m) eqn:Eu; [apply is_unary_message_iff in Eu; exfalso; eapply kw_not_unary; eauto|].
    rewrite (keyword_loop_ok m n r Hk) by lia. reflexivity.
Qed.

Lemma parse_not_statement line : (forall a name args, ~ statement line a name args) -> parse line = Throw InvalidStatement.
Proof.
  intros H. unfold parse. destruct (is_statement line) eqn:E; [|reflexivity].
  apply is_statement_iff in E as (a & n & r & E). exfalso. eapply H; eauto.
Qed.

Lemma statement_dec line : (exists a name args, statement line a name args) \/ (forall a name args, ~ statement line a name args).
Proof.
  destruct (is_statement line) eqn:E; [left; now apply is_statement_iff|right].
  intros a n r H. rewrite (proj2 (is_statement_iff line)) in E; [discriminate|eauto].
Qed.

Lemma parse_iff line a name args :
  parse line = Ok {| p_actor := a; p_message := name; p_args := args |} <-> statement line a name args.
Proof.
  split; [|apply parse_statement]. intros H. destruct (statement_dec line) as [(a' & n' & r' & Hs)|Hn].
  - rewrite (parse_statement _ _ _ _ Hs) in H. inversion H; subst; auto.
  - rewrite parse_not_statement in H by auto. discriminate.
Qed.
Lemma statement_unique line a n r a' n' r' : statement line a n r -> statement line a' n' r' -> a = a' /\ n = n' /\ r = r'.
Proof. intros H H'. apply parse_iff in H, H'. rewrite H in H'. inversion H'; auto. Qed.
