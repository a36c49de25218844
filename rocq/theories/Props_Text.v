(** Properties C06, C07, C32: string literals.  Specification: [Spec_Text]; model: [StrUtils], [Grammar], [Instance], [Context]. *)
From Verif Require Import Bytes StrUtils Grammar Outcome Parser Num Containers Instance Context Platform.
From Verif Require Import Lemmas StringLit Proof_Grammar Proof_Parser Proof_Exec Proof_Inv Proof_Literal Proof_Receive Proof_Context Proof_Names Api Proof_Text.
From Verif Require Import Spec_Grammar Spec_State Spec_Names Spec_Text.

(** ** C06: a stored literal reads back identically *)
Theorem C06_every_literal_denotes_one_string : forall a, string_value a ->
  exists v, denotes_string a v /\ forall w, denotes_string a w -> w = v.
Proof.
  intros a H. destruct (string_literal_denotes a H) as [v Hv]. exists v. split; [exact Hv|].
  intros w [_ Hw]. destruct Hv as [_ Hv]. apply printed_inj. congruence.
Qed.
Theorem C06_different_strings_print_differently : forall v w, printed_string v = printed_string w -> v = w.
Proof. exact printed_inj. Qed.
Theorem C06_get_prints_the_value : forall srt pw c s line n v args, sort_contract srt -> reachable srt pw c ->
  statement line n (B "get") args -> lookup c n = Some (IObj (OStr v)) -> only_answers srt pw c s line (printed_string v).
Proof. intros. eapply string_get_answers; eauto. Qed.
(** set: then get; create then get; whoever sends them. *)
Theorem C06_set_then_get : forall srt pw c s s2 line line2 n v a args2, sort_contract srt -> reachable srt pw c ->
  statement line n (B "set:") [a] -> statement line2 n (B "get") args2 -> lookup c n = Some (IObj (OStr v)) -> string_value a ->
  exists c', runs srt pw c s line c' s (B "null") /\ only_answers srt pw c' s2 line2 a.
Proof.
  intros srt pw c s s2 line line2 n v a args2 H1 H2 Hs Hs2 Hl Ha. destruct (string_literal_denotes a Ha) as [w Hw].
  destruct (becomes_reachable _ _ _ _ _ _ _ _ H2 (string_set_becomes srt pw c s H1 H2 line n v a w Hs Hl Hw)) as (c' & R & Hr & Hl').
  exists c'. split; [exact R|]. destruct Hw as [_ ->]. eapply string_get_answers; eauto.
Qed.
Theorem C06_create_then_get : forall srt pw c s s2 line line2 m n a args2, sort_contract srt -> reachable srt pw c ->
  statement line (B "String") m [n; a] -> with_value m -> variable n -> statement line2 n (B "get") args2 -> ~ live c n -> string_value a ->
  exists c', runs srt pw c s line c' s (B "null") /\ only_answers srt pw c' s2 line2 a.
Proof.
  intros srt pw c s s2 line line2 m n a args2 H1 H2 Hs Hm Hn Hs2 Hl Ha. destruct (string_literal_denotes a Ha) as [w Hw].
  assert (Hcr : creates (B "String") m [n; a] n (IObj (OStr w))).
  { apply creates_object; auto using string_object. apply reads_string. eauto. }
  assert (Hb : becomes srt pw c s line n (B "null") (IObj (OStr w))).
  { eapply create_free; eauto using reachable_keys. unfold live in Hl. destruct (lookup c n); [exfalso; apply Hl; discriminate|reflexivity]. }
  destruct (becomes_reachable _ _ _ _ _ _ _ _ H2 Hb) as (c' & R & Hr & Hl').
  exists c'. split; [exact R|]. destruct Hw as [_ ->]. eapply string_get_answers; eauto.
Qed.
Ltac stmt := apply parse_iff; vm_compute; reflexivity.
Definition empty_server : context := new_context false 3 (to_float (S754_zero false)) true.
Example C06_ex : string_value (B """a\""b\\""") /\ denotes_string (B """a\""b\\""") (B "a""b\\") /\
  statement (B "String create: s withValue: ""a\""b\\"";") (B "String") (B "create:withValue:") [B "s"; B """a\""b\\"""].
Proof.
  assert (H : string_value (B """a\""b\\""")) by (apply is_string_value_iff; reflexivity).
  split; [exact H|]. split; [split; [exact H|reflexivity]|stmt].
Qed.

(** ** C07: what get answers for a String is not always a literal *)
Theorem C07_resendable_iff : forall srt pw c s line n v args, sort_contract srt -> reachable srt pw c ->
  statement line n (B "get") args -> lookup c n = Some (IObj (OStr v)) ->
  exists t, only_answers srt pw c s line t /\ (string_value t <-> even_backslashes v).
Proof.
  intros srt pw c s line n v args H1 H2 Hs Hl. exists (printed_string v). split; [eapply string_get_answers; eauto|apply printed_is_literal].
Qed.
Definition one_backslash : context := set_instances empty_server [(B "s", IObj (OStr (B "\")))].
Lemma one_backslash_reachable : reachable insertion_sort [] one_backslash.
Proof.
  apply (after_reachable _ _ [B "String create: s withValue: ""\\"";"; B "s popBack;"] empty_server); [constructor; vm_compute; reflexivity|vm_compute; reflexivity].
Qed.
Theorem C07_printed_strings_are_literals_refuted :
  ~ (forall srt pw c s line n v args t, reachable srt pw c -> statement line n (B "get") args ->
       lookup c n = Some (IObj (OStr v)) -> only_answers srt pw c s line t -> string_value t).
Proof.
  intros H. assert (X : string_value (B """\""")).
  { apply (H insertion_sort [] one_backslash None (B "s get;") (B "s") (B "\") []); [apply one_backslash_reachable|stmt|reflexivity|].
    eexists. split; [unfold runs; vm_compute; reflexivity|]. split; [reflexivity|split; reflexivity]. }
  apply is_string_value_iff in X. vm_compute in X. discriminate.
Qed.
(** Values stored from a literal are fine; only later changes can break the parity. *)
Theorem C07_stored_literals_are_resendable : forall a v, denotes_string a v -> even_backslashes v.
Proof. intros a v [H E]. apply printed_is_literal. now rewrite <- E. Qed.
Example C07_ex : reachable insertion_sort [] one_backslash /\ statement (B "s get;") (B "s") (B "get") [] /\ lookup one_backslash (B "s") = Some (IObj (OStr (B "\"))) /\
  ~ even_backslashes (B "\") /\ denotes_string (B """a\\b""") (B "a\\b") /\ even_backslashes (B "a\\b").
Proof.
  split; [apply one_backslash_reachable|]. split; [stmt|]. split; [reflexivity|].
  assert (D : denotes_string (B """a\\b""") (B "a\\b")) by (split; [apply is_string_value_iff|]; reflexivity).
  split; [|split; [exact D|exact (C07_stored_literals_are_resendable _ _ D)]].
  intros X. apply printed_is_literal in X. apply is_string_value_iff in X. vm_compute in X. discriminate X.
Qed.

(** ** C32: which passwords can be used *)
Lemma session_unchanged srt pw c s line a m args c' s' ans : statement line a m args -> a <> B "Connection" ->
  runs srt pw c s line c' s' ans -> s' = s.
Proof.
  intros Hs Ha Hr. destruct (runs_statement _ _ _ _ _ _ _ _ Hr) as (w1 & r & E & Hu & -> & -> & _).
  assert (Hact := statement_actor _ _ _ _ Hs). destruct Hact as [->|[->|[Ht|Hv]]].
  - congruence.
  - rewrite (run_context srt pw line m args _ Hs) in E. inversion E. reflexivity.
  - rewrite (run_type srt pw line a m args _ Hs Ht) in E. inversion E. reflexivity.
  - rewrite (run_variable srt pw line a m args _ Hs Hv) in E. inversion E. reflexivity.
Qed.
Theorem C32_usable_passwords : forall srt pw c s, is_authenticated s = false ->
  ((exists line c' s' ans, ~ In NEWLINE line /\ runs srt pw c (Some s) line c' (Some s') ans /\ is_authenticated s' = true) <->
   (~ In NEWLINE pw /\ even_backslashes pw)).
Proof.
  intros srt pw c s H0. split.
  - intros (line & c' & s' & ans & Hn & Hr & Hs').
    destruct (statement_dec line) as [(a & m & args & Hs)|Hno].
    + destruct (bytes_dec a (B "Connection")) as [->|Ha].
      * destruct (auth_run _ _ _ _ _ _ _ _ _ _ Hs Hr) as (s1 & E & Es). inversion E; subst s1.
        assert (X := session_receive_auth pw m args s H0). rewrite Es in X. destruct (X Hs') as (-> & x & -> & Hd).
        split.
        -- intros Hin. apply Hn. eapply statement_bytes; [exact Hs|now left|]. destruct Hd as [_ ->].
           unfold printed_string. rewrite !in_app_iff. right. left. unfold with_escapes. apply in_flat_map.
           exists NEWLINE. split; [exact Hin|]. destruct (ascii_dec NEWLINE QUOTE); [discriminate|now left].
        -- destruct Hd as [H1 H2]. apply printed_is_literal. now rewrite <- H2.
      * exfalso. apply (session_unchanged _ _ _ _ _ _ _ _ _ _ _ Hs Ha) in Hr. inversion Hr; subst. congruence.
    + exfalso. unfold runs, execute, run_statement, bind, lift in Hr. rewrite parse_not_statement in Hr by auto.
      cbn in Hr. inversion Hr; subst. congruence.
  - intros [Hn He]. apply printed_is_literal in He.
    assert (Hs := auth_statement _ He).
    exists (B "Connection authenticateWithPassword: " ++ printed_string pw ++ B ";").
    assert (R := run_connection srt pw _ _ _ {| w_ctx := c; w_session := Some s |} Hs).
    unfold in_session in R. cbn [w_session w_ctx] in R. rewrite session_receive_right in R by (split; auto). cbn [fst snd] in R.
    eexists _, _, _. split; [|split; [unfold runs; rewrite (execute_ok _ _ _ _ _ _ R) by (cbn; auto); reflexivity|reflexivity]].
    intros Hin. rewrite !in_app_iff in Hin. unfold printed_string in Hin. rewrite !in_app_iff in Hin.
    assert (L : forall t, existsb (ceq NEWLINE) t = false -> ~ In NEWLINE t).
    { intros t Ht Hi. assert (X : existsb (ceq NEWLINE) t = true) by (apply existsb_exists; exists NEWLINE; split; auto; apply ceq_refl). congruence. }
    destruct Hin as [Hin|[[Hin|[Hin|Hin]]|Hin]]; try (revert Hin; apply L; reflexivity).
    apply in_flat_map in Hin as (x & Hx & Hin). destruct (ascii_dec x QUOTE).
    + revert Hin. apply L. reflexivity.
    + destruct Hin as [->|[]]. contradiction.
Qed.
Theorem C32_every_password_is_usable_refuted : forall srt c s, is_authenticated s = false ->
  ~ exists line c' s' ans, ~ In NEWLINE line /\ runs srt (B "\") c (Some s) line c' (Some s') ans /\ is_authenticated s' = true.
Proof.
  intros srt c s H0. rewrite C32_usable_passwords by exact H0. intros [_ [_ H]].
  specialize (H 1%nat (run_more [] 0 run_none)). inversion H. lia.
Qed.
Example C32_ex : ~ In NEWLINE (B "pass\\""word") /\ even_backslashes (B "pass\\""word").
Proof.
  split; [cbn; intuition discriminate|]. apply printed_is_literal. apply is_string_value_iff. reflexivity.
Qed.

Print Assumptions C06_every_literal_denotes_one_string.
Print Assumptions C06_set_then_get.
Print Assumptions C06_create_then_get.
Print Assumptions C07_resendable_iff.
Print Assumptions C07_printed_strings_are_literals_refuted.
Print Assumptions C32_usable_passwords.
Print Assumptions C32_every_password_is_usable_refuted.
