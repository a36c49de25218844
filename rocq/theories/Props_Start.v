(** Properties C49 (messages to Connection and Context) and C50 (starting and stopping).  Specification: [Spec_Start]. *)
From Coq Require Import ZArith Reals Psatz.
From Verif Require Import Bytes StrUtils Grammar Outcome Parser Num Containers Instance Context Server Main Platform.
From Verif Require Import Lemmas StringLit Proof_Grammar Proof_Parser Proof_Exec WP Proof_Inv Proof_Literal Proof_Receive Proof_Context Proof_Names Api Proof_Text.
From Verif Require Import Proof_Number Proof_Float Proof_Arith Proof_Order Props_Text Props_State Props_Number Props_Float Proof_Vector Proof_String.
From Verif Require Import Proof_Server Proof_Literal Props_Object Props_Server.
From Verif Require Import Spec_Grammar Spec_State Spec_Names Spec_Text Spec_Number Spec_Float Spec_Server Spec_Object Spec_Start.
Open Scope Z_scope.
Open Scope list_scope.

(** ** C49 *)
Lemma session_forward pw m args s s' ans : connection_effect pw m args s s' ans ->
  exists r, session_receive pw m args s = (s', r) /\ text_of r = ans /\ ~ is_ub r.
Proof.
  intros H. destruct H.
  - eexists. split; [reflexivity|]. split; [reflexivity|exact (fun x => x)].
  - exists (Ok (B "null")). split; [|split; [reflexivity|exact (fun x => x)]].
    change (session_authenticate pw [a] s = ({| is_connected := is_connected s; is_authenticated := true |}, Ok (B "null"))).
    unfold session_authenticate. mon. destruct (string_ok a pw H) as (E1 & E2 & _). rewrite E1, E2. cbn [negb]. now rewrite (proj2 (seq_eqb_eq pw pw) eq_refl).
  - exists (Throw WrongPassword). split; [|split; [reflexivity|exact (fun x => x)]].
    change (session_authenticate pw [a] s = (s, Throw WrongPassword)).
    unfold session_authenticate. mon. destruct (string_ok a v H) as (E1 & E2 & _). rewrite E1, E2. cbn [negb].
    destruct (seq_eqb v pw) eqn:E; [apply seq_eqb_eq in E; contradiction|reflexivity].
  - exists (Throw InvalidArgument). split; [|split; [reflexivity|exact (fun x => x)]].
    change (session_authenticate pw [a] s = (s, Throw InvalidArgument)).
    unfold session_authenticate. mon. rewrite <- is_string_value_iff in H. destruct (is_string_value a); [now contradiction H|reflexivity].
  - exists (Throw InvalidMessage). split; [|split; [reflexivity|exact (fun x => x)]].
    unfold session_receive. assert (A : forall x, m <> x -> seq_eqb m x = false) by (intros x Hx; apply not_true_is_false; now rewrite seq_eqb_eq).
    rewrite !dispatch_ne by (apply A; assumption). reflexivity.
Qed.
Theorem C49_connection_messages : forall srt pw c s line m args s' ans,
  statement line (B "Connection") m args -> connection_effect pw m args s s' ans ->
  exists c', runs srt pw c (Some s) line c' (Some s') ans /\ (forall n, lookup c' n = lookup c n) /\ same_settings c c'.
Proof.
  intros srt pw c s line m args s' ans Hs He. destruct (session_forward _ _ _ _ _ _ He) as (r & E & <- & U).
  assert (R := run_connection srt pw _ _ _ {| w_ctx := c; w_session := Some s |} Hs).
  unfold in_session in R. cbn [w_session w_ctx] in R. rewrite E in R. cbn [fst snd] in R.
  exists (write_log line (text_of r) c). split; [unfold runs; rewrite (execute_ok _ _ _ _ _ _ R); [reflexivity|exact U]|].
  destruct (same_data_log line (text_of r) c) as (A & A1 & A2). split; [exact A|now split].
Qed.
(** Every message to Connection is covered, and its effect is determined. *)
Theorem C49_connection_messages_are_complete : forall pw line m args s, statement line (B "Connection") m args ->
  exists s' ans, connection_effect pw m args s s' ans.
Proof.
  intros pw line m args s Hs. destruct (bytes_dec m (B "close")) as [->|N1].
  - assert (L : length args = 0%nat) by (eapply args_len; [exact Hs|reflexivity|reflexivity]). apply len0 in L. subst. eexists _, _. constructor.
  - destruct (bytes_dec m (B "authenticateWithPassword:")) as [->|N2]; [|eexists _, _; now apply con_other].
    assert (L : length args = 1%nat) by (eapply args_len; [exact Hs|reflexivity|reflexivity]). apply len1 in L as [a ->].
    destruct (string_no a) as [[u Hu]|Ha].
    + destruct (bytes_dec u pw) as [->|N]; eexists _, _; [now apply con_right|eapply con_wrong; eauto].
    + eexists _, _. apply con_no_string. rewrite <- is_string_value_iff. congruence.
Qed.
Theorem C49_connection_effect_is_unique : forall pw m args s s1 ans1 s2 ans2,
  connection_effect pw m args s s1 ans1 -> connection_effect pw m args s s2 ans2 -> s1 = s2 /\ ans1 = ans2.
Proof.
  intros pw m args s s1 a1 s2 a2 H1 H2. destruct (session_forward _ _ _ _ _ _ H1) as (r1 & E1 & <- & _).
  destruct (session_forward _ _ _ _ _ _ H2) as (r2 & E2 & <- & _). rewrite E1 in E2. inversion E2. auto.
Qed.
(** A session that is connected and authenticated keeps being so until it sends close. *)
Theorem C49_only_close_disconnects : forall pw m args s s' ans, connection_effect pw m args s s' ans ->
  (is_connected s' = is_connected s \/ m = B "close") /\ (is_authenticated s = true -> is_authenticated s' = true).
Proof. intros pw m args s s' ans H. destruct H; cbn; auto. Qed.
Theorem C49_other_messages_to_Context_are_refused : forall srt pw c s line m args,
  statement line (B "Context") m args -> ~ In m context_messages -> only_answers srt pw c s line ERR_MESSAGE.
Proof.
  intros srt pw c s line m args Hs N.
  assert (R := run_context srt pw _ _ _ {| w_ctx := c; w_session := s |} Hs).
  assert (X : execute_in_context {| p_actor := B "Context"; p_message := m; p_args := args |} c = (c, Throw InvalidMessage)).
  { unfold execute_in_context. cbn [p_message p_args].
    assert (A : forall x, In x context_messages -> seq_eqb m x = false).
    { intros x Hx. apply not_true_is_false. intros E. apply seq_eqb_eq in E. now subst. }
    repeat (rewrite dispatch_ne; [|apply A; cbn [In context_messages]; repeat (first [left; reflexivity | right])]). reflexivity. }
  unfold in_ctx in R. cbn [w_ctx w_session] in R. rewrite X in R. cbn [fst snd] in R.
  exists (write_log line ERR_MESSAGE c). split; [unfold runs; rewrite (execute_ok _ _ _ _ _ _ R); [reflexivity|exact (fun x => x)]|].
  destruct (same_data_log line ERR_MESSAGE c) as (A & A1 & A2). split; [exact A|now split].
Qed.
Example C49_ex : statement (B "Connection authenticateWithPassword: ""pv"";") (B "Connection") (B "authenticateWithPassword:") [B """pv"""] /\
  connection_effect (B "pw") (B "authenticateWithPassword:") [B """pv"""] (fresh (B "pw")) (fresh (B "pw")) ERR_PASSWORD /\
  statement (B "Context clear;") (B "Context") (B "clear") [] /\ ~ In (B "clear") context_messages.
Proof.
  split; [stmt|]. split.
  - apply (con_wrong _ _ (B "pv")); [split; [apply is_string_value_iff|]; reflexivity|discriminate].
  - split; [stmt|]. cbn [In context_messages]. intros H. repeat (destruct H as [H|H]; [discriminate H|]). contradiction.
Qed.

(** ** C50 *)
Theorem C50_help : forall sys o, o_help o = true -> main sys (Some o) = Exits 0.
Proof. intros sys o H. unfold main. now rewrite H. Qed.
Theorem C50_bad_command_line : forall sys, main sys None = Exits 1 /\
  forall o, o_help o = false -> o_port o = None -> main sys (Some o) = Exits 1.
Proof. intros sys. split; [reflexivity|]. intros o H1 H2. unfold main. now rewrite H1, H2. Qed.
(** What is served, and where. *)
Theorem C50_start : forall sys o address port sv, main sys (Some o) = Serves address port sv <->
  (o_help o = false /\ (exists p, o_port o = Some p /\ 0 <= port < 65536 /\ (65536 | p - port)) /\ address = o_bind o /\
   listens sys address port = true /\ sv = start (o_password o) (sv_ctx sv) /\ started_with sys o sv).
Proof.
  intros sys o address port sv. unfold main. split.
  - destruct (o_help o); [discriminate|]. destruct (o_port o) as [p|]; [|discriminate]. destruct (listens sys (o_bind o) (port_number p)) eqn:L; [|discriminate].
    intros H. inversion H; subst. clear H. split; [reflexivity|]. split.
    + exists p. split; [reflexivity|]. unfold port_number. change (2 ^ 16) with 65536. assert (X := Z.mod_pos_bound p 65536 ltac:(lia)). split; [exact X|].
      exists (p / 65536). assert (Y := Z.div_mod p 65536 ltac:(lia)). lia.
    + split; [reflexivity|]. split; [exact L|]. split; [reflexivity|]. constructor; try reflexivity.
      * cbn [sv_ctx start first_context new_context log_is_open]. destruct (seq_eqb (o_logfile o) []) eqn:E.
        -- split; [discriminate|]. intros [N _]. apply seq_eqb_eq in E. contradiction.
        -- split; [intros H; split; auto|intros [_ H]; exact H]. intros X. rewrite X in E. discriminate.
      * split; reflexivity.
  - intros (-> & (p & -> & Hp & q & Hq) & -> & L & Es & S). cbn iota.
    assert (P : port_number p = port).
    { unfold port_number. change (2 ^ 16) with 65536. replace p with (port + q * 65536) by lia. rewrite Z.mod_add by lia. apply Z.mod_small. lia. }
    rewrite P, L. f_equal. rewrite Es. f_equal. destruct S. unfold first_context, new_context.
    destruct (sv_ctx sv) as [i fp tl lo qu lf so]. cbn [log_is_open quiet float_precision tolerance stdout logfile] in *. unfold lookup in *. cbn [instances] in *.
    assert (i = []) as -> by (destruct i as [|[k v] i]; auto; specialize (sw_no_variables k); cbn in sw_no_variables; destruct (bytes_dec k k); congruence).
    destruct sw_nothing_logged as [-> ->]. subst fp tl qu. f_equal.
    destruct (seq_eqb (o_logfile o) []) eqn:E.
    + apply seq_eqb_eq in E. destruct lo; auto. exfalso. apply (proj1 (proj1 sw_log eq_refl)). exact E.
    + assert (Nn : o_logfile o <> []) by (intros X; rewrite X in E; discriminate).
      destruct (opens sys (o_logfile o)) eqn:Eo; destruct lo; auto; [symmetry; now apply sw_log|exfalso].
      destruct (proj1 sw_log eq_refl). congruence.
Qed.
(** The data of a running server are those reachable from its start: the theorems on reachable data apply to it. *)
Lemma float_double f : V32 f -> to_float (to_double f) = f.
Proof.
  intros V. destruct (to_double_exact f V) as (V' & Ev & En & Hf & Hn). destruct f as [s|s| |s m e]; try reflexivity.
  assert (F : finite (to_double (S754_finite s m e))) by (apply Hf; exact I).
  destruct (to_float_narrows (to_double (S754_finite s m e))) as [W N].
  apply (narrows_same _ (S754_finite s m e)) in N; auto; [|exact I].
  unfold narrows, single in N. apply (rounds_exact 24 128) in N.
  - destruct N as (A & C & D). eapply (value_inj 24 128); eauto; try lia. exact I.
  - now apply (value_format 24 128).
  - now apply (value_bound 24 128).
Qed.
Theorem C50_server_data_are_reachable : forall srt sys o address port sv es, main sys (Some o) = Serves address port sv ->
  single_precision (o_tolerance o) -> reachable_by_lines srt (o_password o) (sv_ctx (run srt sv es)).
Proof.
  intros srt sys o address port sv es H V. apply C50_start in H as (_ & _ & _ & _ & E & S). rewrite E.
  apply C35_server_data_are_reachable. destruct S.
  assert (X : sv_ctx sv = new_context (log_is_open (sv_ctx sv)) (o_precision o) (o_tolerance o) (o_quiet o)); [|rewrite X; now constructor].
  unfold new_context. destruct (sv_ctx sv) as [i fp tl lo qu lf so].
  cbn [log_is_open quiet float_precision tolerance stdout logfile] in *. unfold lookup in *. cbn [instances] in *.
  assert (i = []) as -> by (destruct i as [|[k v] i]; auto; specialize (sw_no_variables k); cbn in sw_no_variables; destruct (bytes_dec k k); congruence).
  destruct sw_nothing_logged as [-> ->]. now subst.
Qed.
(** A server started with nothing but a port: no password is asked for. *)
Theorem C50_defaults : forall sys port, listens sys (B "0.0.0.0") (port mod 65536) = true ->
  exists sv, main sys (Some (default_options port)) = Serves (B "0.0.0.0") (port mod 65536) sv /\
    float_precision (sv_ctx sv) = 3 /\ literal_of (B "Float") (B "0.0000001") (OFloat (tolerance (sv_ctx sv))) /\
    log_is_open (sv_ctx sv) = false /\ quiet (sv_ctx sv) = false /\ is_authenticated (fresh (sv_password sv)) = true.
Proof.
  intros sys port L. eexists. split.
  - unfold main. cbn [default_options o_help o_port o_bind]. match goal with |- context [listens sys ?a ?p] => replace (listens sys a p) with true by (symmetry; exact L) end. reflexivity.
  - split; [reflexivity|]. split; [|now repeat split].
    apply literal_float. split; [apply is_float_value_iff|]; reflexivity.
Qed.
(** The messages refuse these settings (C38); the command line does not. *)
Theorem C50_settings_are_validated_refuted : forall sys, (forall a p, listens sys a p = true) ->
  exists o address port sv, main sys (Some o) = Serves address port sv /\ single_precision (o_tolerance o) /\
    float_precision (sv_ctx sv) < 0 /\ below_zero (tolerance (sv_ctx sv)).
Proof.
  intros sys L.
  exists {| o_help := false; o_quiet := true; o_bind := B "0.0.0.0"; o_port := Some 4096; o_password := []; o_logfile := []; o_precision := -1;
            o_tolerance := to_float (atof (B "-1")) |}.
  eexists _, _, _. split; [unfold main; cbn [o_help o_port o_bind]; rewrite L; reflexivity|]. split; [reflexivity|]. split; [reflexivity|].
  apply not_below. reflexivity.
Qed.
(** A port above 65535 is not refused: another one is used. *)
Theorem C50_port_is_the_one_given_refuted : forall sys, (forall a p, listens sys a p = true) ->
  exists sv, main sys (Some (default_options 65537)) = Serves (B "0.0.0.0") 1 sv.
Proof. intros sys L. eexists. unfold main. cbn [default_options o_help o_port o_bind]. rewrite L. reflexivity. Qed.
(** When the server stops by itself. *)
Theorem C50_stops_iff_at_rest : forall sv, io_service_stopped sv = true <-> at_rest sv.
Proof.
  intros sv. unfold io_service_stopped, at_rest. rewrite andb_true_iff, !negb_true_iff. split; intros [A C]; (split; [exact A|]).
  - intros cn Hc. destruct (c_phase cn) eqn:E; auto; exfalso; (assert (X : existsb Main.pending (sv_conns sv) = true); [|congruence]);
      apply existsb_exists; exists cn; (split; [exact Hc|]); unfold Main.pending; now rewrite E.
  - apply not_true_is_false. intros X. apply existsb_exists in X as (cn & Hc & E). unfold Main.pending in E. rewrite (C _ Hc) in E. discriminate.
Qed.
Lemma accepting_step srt sv e : e <> AcceptError -> sv_accepting (step srt sv e) = sv_accepting sv.
Proof.
  intros N. unfold step. destruct (sv_crash sv); [reflexivity|]. destruct e; try congruence.
  - destruct (sv_accepting sv) eqn:E; [reflexivity|exact E].
  - destruct (nth_error _ _); reflexivity.
  - destruct (nth_error _ _) as [cn|]; [|reflexivity]. destruct (c_phase cn); try reflexivity. destruct (has_newline _); reflexivity.
  - destruct (nth_error _ _) as [cn|]; [|reflexivity]. destruct (c_phase cn); try reflexivity. destruct (has_newline _); [|reflexivity].
    unfold handle. destruct (handle_line _ _ _ _ _) as [[[c' s'] [r|]]|x|v]; try reflexivity. destruct (do_write r k); reflexivity.
  - destruct (nth_error _ _) as [cn|]; [|reflexivity]. destruct (c_phase cn); reflexivity.
  - destruct (nth_error _ _); reflexivity.
Qed.
Theorem C50_runs_until_accept_fails : forall srt pw c0 es, ~ In AcceptError es -> ~ at_rest (run srt (start pw c0) es).
Proof.
  intros srt pw c0 es N [A _]. assert (X : sv_accepting (run srt (start pw c0) es) = true); [|congruence].
  clear A. induction es as [|e es IH] using rev_ind; [reflexivity|].
  rewrite run_snoc, accepting_step; [apply IH|]; intros H; apply N; apply in_or_app; [now left|subst; right; now left].
Qed.
Theorem C50_rest_is_final : forall srt sv es, at_rest sv -> at_rest (run srt sv es) /\ sv_ctx (run srt sv es) = sv_ctx sv.
Proof.
  intros srt sv es H. induction es as [|e es [IH1 IH2]] using rev_ind; [auto|]. rewrite run_snoc. rewrite <- IH2. clear IH2.
  generalize dependent (run srt sv es). clear sv H. intros sv [A G].
  assert (Gn : forall k cn, nth_error (sv_conns sv) k = Some cn -> c_phase cn = Gone) by (intros k cn H; apply (G cn); eapply nth_error_In; eauto).
  assert (W : forall sid cn x, nth_error (sv_conns sv) sid = Some cn -> c_phase x = Gone -> at_rest (with_conn sv sid x)).
  { intros sid cn x Hn Hx. split; [exact A|]. intros y Hy. cbn [with_conn sv_conns] in Hy. apply In_nth_error in Hy as [k Hk].
    destruct (Nat.eq_dec k sid) as [->|Nk]; [rewrite (set_conn_same _ _ _ _ Hn) in Hk; congruence|].
    rewrite (set_conn_other _ _ _ _ _ Hn Nk) in Hk. eapply Gn; eauto. }
  unfold step. destruct (sv_crash sv) eqn:Ec; [split; [now split|reflexivity]|]. destruct e.
  - rewrite A. split; [now split|reflexivity].
  - split; [now split|reflexivity].
  - destruct (nth_error _ _) as [cn|] eqn:Hn; [|split; [now split|reflexivity]]. split; [|reflexivity]. eapply W; [exact Hn|]. cbn. eapply Gn; eauto.
  - destruct (nth_error _ _) as [cn|] eqn:Hn; [|split; [now split|reflexivity]]. rewrite (Gn _ _ Hn). split; [now split|reflexivity].
  - destruct (nth_error _ _) as [cn|] eqn:Hn; [|split; [now split|reflexivity]]. rewrite (Gn _ _ Hn). split; [now split|reflexivity].
  - destruct (nth_error _ _) as [cn|] eqn:Hn; [|split; [now split|reflexivity]]. rewrite (Gn _ _ Hn). split; [now split|reflexivity].
  - destruct (nth_error _ _) as [cn|] eqn:Hn; [|split; [now split|reflexivity]]. split; [|reflexivity]. eapply W; [exact Hn|]. reflexivity.
Qed.
Example C50_ex : let sys := {| opens := fun _ => false; listens := fun a p => seq_eqb a (B "0.0.0.0") && (p =? 4096)%Z |} in
  exists sv, main sys (Some (default_options 4096)) = Serves (B "0.0.0.0") 4096 sv /\ started_with sys (default_options 4096) sv /\
    main sys (Some (default_options 80)) = Terminates /\
    at_rest (run insertion_sort sv [Accept; AcceptError; Fail 0]) /\ ~ at_rest (run insertion_sort sv [Accept; Fail 0]).
Proof.
  cbv zeta. eexists. split; [reflexivity|]. split.
  - eapply C50_start. reflexivity.
  - split; [reflexivity|]. split; [rewrite <- C50_stops_iff_at_rest; reflexivity|].
    rewrite <- C50_stops_iff_at_rest. discriminate.
Qed.
Print Assumptions C49_connection_messages.
Print Assumptions C49_connection_messages_are_complete.
Print Assumptions C49_connection_effect_is_unique.
Print Assumptions C49_only_close_disconnects.
Print Assumptions C49_other_messages_to_Context_are_refused.
Print Assumptions C50_help.
Print Assumptions C50_bad_command_line.
Print Assumptions C50_start.
Print Assumptions C50_server_data_are_reachable.
Print Assumptions C50_defaults.
Print Assumptions C50_settings_are_validated_refuted.
Print Assumptions C50_port_is_the_one_given_refuted.
Print Assumptions C50_stops_iff_at_rest.
Print Assumptions C50_runs_until_accept_fails.
Print Assumptions C50_rest_is_final.
