(** Property C77: the password stays secret.  Specification: [Spec_Secret]. *)
From Verif Require Import Bytes StrUtils Grammar Outcome Parser Num Containers Instance Context Server Platform.
From Verif Require Import Lemmas StringLit Proof_Grammar Proof_Parser Proof_Exec Proof_Inv Proof_Literal Proof_Receive Proof_Context Proof_Names Api Proof_Text Proof_TextLit Props_State Props_Text Proof_Server Props_Server Proof_Order.
From Verif Require Import Spec_Grammar Spec_State Spec_Names Spec_Text Spec_Server Spec_Secret.
From Coq Require Import Lia.
Local Open Scope nat_scope.
Local Open Scope list_scope.

Lemma session_same p q m args s : (forall a, m = B "authenticateWithPassword:" -> args = [a] -> denotes_string a p <-> denotes_string a q) ->
  session_receive p m args s = session_receive q m args s.
Proof.
  intros K. unfold session_receive, dispatch. cbn [find]. destruct (seq_eqb m ($"close")); auto. destruct (seq_eqb m ($"authenticateWithPassword:")) eqn:E; auto.
  apply seq_eqb_eq in E. unfold session_authenticate, bind, check_nargs, arg, throw_if, throw, ret, get, put, lift, undefined.
  destruct args as [|x [|]]; cbn [length Nat.eqb negb nth_error fst snd]; auto. destruct (is_string_value x); cbn [negb fst snd]; auto.
  destruct (string_of x) as [v|e|u] eqn:Ex; auto. specialize (K x E eq_refl). rewrite <- !string_of_iff, Ex in K.
  destruct (seq_eqb v p) eqn:P; destruct (seq_eqb v q) eqn:Q; auto.
  - apply seq_eqb_eq in P. subst v. assert (X := proj1 K eq_refl). injection X as X. rewrite (proj2 (seq_eqb_eq _ _) X) in Q. discriminate Q.
  - apply seq_eqb_eq in Q. subst v. assert (X := proj2 K eq_refl). injection X as X. rewrite (proj2 (seq_eqb_eq _ _) X) in P. discriminate P.
Qed.
Lemma execute_same srt p q line w : blind_to p q line -> execute srt p line w = execute srt q line w.
Proof.
  intros K. unfold execute. enough (E : run_statement srt p line w = run_statement srt q line w) by (rewrite E; reflexivity).
  unfold run_statement, bind, lift. destruct (parse line) as [pr|e|u] eqn:P; auto. destruct (is_type (p_actor pr)); auto. destruct (is_context (p_actor pr)); auto.
  destruct (is_variable (p_actor pr)); auto. destruct (is_connection (p_actor pr)) eqn:C; auto. unfold in_session. destruct (w_session w) as [s|]; auto.
  rewrite (session_same p q); auto. intros a Em Ea. destruct pr as [ac me ar]. cbn [p_actor p_message p_args] in *. subst me ar.
  apply is_connection_true in C. subst ac. apply parse_iff in P.
  unfold blind_to, password_line in K. split; intros D.
  - destruct (proj1 K (ex_intro _ a (conj P D))) as (b & Sb & Db). destruct (statement_unique _ _ _ _ _ _ _ P Sb) as (_ & _ & E). injection E as <-. exact Db.
  - destruct (proj2 K (ex_intro _ a (conj P D))) as (b & Sb & Db). destruct (statement_unique _ _ _ _ _ _ _ P Sb) as (_ & _ & E). injection E as <-. exact Db.
Qed.
(** What a line does depends on the password only through whether the line sends it. *)
Theorem C77_lines_that_do_not_send_it : forall srt p q c s line, blind_to p q line ->
  (forall c' s' ans, runs srt p c s line c' s' ans <-> runs srt q c s line c' s' ans) /\
  (forall u, undefined_behaviour srt p c s line u <-> undefined_behaviour srt q c s line u).
Proof. intros srt p q c s line K. unfold runs, undefined_behaviour. rewrite (execute_same srt p q line _ K). split; intros; reflexivity. Qed.

Lemma processes_same srt p q c s line c' s' o : blind_to p q line -> processes srt p c s line c' s' o -> processes srt q c s line c' s' o.
Proof.
  intros K P. inversion P as [N1 N2|? ? ? G R Co|? ? ? G R Co]; subst.
  - now constructor.
  - apply processes_answered; auto. now apply (C77_lines_that_do_not_send_it srt p q).
  - apply processes_closed; auto. now apply (C77_lines_that_do_not_send_it srt p q).
Qed.
Lemma trace_same srt p q s l s' : (forall e, In e l -> blind_to p q (e_line e)) -> trace srt p s l s' -> trace srt q s l s'.
Proof.
  intros K T. induction T as [|l s1 e c c' s2 T IH P]; [constructor|]. eapply trace_more.
  - apply IH. intros x Hx. apply K, in_or_app. now left.
  - eapply processes_same; [|exact P]. apply K, in_or_app. right. now left.
Qed.
Lemma fresh_same p q : (p = [] <-> q = []) -> fresh p = fresh q.
Proof. intros E. unfold fresh. destruct (bytes_dec p []) as [->|N]; destruct (bytes_dec q []) as [->|N']; auto; [destruct N'|destruct N]; tauto. Qed.

(** A client who does not send the password gets the same answers, whatever the password, the data and the other clients are. *)
Theorem C77_a_client_learns_only_that_its_guesses_are_wrong : forall srt srt' p q c0 c0' es es' sid sid' cn cn',
  p <> [] -> q <> [] ->
  sv_crash (run srt (start p c0) es) = None -> sv_crash (run srt' (start q c0') es') = None ->
  nth_error (sv_conns (run srt (start p c0) es)) sid = Some cn -> nth_error (sv_conns (run srt' (start q c0') es')) sid' = Some cn' ->
  arrived es sid = arrived es' sid' -> idle cn -> idle cn' ->
  (forall line, complete_line (arrived es sid) line -> ~ password_line p line /\ ~ password_line q line) ->
  c_sent cn = c_sent cn' /\ c_session cn = c_session cn' /\ is_authenticated (c_session cn) = false.
Proof.
  intros srt srt' p q c0 c0' es es' sid sid' cn cn' Np Nq H1 H2 N1 N2 Same I1 I2 K.
  destruct (C35_every_schedule_is_serialisable _ _ _ _ H1) as (h1 & X1). destruct (C35_every_schedule_is_serialisable _ _ _ _ H2) as (h2 & X2).
  destruct (lines_of_exists (arrived es sid)) as (ls & rest & L1). assert (L2 := L1). rewrite Same in L2.
  destruct (C33_executed_lines_are_the_lines_of_the_stream _ _ _ _ _ _ _ _ _ X1 N1 L1) as (w1 & E1 & W1).
  destruct (C33_executed_lines_are_the_lines_of_the_stream _ _ _ _ _ _ _ _ _ X2 N2 L2) as (w2 & E2 & W2).
  rewrite (W1 I1), app_nil_r in E1. rewrite (W2 I2), app_nil_r in E2.
  destruct X1 as (ss1 & S1 & _ & C1). destruct X2 as (ss2 & S2 & _ & C2). destruct (C1 _ _ N1) as [T1 A1]. destruct (C2 _ _ N2) as [T2 A2].
  assert (Z1 := serial_trace _ _ _ _ _ _ _ sid S1). assert (Z2 := serial_trace _ _ _ _ _ _ _ sid' S2). cbn beta in Z1, Z2.
  rewrite <- T1 in Z1. rewrite <- T2 in Z2.
  assert (A : is_authenticated (c_session cn) = false).
  { destruct (is_authenticated (c_session cn)) eqn:A; auto. exfalso.
    destruct (C31_authenticated_only_by_the_password _ _ _ _ _ _ _ _ H1 N1 L1 A) as [|(line & Hl & Pl)]; [contradiction|]. destruct (K line) as [K1 _]; [exists ls, rest; auto|]. exact (K1 Pl). }
  assert (Z1' : trace srt q (fresh q) (entries_of sid h1) (c_session cn)).
  { rewrite <- (fresh_same p q) by tauto. eapply trace_same; [|exact Z1]. intros e He.
    assert (Q : In (e_line e) ls) by (change (e_line e) with (e_line e); rewrite E1; apply (in_map e_line); exact He). destruct (K (e_line e)) as [K1 K2]; [exists ls, rest; split; [exact L1|exact Q]|]. split; intros Z; [destruct (K1 Z)|destruct (K2 Z)]. }
  destruct (trace_blind _ _ _ _ _ _ _ _ Z1' Z2) as [O Es]; [unfold lines_in in *; congruence|exact A|]. split; [|split; [exact Es|exact A]].
  rewrite (acc_output _ _ _ _ A1), (acc_output _ _ _ _ A2). unfold answers_in. rewrite !flat_map_concat_map.
  rewrite <- (map_map e_outcome answer_to (entries_of sid h1)), <- (map_map e_outcome answer_to (entries_of sid' h2)). now rewrite O.
Qed.

Lemma complete_more b b2 line : complete_line b line -> complete_line (b ++ b2) line.
Proof.
  intros (ls & rest & (E & F & N) & I). destruct (lines_of_exists (rest ++ b2)) as (ls2 & rest2 & (E2 & F2 & N2)).
  exists (ls ++ ls2), rest2. split; [|apply in_or_app; now left]. split.
  - rewrite flat_map_app, <- app_assoc, <- E2, E, <- app_assoc. reflexivity.
  - split; auto. apply Forall_app. auto.
Qed.
Lemma next_complete pre b line : (exists rest, b = with_newline line ++ rest) -> Forall (fun l => ~ In NEWLINE l) pre -> ~ In NEWLINE line ->
  complete_line (flat_map with_newline pre ++ b) line.
Proof.
  intros (rest & ->) F N. destruct (lines_of_exists rest) as (ls & r & (E & F2 & N2)). exists (pre ++ line :: ls), r. split; [|apply in_or_app; right; now left].
  split; [|split; auto; apply Forall_app; auto]. rewrite flat_map_app. cbn [flat_map]. rewrite E, <- !app_assoc. reflexivity.
Qed.
Lemma handle_line_same srt p q line c s : blind_to p q line -> handle_line srt p line c s = handle_line srt q line c s.
Proof. intros K. unfold handle_line. rewrite (execute_same srt p q line _ K). reflexivity. Qed.

(** If nobody sends the password, everything that anybody can see (answers, data, log, crashes) is the same for every other password that nobody sends. *)
Theorem C77_a_password_nobody_sends_cannot_be_seen : forall srt p q c0 es, (p = [] <-> q = []) ->
  (forall sid line, complete_line (arrived es sid) line -> blind_to p q line) ->
  let sv := run srt (start p c0) es in let sv' := run srt (start q c0) es in
  sv_ctx sv = sv_ctx sv' /\ sv_conns sv = sv_conns sv' /\ sv_accepting sv = sv_accepting sv' /\ sv_crash sv = sv_crash sv'.
Proof.
  intros srt p q c0 es Ef. induction es as [|e es IH] using rev_ind; intros K.
  - cbn. auto.
  - assert (K0 : forall sid line, complete_line (arrived es sid) line -> blind_to p q line).
    { intros sid line Hl. apply (K sid). unfold arrived. rewrite arrives_app. apply complete_more. exact Hl. }
    cbv zeta in *. rewrite !run_snoc. destruct (IH K0) as (I1 & I2 & I3 & I4). clear IH K.
    destruct (sv_crash (run srt (start p c0) es)) as [u|] eqn:C.
    { unfold step. rewrite C, <- I4. rewrite C. auto. }
    destruct (inv_exists srt p c0 es C) as (h & ss & I). assert (P := i_pw _ _ _ _ _ _ _ I).
    symmetry in I4. destruct (inv_exists srt q c0 es I4) as (h' & ss' & I'). assert (P' := i_pw _ _ _ _ _ _ _ I').
    set (sv := run srt (start p c0) es) in *. set (sv' := run srt (start q c0) es) in *. unfold step. rewrite C, I4.
    destruct e as [| |k b|k m|k m|k|k]; rewrite <- ?I2, <- ?I3.
    + destruct (sv_accepting sv) eqn:Ac; cbn [sv_ctx sv_conns sv_accepting sv_crash]; [|rewrite ?C, ?I4; repeat split; congruence]. split; auto. split; auto. rewrite P, P'. replace (new_conn q) with (new_conn p); auto.
      unfold new_conn, new_session. replace (seq_eqb q []) with (seq_eqb p []); auto. destruct p; destruct q; auto; destruct Ef as [F1 F2]; [discriminate (F1 eq_refl)|discriminate (F2 eq_refl)].
    + cbn [sv_ctx sv_conns sv_accepting sv_crash]. auto.
    + destruct (nth_error (sv_conns sv) k) as [cn|]; [|rewrite C, I4; auto]. unfold with_conn. cbn [sv_ctx sv_conns sv_accepting sv_crash]. rewrite ?C, ?I4, <- ?I1, <- ?I2, <- ?I3. auto.
    + destruct (nth_error (sv_conns sv) k) as [cn|]; [|rewrite C, I4; auto]. destruct (c_phase cn); [destruct (has_newline (c_streambuf cn))|..]; rewrite ?C, ?I4; auto.
      unfold with_conn. cbn [sv_ctx sv_conns sv_accepting sv_crash]. rewrite ?C, ?I4, <- ?I1, <- ?I2, <- ?I3. auto.
    + destruct (nth_error (sv_conns sv) k) as [cn|] eqn:En; [|rewrite C, I4; auto]. destruct (c_phase cn); [destruct (has_newline (c_streambuf cn)) eqn:Hb|..]; rewrite ?C, ?I4; auto.
      apply has_newline_iff in Hb. destruct (getline_spec _ Hb) as [G1 G2]. destruct (i_conn _ _ _ _ _ _ _ I _ _ En) as [_ CI].
      assert (B : blind_to p q (fst (getline (c_streambuf cn)))).
      { apply (K0 k). rewrite (ci_in _ _ _ _ CI). apply next_complete; auto; [|apply (ci_lines _ _ _ _ CI)]. exists (snd (getline (c_streambuf cn)) ++ c_socket cn). rewrite app_assoc, <- G1. reflexivity. }
      unfold handle. rewrite P, P', (handle_line_same srt p q _ _ _ B), <- ?I1, <- ?I2, <- ?I3.
      destruct (handle_line srt q (fst (getline (c_streambuf cn))) (sv_ctx sv) (c_session cn)) as [[[c' s'] [r|]]|x|u].
      * destruct (do_write r m); unfold crashed; cbn [sv_ctx sv_conns sv_accepting sv_crash]; rewrite ?C, ?I4, <- ?I1, <- ?I2, <- ?I3; auto.
      * cbn [sv_ctx sv_conns sv_accepting sv_crash]. rewrite C, I4. auto.
      * unfold crashed. cbn [sv_ctx sv_conns sv_accepting sv_crash]. auto.
      * unfold crashed. cbn [sv_ctx sv_conns sv_accepting sv_crash]. auto.
    + destruct (nth_error (sv_conns sv) k) as [cn|]; [|rewrite C, I4; auto]. destruct (c_phase cn); rewrite ?C, ?I4; auto.
      unfold with_conn. cbn [sv_ctx sv_conns sv_accepting sv_crash]. rewrite ?C, ?I4, <- ?I1, <- ?I2, <- ?I3. auto.
    + destruct (nth_error (sv_conns sv) k) as [cn|]; [|rewrite C, I4; auto].
      unfold with_conn. cbn [sv_ctx sv_conns sv_accepting sv_crash]. rewrite ?C, ?I4, <- ?I1, <- ?I2, <- ?I3. auto.
Qed.
Lemma not_password p line : match parse line with Ok pr => match p_args pr with [a] => match string_of a with Ok v => v <> p | _ => True end | _ => True end | _ => True end ->
  ~ password_line p line.
Proof. intros H (a & S & D). apply parse_iff in S. rewrite S in H. cbn [p_args] in H. apply string_of_iff in D. rewrite D in H. congruence. Qed.
(** [outsider] (C30) sends a request, rubbish, a wrong password and an unknown message. *)
Example C77_ex : let sv := run insertion_sort (start (B "pw") secret_server) outsider in let sv' := run insertion_sort (start (B "other") empty_server) outsider in
  sv_crash sv = None /\ sv_crash sv' = None /\ (exists cn cn', nth_error (sv_conns sv) 0 = Some cn /\ nth_error (sv_conns sv') 0 = Some cn' /\ idle cn /\ idle cn' /\
    c_sent cn = with_newline ERR_NOT_AUTH ++ with_newline ERR_NOT_AUTH ++ with_newline ERR_PASSWORD ++ with_newline ERR_MESSAGE) /\
  (forall sid line, complete_line (arrived outsider sid) line -> ~ password_line (B "pw") line /\ ~ password_line (B "other") line) /\
  ~ blind_to (B "pw") (B "other") (B "Connection authenticateWithPassword: ""pw"";").
Proof.
  cbv zeta. split; [vm_compute; reflexivity|]. split; [vm_compute; reflexivity|]. split; [|split].
  - destruct (nth_error (sv_conns (run insertion_sort (start (B "pw") secret_server) outsider)) 0) as [cn|] eqn:E; [|vm_compute in E; discriminate E].
    destruct (nth_error (sv_conns (run insertion_sort (start (B "other") empty_server) outsider)) 0) as [cn'|] eqn:E'; [|vm_compute in E'; discriminate E'].
    exists cn, cn'. split; auto. split; auto. vm_compute in E, E'. injection E as <-. injection E' as <-. vm_compute. intuition.
  - intros sid line (ls & rest & L & I).
    assert (L2 : lines_of (arrived outsider sid) (if sid =? 0 then [B "x get;"; B "rubbish"; B "Connection authenticateWithPassword: ""guess"";"; B "Connection foo;"] else []) []).
    { destruct sid as [|sid]; (split; [vm_compute; reflexivity|]; split; [|intros []]; repeat constructor; vm_compute; intuition discriminate). }
    destruct (lines_of_unique _ _ _ _ _ L L2) as [-> _]. destruct (sid =? 0); [|destruct I].
    repeat (destruct I as [<-|I]; [split; apply not_password; vm_compute; congruence || exact Logic.I|]). destruct I.
  - intros [X _]. assert (Y := X (proj2 (proj2 (proj2 C31_ex)))). revert Y. apply not_password. vm_compute. discriminate.
Qed.
Print Assumptions C77_lines_that_do_not_send_it.
Print Assumptions C77_a_client_learns_only_that_its_guesses_are_wrong.
Print Assumptions C77_a_password_nobody_sends_cannot_be_seen.
