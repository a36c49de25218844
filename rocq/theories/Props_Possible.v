(** Property C76: every order of the lines of different clients can happen.  Specification: [Spec_Possible]. *)
From Verif Require Import Bytes StrUtils Grammar Outcome Parser Num Containers Instance Context Server Platform.
From Verif Require Import Lemmas StringLit Proof_Grammar Proof_Parser Proof_Exec Proof_Inv Proof_Literal Proof_Receive Proof_Context Proof_Names Api Proof_Text Props_State Props_Text Proof_Server Props_Server Proof_Order.
From Verif Require Import Spec_Grammar Spec_State Spec_Names Spec_Text Spec_Server Spec_Possible.
From Coq Require Import Lia.
Local Open Scope nat_scope.
Local Open Scope list_scope.

(** ** answers are short *)
Lemma sent_step srt sv e sid cn' : sv_crash sv = None -> sv_crash (step srt sv e) = None -> nth_error (sv_conns (step srt sv e)) sid = Some cn' ->
  (exists cn, nth_error (sv_conns sv) sid = Some cn /\ (c_sent cn' = c_sent cn \/ exists a, c_sent cn' = c_sent cn ++ with_newline a /\ length a < 65536)) \/
  (nth_error (sv_conns sv) sid = None /\ c_sent cn' = []).
Proof.
  intros C C' Hn. revert C' Hn. unfold step. rewrite C. destruct e as [| |k b|k n|k q|k|k].
  - intros _. destruct (sv_accepting sv); [|intros Hn; left; eauto]. cbn [sv_conns]. intros Hn. destruct (nth_error (sv_conns sv) sid) as [cn|] eqn:E.
    + rewrite nth_error_app1 in Hn by (apply nth_error_Some; congruence). left. exists cn. split; auto. left. congruence.
    + right. split; auto. apply nth_error_None in E. rewrite nth_error_app2 in Hn by auto. destruct (sid - length (sv_conns sv)) as [|d]; [|now destruct d]. injection Hn as <-. reflexivity.
  - intros _ Hn. left. eauto.
  - intros _ Hn. left. destruct (nth_error (sv_conns sv) k) as [x|] eqn:E; [|eauto]. cbn [with_conn sv_conns] in Hn. destruct (Nat.eq_dec sid k) as [->|Ne].
    + rewrite (set_conn_same _ _ _ _ E) in Hn. injection Hn as <-. eauto.
    + rewrite (set_conn_other _ _ _ _ _ E Ne) in Hn. eauto.
  - intros _ Hn. left. destruct (nth_error (sv_conns sv) k) as [x|] eqn:E; [|eauto]. destruct (c_phase x); [destruct (has_newline (c_streambuf x))|..]; eauto.
    cbn [with_conn sv_conns] in Hn. destruct (Nat.eq_dec sid k) as [->|Ne].
    + rewrite (set_conn_same _ _ _ _ E) in Hn. injection Hn as <-. eauto.
    + rewrite (set_conn_other _ _ _ _ _ E Ne) in Hn. eauto.
  - intros C' Hn. left. destruct (nth_error (sv_conns sv) k) as [x|] eqn:E; [|eauto]. destruct (c_phase x); [destruct (has_newline (c_streambuf x))|..]; eauto.
    unfold handle in *. destruct (handle_line srt (sv_password sv) (fst (getline (c_streambuf x))) (sv_ctx sv) (c_session x)) as [[[c' s'] [response|]]|y|u]; try discriminate C'.
    + destruct (do_write response q) as [text|y|u] eqn:Ew; try discriminate C'. cbn [sv_conns] in Hn. destruct (Nat.eq_dec sid k) as [->|Ne].
      * rewrite (set_conn_same _ _ _ _ E) in Hn. injection Hn as <-. exists x. split; auto. right. exists response. unfold do_write in Ew.
        destruct (Nat.ltb_spec (min q max_transfer) (length (response ++ [c_nl]))) as [|L]; [discriminate Ew|]. injection Ew as <-. split; [reflexivity|].
        rewrite app_length in L. unfold max_transfer in L. cbn [length] in L. change 65536 with (N.to_nat 65536) in *. lia.
      * rewrite (set_conn_other _ _ _ _ _ E Ne) in Hn. eauto.
    + cbn [sv_conns] in Hn. destruct (Nat.eq_dec sid k) as [->|Ne].
      * rewrite (set_conn_same _ _ _ _ E) in Hn. injection Hn as <-. eauto.
      * rewrite (set_conn_other _ _ _ _ _ E Ne) in Hn. eauto.
  - intros _ Hn. left. destruct (nth_error (sv_conns sv) k) as [x|] eqn:E; [|eauto]. destruct (c_phase x); eauto.
    cbn [with_conn sv_conns] in Hn. destruct (Nat.eq_dec sid k) as [->|Ne].
    + rewrite (set_conn_same _ _ _ _ E) in Hn. injection Hn as <-. eauto.
    + rewrite (set_conn_other _ _ _ _ _ E Ne) in Hn. eauto.
  - intros _ Hn. left. destruct (nth_error (sv_conns sv) k) as [x|] eqn:E; [|eauto].
    cbn [with_conn sv_conns] in Hn. destruct (Nat.eq_dec sid k) as [->|Ne].
    + rewrite (set_conn_same _ _ _ _ E) in Hn. injection Hn as <-. eauto.
    + rewrite (set_conn_other _ _ _ _ _ E Ne) in Hn. eauto.
Qed.
Definition short (a : bytes) : Prop := length a < 65536.
Lemma flat_short L a : flat_map with_newline L = with_newline a -> short a -> Forall short L.
Proof.
  unfold short. intros E S. apply Forall_forall. intros l I. apply in_split in I as (x & y & ->). apply (f_equal (@length ascii)) in E.
  rewrite flat_map_app in E. cbn [flat_map] in E. unfold with_newline in E at 2 4. rewrite !app_length in E. cbn [length] in E. lia.
Qed.
Lemma run_short srt pw c0 es : sv_crash (run srt (start pw c0) es) = None ->
  exists h ss, inv srt pw c0 es h (run srt (start pw c0) es) ss /\ forall sid, Forall short (answers_in sid h).
Proof.
  induction es as [|e es IH] using rev_ind; intros Hc.
  - exists [], (fun _ => fresh pw). split; [apply inv_start|constructor].
  - assert (Hp := uncrashed_prefix _ _ _ _ Hc). destruct (IH Hp) as (h & ss & I & F). rewrite run_snoc in Hc |- *.
    destruct (step_inv _ _ _ _ _ _ _ e I Hp Hc) as (h' & ss' & I' & _). exists (h ++ h'), ss'. split; auto. intros sid.
    unfold answers_in. rewrite entries_app, flat_map_app. apply Forall_app. split; [apply F|]. fold (answers_in sid h').
    destruct (nth_error (sv_conns (step srt (run srt (start pw c0) es) e)) sid) as [cn'|] eqn:E'.
    + destruct (i_conn _ _ _ _ _ _ _ I' sid cn' E') as [_ CI']. assert (O' := ci_out _ _ _ _ CI'). unfold answers_in in O'. rewrite entries_app, flat_map_app, flat_map_app in O'.
      fold (answers_in sid h) in O'. fold (answers_in sid h') in O'.
      destruct (sent_step _ _ _ _ _ Hp Hc E') as [(cn & E & Q)|(E & Q)].
      * destruct (i_conn _ _ _ _ _ _ _ I sid cn E) as [_ CI]. rewrite <- (ci_out _ _ _ _ CI) in O'. destruct Q as [Q|(a & Q & L)]; rewrite Q in O'.
        -- rewrite <- app_nil_r in O' at 1. apply app_inv_head in O'. destruct (answers_in sid h') as [|x l]; [constructor|]. cbn in O'. destruct x; discriminate O'.
        -- apply app_inv_head in O'. symmetry in O'. eapply flat_short; eauto.
      * rewrite Q in O'. symmetry in O'. apply app_eq_nil in O' as [_ O']. destruct (answers_in sid h') as [|x l]; [constructor|]. cbn in O'. destruct x; discriminate O'.
    + enough (entries_of sid h' = []) as Z by (unfold answers_in; rewrite Z; constructor). destruct (entries_of sid h') as [|x l] eqn:Ex; auto. exfalso.
      assert (Ix : In x (entries_of sid h')) by (rewrite Ex; now left). apply filter_In in Ix as [Ix Es]. apply Nat.eqb_eq in Es.
      assert (L := i_who _ _ _ _ _ _ _ I' x (in_or_app _ _ _ (or_intror Ix))). apply nth_error_None in E'. lia.
Qed.

(** Every history that explains a schedule is possible. *)
Lemma explains_possible srt pw c0 es h : sort_contract srt -> reachable_by_lines srt pw c0 -> sv_crash (run srt (start pw c0) es) = None ->
  explains srt pw c0 es h -> possible srt pw c0 h.
Proof.
  intros Hs R Hc X. destruct (run_short _ _ _ _ Hc) as (h0 & ss0 & I & F). assert (NL := fun e => explains_lines _ _ _ _ _ e X).
  destruct X as (ss & S & W & A). constructor.
  - eauto.
  - apply Forall_forall. exact NL.
  - intros sid before e after E Cl. assert (He : In e h) by (assert (Q : In e (entries_of sid h)) by (rewrite E; apply in_or_app; right; now left); apply filter_In in Q; tauto).
    assert (Es : e_sid e = sid) by (assert (Q : In e (entries_of sid h)) by (rewrite E; apply in_or_app; right; now left); apply filter_In in Q as [_ Q]; now apply Nat.eqb_eq).
    destruct (W e He) as (cn & Hn). rewrite Es in Hn. destruct (A _ _ Hn) as [_ Ac]. eapply acc_close; eauto.
  - apply Forall_forall. intros e He. apply Forall_forall. intros a Ha. destruct (W e He) as (cn & Hn). destruct (A _ _ Hn) as [_ Ac].
    destruct (i_conn _ _ _ _ _ _ _ I _ _ Hn) as [_ CI].
    assert (Cl : forall k g c ss, serial srt pw c0 (fun _ => fresh pw) g c ss -> (forall e, In e g -> ~ In NEWLINE (e_line e)) -> lines_of (flat_map with_newline (answers_in k g)) (answers_in k g) []).
    { intros k g c1 ss1 Sg Ng. split; [now rewrite app_nil_r|]. split; auto. apply Forall_forall. intros x Hx. unfold answers_in in Hx. apply in_flat_map in Hx as (y & Hy & Hx).
      apply filter_In in Hy as [Hy _]. eapply answers_clean; eauto. }
    assert (E : answers_in (e_sid e) h = answers_in (e_sid e) h0).
    { assert (L1 := Cl (e_sid e) h _ _ S NL). assert (L2 := Cl (e_sid e) h0 _ _ (i_serial _ _ _ _ _ _ _ I) (fun x => explains_lines _ _ _ _ _ x (inv_explains _ _ _ _ _ _ I))).
      rewrite <- (acc_output _ _ _ _ Ac) in L1. rewrite <- (ci_out _ _ _ _ CI) in L2. now apply (lines_of_unique _ _ _ _ _ L1 L2). }
    specialize (F (e_sid e)). rewrite <- E, Forall_forall in F. apply F. unfold answers_in. apply in_flat_map. exists e. split; auto.
    apply filter_In. split; auto. apply Nat.eqb_refl.
Qed.

Lemma fits_in m (a : bytes) : length a < m -> (Nat.min m m <? length (with_newline a)) = false.
Proof. intros La. rewrite Nat.min_id. apply Nat.ltb_ge. unfold with_newline. rewrite app_length. cbn [length]. unfold bytes in *. lia. Qed.
(** ** a schedule for a history *)
Section Build.
Context (srt : sorter) (pw : bytes) (c0 : context) (H : list entry) (n : nat).
Context (Hsid : Forall (fun e => e_sid e < n) H).
Definition stream (sid : nat) : bytes := flat_map with_newline (lines_in sid H).
Definition enough : nat := length (flat_map (fun e => with_newline (e_line e)) H).
Definition sending : list event := repeat Accept n ++ map (fun sid => Arrive sid (stream sid)) (seq 0 n).
Definition serving (h : list entry) : list event := flat_map (fun e => [ReadSome (e_sid e) enough; Handle (e_sid e) 65536; WriteDone (e_sid e)]) h.

Lemma opened_repeat k : forall j r, opened true j (repeat Accept k ++ r) = opened true (k + j) r.
Proof using Type. induction k as [|k IH]; intros j r; [reflexivity|]. cbn [repeat app opened]. rewrite IH. f_equal. lia. Qed.
Lemma arrives_repeat k sid : forall j r, arrives true j (repeat Accept k ++ r) sid = arrives true (k + j) r sid.
Proof using Type. induction k as [|k IH]; intros j r; [reflexivity|]. cbn [repeat app arrives]. rewrite IH. f_equal. lia. Qed.
Lemma arrives_sends sid : forall l, NoDup l -> arrives true n (map (fun sid => Arrive sid (stream sid)) l) sid = if in_dec Nat.eq_dec sid l then if sid <? n then stream sid else [] else [].
Proof using Type.
  induction l as [|k l IH]; intros N; [reflexivity|]. inversion N as [|? ? Nk Nl]; subst. cbn [map arrives]. rewrite IH by auto.
  destruct (Nat.eqb_spec k sid) as [->|Ne].
  - destruct (in_dec Nat.eq_dec sid l); [contradiction|]. destruct (in_dec Nat.eq_dec sid (sid :: l)) as [|X]; [now rewrite app_nil_r|]. destruct X. now left.
  - cbn [app]. destruct (in_dec Nat.eq_dec sid l) as [I|I]; destruct (in_dec Nat.eq_dec sid (k :: l)) as [J|J]; auto; [destruct J; now right|destruct J; [congruence|contradiction]].
Qed.
Lemma stream_none sid : n <= sid -> stream sid = [].
Proof using Hsid.
  intros L. unfold stream, lines_in. replace (entries_of sid H) with (@nil entry); auto. symmetry. revert Hsid. generalize H. intros h F. induction F as [|e h He F IH]; auto.
  unfold entries_of in *. cbn [filter]. destruct (Nat.eqb_spec (e_sid e) sid); [lia|exact IH].
Qed.
Lemma arrived_sending sid : arrived sending sid = stream sid.
Proof using Hsid.
  unfold arrived, sending. rewrite arrives_repeat, Nat.add_0_r, arrives_sends by apply seq_NoDup. destruct (in_dec Nat.eq_dec sid (seq 0 n)) as [I|I].
  - apply in_seq in I. destruct (Nat.ltb_spec sid n); [auto|lia].
  - symmetry. apply stream_none. destruct (Nat.le_gt_cases n sid); auto. destruct I. apply in_seq. lia.
Qed.
Lemma arrived_serving h sid : arrived (sending ++ serving h) sid = stream sid.
Proof using Hsid.
  unfold arrived. rewrite arrives_app. fold (arrived sending sid). rewrite arrived_sending. rewrite <- app_nil_r. f_equal.
  generalize (fst (opened true 0 sending)) (snd (opened true 0 sending)). intros a k. unfold serving. induction h as [|e h IH]; auto.
Qed.

(** what the server looks like when [h1] has been served *)
Record state (h1 h2 : list entry) (sv : server) (c : context) (ss : nat -> session) : Prop := {
  st_crash : sv_crash sv = None;
  st_pw : sv_password sv = pw;
  st_ctx : sv_ctx sv = c;
  st_len : length (sv_conns sv) = n;
  st_conn : forall sid cn, nth_error (sv_conns sv) sid = Some cn -> c_session cn = ss sid /\
    c_streambuf cn ++ c_socket cn = flat_map with_newline (lines_in sid h2) /\ c_sent cn = flat_map with_newline (answers_in sid h1) /\
    ((c_phase cn = Reading /\ is_connected (ss sid) = true /\ Forall (fun e => ~ closes e) (entries_of sid h1)) \/
     (is_connected (ss sid) = false /\ exists before e, entries_of sid h1 = before ++ [e] /\ closes e)) }.
Lemma state_start : state [] H (run srt (start pw c0) sending) c0 (fun _ => fresh pw).
Proof using Hsid.
  assert (A : forall k sv, sv_crash sv = None -> sv_accepting sv = true -> let sv' := run srt sv (repeat Accept k) in
    sv_crash sv' = None /\ sv_accepting sv' = true /\ sv_password sv' = sv_password sv /\ sv_ctx sv' = sv_ctx sv /\ sv_conns sv' = sv_conns sv ++ repeat (new_conn (sv_password sv)) k).
  { induction k as [|k IH]; intros sv C Ac; [cbn; rewrite app_nil_r; auto|]. cbn [repeat]. cbv zeta. unfold run. cbn [fold_left]. fold (run srt (step srt sv Accept) (repeat Accept k)).
    unfold step at 1 2 3 4 5. rewrite C, Ac. match goal with |- context [run srt ?x _] => destruct (IH x eq_refl eq_refl) as (I1 & I2 & I3 & I4 & I5) end.
    split; auto. split; auto. split; auto. split; auto. rewrite I5. cbn [sv_conns sv_password]. rewrite <- app_assoc. reflexivity. }
  destruct (A n (start pw c0) eq_refl eq_refl) as (A1 & A2 & A3 & A4 & A5). unfold sending. rewrite run_app. clear A. revert A1 A2 A3 A4 A5. generalize (run srt (start pw c0) (repeat Accept n)).
  intros sv A1 A2 A3 A4 A5. cbn [start sv_password sv_ctx sv_conns app] in *.
  assert (B : forall l sv', sv_crash sv' = None -> NoDup l -> let sv2 := run srt sv' (map (fun sid => Arrive sid (stream sid)) l) in
    sv_crash sv2 = None /\ sv_password sv2 = sv_password sv' /\ sv_ctx sv2 = sv_ctx sv' /\ length (sv_conns sv2) = length (sv_conns sv') /\
    forall sid cn, nth_error (sv_conns sv') sid = Some cn -> exists cn', nth_error (sv_conns sv2) sid = Some cn' /\ c_session cn' = c_session cn /\ c_phase cn' = c_phase cn /\
      c_streambuf cn' = c_streambuf cn /\ c_sent cn' = c_sent cn /\ c_socket cn' = c_socket cn ++ (if in_dec Nat.eq_dec sid l then stream sid else [])).
  { induction l as [|k l IH]; intros sv' C N.
    - cbv zeta. cbn [map run fold_left]. split; auto. split; auto. split; auto. split; auto. intros sid cn E. exists cn. cbn. rewrite app_nil_r. auto 10.
    - inversion N as [|? ? Nk Nl]; subst. cbn [map]. cbv zeta. unfold run. cbn [fold_left]. fold (run srt (step srt sv' (Arrive k (stream k))) (map (fun sid => Arrive sid (stream sid)) l)).
      assert (S1 : sv_crash (step srt sv' (Arrive k (stream k))) = None /\ sv_password (step srt sv' (Arrive k (stream k))) = sv_password sv' /\ sv_ctx (step srt sv' (Arrive k (stream k))) = sv_ctx sv' /\
        length (sv_conns (step srt sv' (Arrive k (stream k)))) = length (sv_conns sv') /\ forall sid cn, nth_error (sv_conns sv') sid = Some cn ->
        exists cn', nth_error (sv_conns (step srt sv' (Arrive k (stream k)))) sid = Some cn' /\ c_session cn' = c_session cn /\ c_phase cn' = c_phase cn /\
          c_streambuf cn' = c_streambuf cn /\ c_sent cn' = c_sent cn /\ c_socket cn' = c_socket cn ++ (if Nat.eq_dec k sid then stream sid else [])).
      { unfold step. rewrite C. destruct (nth_error (sv_conns sv') k) as [x|] eqn:E.
        - cbn [with_conn sv_crash sv_password sv_ctx sv_conns]. split; auto. split; auto. split; auto. split; [eapply set_conn_length; eauto|].
          intros sid cn En. destruct (Nat.eq_dec k sid) as [->|Ne].
          + rewrite E in En. injection En as ->. eexists. split; [eapply set_conn_same; eauto|]. cbn. auto 10.
          + rewrite (set_conn_other _ _ _ x) by auto. exists cn. rewrite app_nil_r. auto 10.
        - split; auto. split; auto. split; auto. split; auto. intros sid cn En. exists cn. destruct (Nat.eq_dec k sid); [congruence|]. rewrite app_nil_r. auto 10. }
      destruct S1 as (T1 & T2 & T3 & T4 & T5). destruct (IH _ T1 Nl) as (I1 & I2 & I3 & I4 & I5). rewrite T2 in I2. rewrite T3 in I3. rewrite T4 in I4.
      split; auto. split; auto. split; auto. split; auto. intros sid cn En. destruct (T5 sid cn En) as (cn1 & E1 & U1 & U2 & U3 & U4 & U5).
      destruct (I5 sid cn1 E1) as (cn2 & E2 & V1 & V2 & V3 & V4 & V5). exists cn2. split; auto. split; [congruence|]. split; [congruence|]. split; [congruence|]. split; [congruence|].
      rewrite V5, U5, <- app_assoc. f_equal. destruct (Nat.eq_dec k sid) as [->|Ne].
      + destruct (in_dec Nat.eq_dec sid l); [contradiction|]. destruct (in_dec Nat.eq_dec sid (sid :: l)) as [|X]; [now rewrite app_nil_r|]. destruct X. now left.
      + cbn [app]. destruct (in_dec Nat.eq_dec sid l) as [I|I]; destruct (in_dec Nat.eq_dec sid (k :: l)) as [J|J]; auto; [destruct J; now right|destruct J; [congruence|contradiction]]. }
  destruct (B (seq 0 n) sv A1 (seq_NoDup _ _)) as (B1 & B2 & B3 & B4 & B5). clear B.
  constructor; auto; try congruence.
  - rewrite B4, A5. apply repeat_length.
  - intros sid cn En. assert (L : sid < n) by (rewrite <- (repeat_length (new_conn pw) n), <- A5, <- B4; apply nth_error_Some; congruence).
    assert (E0 : nth_error (sv_conns sv) sid = Some (new_conn pw)).
    { rewrite A5. apply nth_error_repeat. exact L. }
    destruct (B5 _ _ E0) as (cn' & E1 & U1 & U2 & U3 & U4 & U5). rewrite En in E1. injection E1 as <-. cbn [new_conn c_session c_phase c_streambuf c_sent c_socket app] in *.
    rewrite U1, U2, U3, U4, U5. destruct (in_dec Nat.eq_dec sid (seq 0 n)) as [|X]; [|destruct X; apply in_seq; lia].
    split; [unfold new_session, fresh; f_equal; destruct (bytes_dec pw []) as [->|Ne]; [reflexivity|]; destruct pw; [congruence|reflexivity]|].
    split; [reflexivity|]. split; [reflexivity|]. left. split; [reflexivity|split; [reflexivity|constructor]].
Qed.
Lemma enough_left h1 h2 sid : H = h1 ++ h2 -> length (flat_map with_newline (lines_in sid h2)) <= enough.
Proof using Type.
  intros E. unfold enough. rewrite E, flat_map_app, app_length. enough (length (flat_map with_newline (lines_in sid h2)) <= length (flat_map (fun e => with_newline (e_line e)) h2)) by lia.
  clear E. induction h2 as [|x h IH]; auto. unfold lines_in, entries_of in *. cbn [filter flat_map map]. destruct (e_sid x =? sid); cbn [map flat_map]; rewrite !app_length; lia.
Qed.
Lemma first_line l r l' r' : ~ In NEWLINE l -> ~ In NEWLINE l' -> with_newline l ++ r = with_newline l' ++ r' -> l = l' /\ r = r'.
Proof using Type.
  unfold with_newline. revert l'. induction l as [|x l IH]; intros [|y l'] N N' E; cbn [app] in E.
  - injection E as E. auto.
  - injection E as E1 E2. destruct N'. left. congruence.
  - injection E as E1 E2. destruct N. left. congruence.
  - injection E as E1 E2. assert (N1 : ~ In NEWLINE l) by (intros I; apply N; now right). assert (N2 : ~ In NEWLINE l') by (intros I; apply N'; now right).
    destruct (IH l' N1 N2 E2) as [-> ->]. subst. auto.
Qed.
Lemma entries_here e h : entries_of (e_sid e) (e :: h) = e :: entries_of (e_sid e) h.
Proof using Type. unfold entries_of. cbn [filter]. now rewrite Nat.eqb_refl. Qed.
Lemma entries_there e h sid : sid <> e_sid e -> entries_of sid (e :: h) = entries_of sid h.
Proof using Type. unfold entries_of. cbn [filter]. destruct (Nat.eqb_spec (e_sid e) sid); congruence. Qed.

Context (HL : Forall (fun e => ~ In NEWLINE (e_line e)) H).
Context (HC : forall sid before e after, entries_of sid H = before ++ e :: after -> closes e -> after = []).
Context (HS : Forall (fun e => Forall (fun a => List.length a < 65536) (answer_to (e_outcome e))) H).
Lemma state_read h1 e h2 sv c ss : H = h1 ++ e :: h2 -> state h1 (e :: h2) sv c ss ->
  let sv' := step srt sv (ReadSome (e_sid e) enough) in state h1 (e :: h2) sv' c ss /\
  exists cn, nth_error (sv_conns sv') (e_sid e) = Some cn /\ c_phase cn = Reading /\ is_connected (ss (e_sid e)) = true /\ Forall (fun e => ~ closes e) (entries_of (e_sid e) h1) /\
    c_streambuf cn = with_newline (e_line e) ++ snd (getline (c_streambuf cn)).
Proof using HC Hsid HL.
  intros E ST sv'. destruct ST as [C P X LN SC]. set (sid := e_sid e) in *.
  assert (Ie : In e H) by (rewrite E; apply in_or_app; right; now left).
  assert (L : sid < n) by (apply (proj1 (Forall_forall _ _) Hsid e Ie)).
  assert (Ne : ~ In NEWLINE (e_line e)) by (apply (proj1 (Forall_forall _ _) HL e Ie)).
  destruct (nth_error (sv_conns sv) sid) as [cn|] eqn:En; [|apply nth_error_None in En; lia].
  destruct (SC sid cn En) as (S1 & S2 & S3 & [(S4 & S5 & S6)|(_ & before & x & S4 & S5)]).
  2:{ exfalso. assert (Q : entries_of sid H = before ++ x :: (e :: entries_of sid h2)).
      { rewrite E, entries_app, S4. unfold sid at 1. rewrite entries_here. rewrite <- app_assoc. reflexivity. }
      discriminate (HC _ _ _ _ Q S5). }
  assert (S2' : c_streambuf cn ++ c_socket cn = with_newline (e_line e) ++ flat_map with_newline (lines_in sid h2)).
  { rewrite S2. unfold lines_in, sid. rewrite entries_here. reflexivity. }
  unfold sv', step. rewrite C, En, S4. destruct (has_newline (c_streambuf cn)) eqn:Hb.
  - split; [constructor; auto|]. exists cn. split; auto. split; auto. split; auto. split; auto.
    apply has_newline_iff in Hb. destruct (getline_spec _ Hb) as [G1 G2]. rewrite G1 in S2' at 1. rewrite <- app_assoc in S2'.
    destruct (first_line _ _ _ _ G2 Ne S2') as [<- _]. exact G1.
  - assert (Le : length (c_socket cn) <= enough).
    { assert (Q := enough_left h1 (e :: h2) sid E). rewrite <- S2, app_length in Q. lia. }
    rewrite firstn_all2, skipn_all2 by exact Le. split.
    + constructor; cbn [with_conn sv_crash sv_password sv_ctx sv_conns]; auto.
      * rewrite (set_conn_length _ _ _ _ En). exact LN.
      * intros k cn' Hk. destruct (Nat.eq_dec k sid) as [->|Nk].
        -- rewrite (set_conn_same _ _ _ _ En) in Hk. injection Hk as <-. cbn [c_session c_streambuf c_socket c_sent c_phase]. rewrite app_nil_r. split; auto. split; auto.
        -- rewrite (set_conn_other _ _ _ _ _ En Nk) in Hk. auto.
    + eexists. split; [cbn [with_conn sv_conns]; apply (set_conn_same _ _ _ _ En)|]. cbn [c_streambuf c_phase]. split; auto. split; auto. split; auto. rewrite S2'.
      assert (Q : In NEWLINE (with_newline (e_line e) ++ flat_map with_newline (lines_in sid h2))) by (apply in_or_app; left; apply in_or_app; right; now left).
      destruct (getline_spec _ Q) as [G1 G2]. destruct (first_line _ _ _ _ Ne G2 G1) as [_ <-]. reflexivity.
Qed.
Lemma state_step h1 e h2 sv c ss c' s' : H = h1 ++ e :: h2 -> state h1 (e :: h2) sv c ss ->
  processes srt pw c (ss (e_sid e)) (e_line e) c' s' (e_outcome e) ->
  state (h1 ++ [e]) h2 (run srt sv (serving [e])) c' (fun k => if k =? e_sid e then s' else ss k).
Proof using HC Hsid HL HS.
  intros E ST Pr. cbn [serving flat_map app run fold_left]. destruct (state_read _ _ _ _ _ _ E ST) as (ST1 & cn & En & Ph & Co & NC & Sb).
  revert ST1 cn En Ph Co NC Sb. generalize (step srt sv (ReadSome (e_sid e) enough)). clear ST sv. intros sv ST cn En Ph Co NC Sb.
  destruct ST as [C P X LN SC]. assert (Ie : In e H) by (rewrite E; apply in_or_app; right; now left).
  assert (Ne : ~ In NEWLINE (e_line e)) by (apply (proj1 (Forall_forall _ _) HL e Ie)).
  assert (Sh := proj1 (Forall_forall _ _) HS e Ie). cbn beta in Sh.
  destruct (SC _ _ En) as (S1 & S2 & S3 & _).
  assert (S2' : snd (getline (c_streambuf cn)) ++ c_socket cn = flat_map with_newline (lines_in (e_sid e) h2)).
  { unfold lines_in in S2. rewrite entries_here in S2. cbn [map flat_map] in S2. rewrite Sb, <- app_assoc in S2. apply app_inv_head in S2. rewrite Sb in S2 at 1.
    rewrite Sb. exact S2. }
  assert (NL : next_line cn (e_line e)) by (eexists; split; [exact Sb|exact Ne]).
  rewrite <- P, <- X, <- S1 in Pr.
  assert (Other : forall k cn', k <> e_sid e -> nth_error (sv_conns sv) k = Some cn' -> c_session cn' = (if k =? e_sid e then s' else ss k) /\
    c_streambuf cn' ++ c_socket cn' = flat_map with_newline (lines_in k h2) /\ c_sent cn' = flat_map with_newline (answers_in k (h1 ++ [e])) /\
    ((c_phase cn' = Reading /\ is_connected (if k =? e_sid e then s' else ss k) = true /\ Forall (fun e => ~ closes e) (entries_of k (h1 ++ [e]))) \/
     (is_connected (if k =? e_sid e then s' else ss k) = false /\ exists before x, entries_of k (h1 ++ [e]) = before ++ [x] /\ closes x))).
  { intros k cn' Nk Hk. destruct (Nat.eqb_spec k (e_sid e)) as [|_]; [contradiction|]. destruct (SC k cn' Hk) as (U1 & U2 & U3 & U4).
    unfold lines_in, answers_in in *. rewrite entries_there in U2 by auto. rewrite entries_app, (entries_there e []) by auto. change (entries_of k []) with (@nil entry). rewrite app_nil_r. auto. }
  assert (Same : answers_in (e_sid e) (h1 ++ [e]) = answers_in (e_sid e) h1 ++ answer_to (e_outcome e)).
  { unfold answers_in. rewrite entries_app, entries_here, flat_map_app. cbn [flat_map entries_of filter]. now rewrite app_nil_r. }
  assert (Same2 : entries_of (e_sid e) (h1 ++ [e]) = entries_of (e_sid e) h1 ++ [e]) by (rewrite entries_app, entries_here; reflexivity).
  assert (Fin : forall ph, (ph = Writing /\ is_connected s' = true /\ ~ closes e) \/ (ph = Gone /\ is_connected s' = false /\ closes e) ->
    state (h1 ++ [e]) h2 (step srt (after_handle sv (e_sid e) cn c' s' ph (snd (getline (c_streambuf cn))) (c_sent cn ++ flat_map with_newline (answer_to (e_outcome e)))) (WriteDone (e_sid e)))
      c' (fun k => if k =? e_sid e then s' else ss k)).
  { intros ph D. unfold step, after_handle. cbn [sv_crash sv_conns]. rewrite C. rewrite (set_conn_same _ _ _ _ En). cbn [c_phase].
    assert (Len := set_conn_length _ _ {| c_session := s'; c_phase := ph; c_socket := c_socket cn; c_streambuf := snd (getline (c_streambuf cn)); c_sent := c_sent cn ++ flat_map with_newline (answer_to (e_outcome e)) |} _ En).
    destruct D as [(-> & D1 & D2)|(-> & D1 & D2)].
    - constructor; cbn [with_conn sv_crash sv_password sv_ctx sv_conns c_session c_socket c_streambuf c_sent]; auto.
      + erewrite set_conn_length by apply (set_conn_same _ _ _ _ En). congruence.
      + intros k cn' Hk. destruct (Nat.eq_dec k (e_sid e)) as [->|Nk].
        * rewrite (set_conn_same _ _ _ _ (set_conn_same _ _ _ _ En)) in Hk. injection Hk as <-. cbn [c_session c_phase c_socket c_streambuf c_sent]. rewrite Nat.eqb_refl. split; auto. split; auto.
          split; [rewrite Same, flat_map_app, S3; reflexivity|]. left. split; auto. split; auto. rewrite Same2. apply Forall_app. split; auto.
        * rewrite (set_conn_other _ _ _ _ _ (set_conn_same _ _ _ _ En) Nk), (set_conn_other _ _ _ _ _ En Nk) in Hk. apply Other; auto.
    - constructor; cbn [sv_crash sv_password sv_ctx sv_conns]; auto.
      + congruence.
      + intros k cn' Hk. destruct (Nat.eq_dec k (e_sid e)) as [->|Nk].
        * rewrite (set_conn_same _ _ _ _ En) in Hk. injection Hk as <-. cbn [c_session c_phase c_socket c_streambuf c_sent]. rewrite Nat.eqb_refl. split; auto. split; auto.
          split; [rewrite Same, flat_map_app, S3; reflexivity|]. right. split; auto. rewrite Same2. eauto.
        * rewrite (set_conn_other _ _ _ _ _ En Nk) in Hk. apply Other; auto. }
  destruct (e_outcome e) as [|a|a] eqn:Eo.
  - rewrite (handle_answer _ _ _ 65536 _ _ C En Ph NL _ _ _ _ Pr eq_refl). rewrite fits_in by (now inversion Sh). cbn [answer_to flat_map] in Fin. rewrite app_nil_r in Fin. apply Fin.
    left. split; auto. split; [|intros [a Q]; congruence]. inversion Pr; subst. congruence.
  - rewrite (handle_answer _ _ _ 65536 _ _ C En Ph NL _ _ _ _ Pr eq_refl). rewrite fits_in by (now inversion Sh). cbn [answer_to flat_map] in Fin. rewrite app_nil_r in Fin. apply Fin.
    left. split; auto. split; [|intros [b Q]; congruence]. now inversion Pr.
  - rewrite (handle_close _ _ _ 65536 _ _ C En Ph NL _ _ _ Pr). cbn [answer_to flat_map] in Fin. rewrite app_nil_r in Fin. apply Fin.
    right. split; auto. split; [now inversion Pr|exists a; exact Eo].
Qed.
Lemma serving_app a b : serving (a ++ b) = serving a ++ serving b.
Proof using Type. apply flat_map_app. Qed.
Lemma state_all : forall h1 h2 c ss, H = h1 ++ h2 -> serial srt pw c0 (fun _ => fresh pw) h1 c ss -> state h1 h2 (run srt (start pw c0) (sending ++ serving h1)) c ss.
Proof using HC Hsid HL HS.
  induction h1 as [|e h1 IH] using rev_ind; intros h2 c ss E S.
  - apply serial_nil_inv in S as [-> ->]. cbn [serving flat_map]. rewrite app_nil_r. cbn [app] in E. rewrite <- E. exact state_start.
  - destruct (serial_snoc_inv _ _ _ _ _ _ _ _ S) as (c1 & ss1 & s2 & S1 & P & ->). rewrite <- app_assoc in E. cbn [app] in E.
    rewrite serving_app, app_assoc, run_app. apply (state_step h1 e h2 _ c1); auto.
Qed.
End Build.

Lemma sid_bound : forall h, exists n, Forall (fun e => e_sid e < n) h.
Proof.
  induction h as [|e h (n & IH)]; [exists 0; constructor|]. exists (S (e_sid e) + n). constructor; [lia|]. eapply Forall_impl; [|exact IH]. cbn. intros; lia.
Qed.
(** Whatever clients may send, and in whatever order their lines are executed: it can happen, and it can happen that everybody sends everything first and only then
    is anything executed. *)
Theorem C76_every_order_can_happen : forall srt pw c0 h, possible srt pw c0 h ->
  exists es1 es2, (forall sid, arrived es1 sid = flat_map with_newline (lines_in sid h)) /\ untouched srt pw c0 es1 /\
    (forall sid, arrived (es1 ++ es2) sid = arrived es1 sid) /\
    sv_crash (run srt (start pw c0) (es1 ++ es2)) = None /\ explains srt pw c0 (es1 ++ es2) h /\
    (forall sid cn, nth_error (sv_conns (run srt (start pw c0) (es1 ++ es2))) sid = Some cn -> finished cn).
Proof.
  intros srt pw c0 h [(c & ss & S) HL HC HS]. destruct (sid_bound h) as (n & Hsid). exists (sending h n), (serving h h).
  assert (A1 := arrived_sending h n Hsid). assert (A2 := arrived_serving h n Hsid h).
  assert (ST0 := state_start srt pw c0 h n Hsid). assert (ST := state_all srt pw c0 h n Hsid HL HC HS h [] c ss (eq_sym (app_nil_r h)) S).
  split; [exact A1|]. split.
  { split; [apply (st_ctx _ _ _ _ _ _ _ ST0)|]. intros sid cn En. destruct (st_conn _ _ _ _ _ _ _ ST0 sid cn En) as (_ & _ & Q & _). exact Q. }
  split; [intros sid; rewrite A1, A2; reflexivity|]. destruct ST as [C P X LN SC]. split; [exact C|]. split.
  - exists ss. rewrite X. split; [exact S|]. split.
    + intros e He. assert (L := proj1 (Forall_forall _ _) Hsid e He). cbn beta in L. destruct (nth_error (sv_conns (run srt (start pw c0) (sending h n ++ serving h h))) (e_sid e)) as [cn|] eqn:En; eauto.
      apply nth_error_None in En. lia.
    + intros sid cn En. destruct (SC sid cn En) as (S1 & S2 & S3 & S4). split; [exact S1|]. constructor.
      * exists []. rewrite A2, app_nil_r. split; [reflexivity|]. intros _ [].
      * apply Forall_forall. intros l Hl. unfold lines_in in Hl. apply in_map_iff in Hl as (e & <- & He). apply filter_In in He as [He _]. exact (proj1 (Forall_forall _ _) HL e He).
      * exact S3.
      * apply HC.
      * unfold hung_up. rewrite S1. destruct S4 as [(_ & Q & F)|(Q & before & e & E & Cl)].
        -- split; [congruence|]. intros (before & e & E & Cl). rewrite E in F. apply Forall_app in F as [_ F]. inversion F; subst. contradiction.
        -- split; eauto.
  - intros sid cn En. destruct (SC sid cn En) as (S1 & S2 & S3 & S4). cbn [lines_in entries_of filter map flat_map] in S2. apply app_eq_nil in S2 as [S2 S2'].
    destruct S4 as [(Q & _ & _)|(Q & _)].
    + left. unfold idle. rewrite S2, S2'. split; auto.
    + right. unfold hung_up. now rewrite S1.
Qed.
(** The possible histories are exactly those that explain some run. *)
Theorem C76_exactly_the_possible_histories : forall srt pw c0 h, sort_contract srt -> reachable_by_lines srt pw c0 ->
  possible srt pw c0 h <-> exists es, sv_crash (run srt (start pw c0) es) = None /\ explains srt pw c0 es h.
Proof.
  intros srt pw c0 h Hs R. split.
  - intros P. destruct (C76_every_order_can_happen _ _ _ _ P) as (es1 & es2 & _ & _ & _ & C & X & _). eauto.
  - intros (es & C & X). eapply explains_possible; eauto.
Qed.
(** Two clients with one line each: both orders are possible, with different answers. *)
Example C76_ex :
  possible insertion_sort [] empty_server
    [{| e_sid := 0; e_line := B "Integer create: x withValue: 5;"; e_outcome := Answered (B "null") |}; {| e_sid := 1; e_line := B "x get;"; e_outcome := Answered (B "5") |}] /\
  possible insertion_sort [] empty_server
    [{| e_sid := 1; e_line := B "x get;"; e_outcome := Answered (B "RuntimeError: name cannot be resolved to a variable.") |}; {| e_sid := 0; e_line := B "Integer create: x withValue: 5;"; e_outcome := Answered (B "null") |}] /\
  ~ possible insertion_sort [] empty_server
    [{| e_sid := 1; e_line := B "x get;"; e_outcome := Answered (B "5") |}; {| e_sid := 0; e_line := B "Integer create: x withValue: 5;"; e_outcome := Answered (B "null") |}].
Proof.
  assert (Rest : forall e1 e2, e_sid e1 <> e_sid e2 -> ~ closes e1 -> ~ closes e2 ->
    forall sid before e after, entries_of sid [e1; e2] = before ++ e :: after -> closes e -> after = []).
  { intros e1 e2 N N1 N2 sid before e after E Cl. assert (I : In e (entries_of sid [e1; e2])) by (rewrite E; apply in_or_app; right; now left).
    apply filter_In in I as [[<-|[<-|[]]] _]; contradiction. }
  split; [|split].
  - constructor.
    + eexists _, _. change ([?a; ?b]) with ([a] ++ [b]). eapply (serial_more _ _ _ _ [_]); [eapply (serial_more _ _ _ _ []); [constructor|]|].
      * apply processes_answered; [now left|vm_compute; reflexivity|reflexivity].
      * apply processes_answered; [now left|vm_compute; reflexivity|reflexivity].
    + repeat constructor; vm_compute; intuition discriminate.
    + apply Rest; [discriminate|intros [? Q]; discriminate Q|intros [? Q]; discriminate Q].
    + apply Forall_cons; [|apply Forall_cons; [|apply Forall_nil]]; (apply Forall_cons; [|apply Forall_nil]); apply Nat.ltb_lt; vm_compute; reflexivity.
  - constructor.
    + eexists _, _. eapply (serial_more _ _ _ _ [_]); [eapply (serial_more _ _ _ _ []); [constructor|]|].
      * apply processes_answered; [now left|vm_compute; reflexivity|reflexivity].
      * apply processes_answered; [now left|vm_compute; reflexivity|reflexivity].
    + repeat constructor; vm_compute; intuition discriminate.
    + apply Rest; [discriminate|intros [? Q]; discriminate Q|intros [? Q]; discriminate Q].
    + apply Forall_cons; [|apply Forall_cons; [|apply Forall_nil]]; (apply Forall_cons; [|apply Forall_nil]); apply Nat.ltb_lt; vm_compute; reflexivity.
  - intros [(c & ss & S) _ _ _]. change ([?a; ?b]) with ([a] ++ [b]) in S.
    destruct (serial_snoc_inv _ _ _ _ _ _ _ _ S) as (c1 & ss1 & s2 & S1 & _ & _).
    destruct (serial_snoc_inv _ _ _ _ [] _ _ _ S1) as (c2 & ss2 & s3 & S2 & P & _). apply serial_nil_inv in S2 as [-> ->]. cbn in P.
    inversion P as [|c' s' ans G X Q|]; subst. unfold runs in X. vm_compute in X. discriminate X.
Qed.
Print Assumptions C76_every_order_can_happen.
Print Assumptions C76_exactly_the_possible_histories.
