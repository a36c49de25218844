(** Property C74: liveness.  Specification: [Spec_Live], [Spec_Linear], [Spec_Server]. *)
From Verif Require Import Bytes StrUtils Grammar Outcome Parser Num Containers Instance Context Server Platform.
From Verif Require Import Lemmas StringLit Proof_Grammar Proof_Parser Proof_Exec Proof_Inv Proof_Literal Proof_Receive Proof_Context Proof_Names Api Proof_Text Props_State Props_Text Proof_Server Props_Server Proof_Order.
From Verif Require Import Spec_Grammar Spec_State Spec_Names Spec_Text Spec_Server Spec_Linear Spec_Live.
From Coq Require Import Lia.
Local Open Scope nat_scope.
Local Open Scope list_scope.

Lemma until_S f t : until f (S t) = until f t ++ [f t].
Proof. unfold until. rewrite seq_S, map_app. reflexivity. Qed.
Lemma until_le f t t' : t <= t' -> exists r, until f t' = until f t ++ r.
Proof.
  intros H. replace t' with (t + (t' - t)) by lia. unfold until. rewrite seq_app, map_app. eauto.
Qed.

Definition newlines (b : bytes) : nat := count_occ ascii_dec b NEWLINE.
Lemma newlines_app a b : newlines (a ++ b) = newlines a + newlines b.
Proof. apply count_occ_app. Qed.
Lemma newlines_lines ls : length ls <= newlines (flat_map with_newline ls).
Proof. induction ls as [|l ls IH]; [auto|]. cbn [flat_map length]. unfold with_newline at 1. rewrite !newlines_app. cbn. lia. Qed.
Lemma newlines_of b ls rest : lines_of b ls rest -> newlines b = length ls.
Proof.
  intros (-> & H & N). rewrite newlines_app. replace (newlines rest) with 0 by (symmetry; now apply count_occ_not_In). 
  induction H as [|l ls Hl _ IH]; [reflexivity|]. cbn [flat_map length]. unfold with_newline at 1. rewrite !newlines_app.
  replace (newlines l) with 0 by (symmetry; now apply count_occ_not_In). cbn. unfold newlines in *. lia.
Qed.
Lemma newlines_clean ls : Forall (fun l => ~ In NEWLINE l) ls -> newlines (flat_map with_newline ls) = length ls.
Proof. intros H. apply (newlines_of _ _ []). split; [now rewrite app_nil_r|]. auto. Qed.
Lemma newlines_In b : 0 < newlines b -> In NEWLINE b.
Proof. apply count_occ_In. Qed.

Lemma opened_le x : forall a n, n <= snd (opened a n x).
Proof. induction x as [|e r IH]; intros a n; [auto|]. destruct e; cbn [opened]; auto. destruct a; auto. specialize (IH true (S n)). lia. Qed.
(** Only an accepted connection's client sends something. *)
Lemma arrives_accepted es : forall a n k, arrives a n es k <> [] -> k < snd (opened a n es).
Proof.
  induction es as [|e r IH]; intros a n k H; [now destruct H|]. destruct e as [| |sid b|sid q|sid q|sid|sid]; cbn [arrives opened] in *; auto.
  destruct (Nat.eqb_spec sid k) as [->|]; auto. destruct (Nat.ltb_spec k n); auto. assert (Mono := opened_le r a n). lia.
Qed.


Lemma has_sent_more es r sid i line : has_sent es sid i line -> has_sent (es ++ r) sid i line.
Proof.
  intros (ls & rest & (E & H & N) & Hi). unfold has_sent, arrived in *. rewrite arrives_app, E.
  destruct (lines_of_exists (rest ++ arrives (fst (opened true 0 es)) (snd (opened true 0 es)) r sid)) as (ls2 & rest2 & E2 & H2 & N2).
  exists (ls ++ ls2), rest2. split.
  - split; [|split; auto; apply Forall_app; auto]. rewrite flat_map_app, <- !app_assoc, E2. reflexivity.
  - rewrite nth_error_app1; auto. apply nth_error_Some. congruence.
Qed.

Section Live.
Context (srt : sorter) (pw : bytes) (c0 : context) (f : schedule) (sid : nat).
Context (Hs : sort_contract srt) (R : reachable_by_lines srt pw c0) (K : keeps_serving f sid).
Context (Safe : forall t, sv_crash (run srt (start pw c0) (until f t)) = None).
Definition at_time (t : nat) : server := run srt (start pw c0) (until f t).
Lemma at_S t : at_time (S t) = step srt (at_time t) (f t).
Proof using Type. unfold at_time. now rewrite until_S, run_snoc. Qed.

(** What holds until an event that comes again and again, holds when it comes. *)
Lemma waits (Q : server -> Prop) (P : event -> Prop) : (forall e, P e \/ ~ P e) -> again_and_again f P ->
  (forall sv e, Q sv -> ~ P e -> e <> Fail sid -> sv_crash sv = None -> sv_crash (step srt sv e) = None -> Q (step srt sv e)) ->
  forall t, Q (at_time t) -> exists t', t <= t' /\ Q (at_time t') /\ P (f t').
Proof using K Safe.
  intros D A Hst t Ht. destruct (A t) as (t1 & L & H1). remember (t1 - t) as d eqn:Ed. revert t Ht L Ed.
  induction d as [|d IH]; intros t Ht L Ed.
  - assert (t1 = t) as -> by lia. exists t. auto.
  - destruct (D (f t)) as [P1|N1]; [exists t; auto|]. destruct (IH (S t)) as (t' & L' & H'); try lia.
    + rewrite at_S. apply Hst; auto; [apply (no_failure _ _ K)|apply Safe|]. rewrite <- at_S. apply Safe.
    + exists t'. split; [lia|exact H'].
Qed.

Definition here (sv : server) (Q : conn -> Prop) : Prop := exists cn, nth_error (sv_conns sv) sid = Some cn /\ Q cn.
Local Ltac unch := left; split; [reflexivity|]; let E := fresh in split; [intros ? E|split; [intros ? E|intros E]]; try discriminate E; try (injection E; intros); congruence.
(** How one event changes a connection. *)
Lemma conn_step sv e cn : nth_error (sv_conns sv) sid = Some cn -> sv_crash sv = None -> sv_crash (step srt sv e) = None -> e <> Fail sid ->
  exists cn', nth_error (sv_conns (step srt sv e)) sid = Some cn' /\
    ((cn' = cn /\ (forall k, e = Handle sid k -> c_phase cn = Reading -> has_newline (c_streambuf cn) = true -> False) /\
       (forall n, e = ReadSome sid n -> c_phase cn = Reading -> has_newline (c_streambuf cn) = false -> False) /\ (e = WriteDone sid -> c_phase cn = Writing -> False)) \/
     (exists b, e = Arrive sid b /\ cn' = {| c_session := c_session cn; c_phase := c_phase cn; c_socket := c_socket cn ++ b; c_streambuf := c_streambuf cn; c_sent := c_sent cn |}) \/
     (exists n, e = ReadSome sid n /\ c_phase cn = Reading /\ has_newline (c_streambuf cn) = false /\
        cn' = {| c_session := c_session cn; c_phase := Reading; c_socket := skipn n (c_socket cn); c_streambuf := c_streambuf cn ++ firstn n (c_socket cn); c_sent := c_sent cn |}) \/
     (exists k, e = Handle sid k /\ c_phase cn = Reading /\ has_newline (c_streambuf cn) = true /\
        (hung_up cn' \/ (c_phase cn' = Writing /\ exists a, c_sent cn' = c_sent cn ++ with_newline a))) \/
     (e = WriteDone sid /\ c_phase cn = Writing /\
        cn' = {| c_session := c_session cn; c_phase := Reading; c_socket := c_socket cn; c_streambuf := c_streambuf cn; c_sent := c_sent cn |})).
Proof using Type.
  intros Hn C C' NF. revert C'. unfold step. rewrite C. destruct e as [| |k b|k n|k q|k|k].
  - intros _. exists cn. split; [try exact Hn|unch]. destruct (sv_accepting sv); auto. cbn [sv_conns]. rewrite nth_error_app1; auto. apply nth_error_Some. congruence.
  - intros _. exists cn. split; [try exact Hn|unch].
  - intros _. destruct (Nat.eq_dec k sid) as [->|Ne].
    + rewrite Hn. cbn [with_conn sv_conns]. eexists. split; [eapply set_conn_same; eauto|]. right. left. exists b. auto.
    + exists cn. split; [try exact Hn|unch]. destruct (nth_error (sv_conns sv) k) eqn:Ek; auto. cbn [with_conn sv_conns]. now rewrite (set_conn_other _ _ _ c) by auto.
  - intros _. destruct (Nat.eq_dec k sid) as [->|Ne].
    + rewrite Hn. destruct (c_phase cn) eqn:Ep; try (exists cn; split; [exact Hn|unch]; fail).
      destruct (has_newline (c_streambuf cn)) eqn:En; [exists cn; split; [exact Hn|unch]|].
      cbn [with_conn sv_conns]. eexists. split; [eapply set_conn_same; eauto|]. right. right. left. exists n. auto.
    + exists cn. split; [try exact Hn|unch]. destruct (nth_error (sv_conns sv) k) as [x|] eqn:Ek; auto. destruct (c_phase x); auto. destruct (has_newline (c_streambuf x)); auto.
      cbn [with_conn sv_conns]. now rewrite (set_conn_other _ _ _ x) by auto.
  - intros C'. destruct (Nat.eq_dec k sid) as [->|Ne].
    + rewrite Hn in *. destruct (c_phase cn) eqn:Ep; try (exists cn; split; [exact Hn|unch]; fail).
      destruct (has_newline (c_streambuf cn)) eqn:En; [|exists cn; split; [exact Hn|unch]]. unfold handle in *.
      destruct (handle_line srt (sv_password sv) (fst (getline (c_streambuf cn))) (sv_ctx sv) (c_session cn)) as [[[c' s'] [response|]]|x|u] eqn:Eh; try discriminate C'.
      * destruct (do_write response q) as [text|x|u] eqn:Ew; try discriminate C'. cbn [sv_conns]. eexists. split; [eapply set_conn_same; eauto|].
        right. right. right. left. exists q. split; auto. split; auto. split; auto. right. split; [reflexivity|]. exists response.
        cbn [c_sent]. unfold do_write in Ew. destruct (_ <? _)%nat; [discriminate Ew|]. injection Ew as <-. reflexivity.
      * cbn [sv_conns]. eexists. split; [eapply set_conn_same; eauto|]. right. right. right. left. exists q. split; auto. split; auto. split; auto. left.
        unfold hung_up. cbn [c_session]. unfold handle_line in Eh. destruct (actor_of _) as [ac|x|u]; try discriminate Eh. cbn [rbind] in Eh.
        destruct (is_authenticated (c_session cn) || is_connection ac); [|discriminate Eh].
        destruct (snd (execute _ _ _ _)) as [out|x|u]; try discriminate Eh. cbn [rbind] in Eh. injection Eh as _ Es Eo. rewrite Es in Eo. now destruct (is_connected s').
    + exists cn. split; [try exact Hn|unch]. destruct (nth_error (sv_conns sv) k) as [x|] eqn:Ek; auto. destruct (c_phase x); auto. destruct (has_newline (c_streambuf x)); auto.
      unfold handle in *.
      destruct (handle_line srt (sv_password sv) (fst (getline (c_streambuf x))) (sv_ctx sv) (c_session x)) as [[[c' s'] [response|]]|y|u] eqn:Eh; try discriminate C'.
      * destruct (do_write response q) as [text|y|u]; try discriminate C'. cbn [sv_conns]. now rewrite (set_conn_other _ _ _ x) by auto.
      * cbn [sv_conns]. now rewrite (set_conn_other _ _ _ x) by auto.
  - intros _. destruct (Nat.eq_dec k sid) as [->|Ne].
    + rewrite Hn. destruct (c_phase cn) eqn:Ep; try (exists cn; split; [exact Hn|unch]; fail). cbn [with_conn sv_conns]. eexists. split; [eapply set_conn_same; eauto|].
      right. right. right. right. auto.
    + exists cn. split; [try exact Hn|unch]. destruct (nth_error (sv_conns sv) k) as [x|] eqn:Ek; auto. destruct (c_phase x); auto.
      cbn [with_conn sv_conns]. now rewrite (set_conn_other _ _ _ x) by auto.
  - intros _. assert (k <> sid) by congruence. exists cn. split; [try exact Hn|unch]. destruct (nth_error (sv_conns sv) k) as [x|] eqn:Ek; auto.
    cbn [with_conn sv_conns]. now rewrite (set_conn_other _ _ _ x) by auto.
Qed.

Definition answered_more (S0 : bytes) (cn : conn) : Prop := hung_up cn \/ (c_phase cn <> Gone /\ exists a, c_sent cn = S0 ++ with_newline a).
Lemma stage_handle S0 t : here (at_time t) (fun cn => c_phase cn = Reading /\ has_newline (c_streambuf cn) = true /\ c_sent cn = S0) ->
  exists t', t <= t' /\ here (at_time t') (answered_more S0).
Proof using K Safe.
  intros H. destruct (waits (fun sv => here sv (fun cn => c_phase cn = Reading /\ has_newline (c_streambuf cn) = true /\ c_sent cn = S0)) (fun e => exists k, e = Handle sid k)) with (t := t)
    as (t' & L & (cn & Hn & P & N & E) & k & Ek); auto.
  - intros e. destruct e as [| |q b|q n|q m|q|q]; try (right; intros [? X]; discriminate X). destruct (Nat.eq_dec q sid) as [->|Ne]; [left; eauto|right; intros [? X]; congruence].
  - apply (handles _ _ K).
  - intros sv e (cn & Hn & P & N & E) NP NF C C'. destruct (conn_step sv e cn Hn C C' NF) as (cn' & Hn' & [(-> & _)|[(b & _ & ->)|[(n & _ & _ & X & _)|[(k & X & _)|(_ & X & _)]]]]);
      try congruence; try (exists cn; auto; fail); try (eexists; split; [exact Hn'|]; cbn; auto; fail). exfalso. eauto.
  - exists (S t'). split; [lia|]. rewrite at_S. assert (C' := Safe (S t')). fold (at_time (S t')) in C'. rewrite at_S in C'.
    destruct (conn_step (at_time t') (f t') cn Hn (Safe t') C' (no_failure _ _ K t')) as (cn' & Hn' & D). exists cn'. split; [exact Hn'|].
    destruct D as [(_ & X & _)|[(b & X & _)|[(n & X & _)|[(k' & _ & _ & _ & [X|[X (a & Ea)]])|(X & _)]]]]; try (rewrite Ek in X; discriminate X).
    + exfalso. eapply X; eauto.
    + now left.
    + right. split; [congruence|]. exists a. congruence.
Qed.

Lemma stage_read S0 : forall m t, here (at_time t) (fun cn => c_phase cn = Reading /\ has_newline (c_streambuf cn) = false /\ c_sent cn = S0 /\
    exists pre post, c_socket cn = pre ++ NEWLINE :: post /\ length pre <= m) ->
  exists t', t <= t' /\ here (at_time t') (answered_more S0).
Proof using K Safe.
  induction m as [m IHm] using (well_founded_induction lt_wf). intros t H.
  destruct (waits (fun sv => here sv (fun cn => c_phase cn = Reading /\ has_newline (c_streambuf cn) = false /\ c_sent cn = S0 /\
    exists pre post, c_socket cn = pre ++ NEWLINE :: post /\ length pre <= m)) (fun e => exists n, e = ReadSome sid (S n))) with (t := t)
    as (t' & L & (cn & Hn & P & N & E & pre & post & Es & Lp) & n & Ek); auto.
  - intros e. destruct e as [| |q b|q n|q m'|q|q]; try (right; intros [? X]; discriminate X). destruct (Nat.eq_dec q sid) as [->|Ne]; [|right; intros [? X]; congruence].
    destruct n; [right; intros [? X]; discriminate X|left; eauto].
  - apply (reads _ _ K).
  - intros sv e (cn & Hn & P & N & E & pre & post & Es & Lp) NP NF C C'. destruct (conn_step sv e cn Hn C C' NF) as (cn' & Hn' & [(-> & _)|[(b & _ & ->)|[(n & X & _ & _ & ->)|[(k & _ & _ & X & _)|(_ & X & _)]]]]);
      try congruence; try (exists cn; split; eauto 10; fail).
    + eexists. split; [exact Hn'|]. cbn. split; auto. split; auto. split; auto. exists pre, (post ++ b). rewrite Es, <- app_assoc. auto.
    + destruct n; [|exfalso; eauto]. eexists. split; [exact Hn'|]. cbn. rewrite app_nil_r. eauto 10.
  - assert (C' := Safe (S t')). fold (at_time (S t')) in C'. rewrite at_S in C'.
    destruct (conn_step (at_time t') (f t') cn Hn (Safe t') C' (no_failure _ _ K t')) as (cn' & Hn' & D). rewrite <- at_S in Hn'.
    destruct D as [(_ & _ & X & _)|[(b & X & _)|[(n' & X & _ & _ & ->)|[(k' & X & _)|(X & _)]]]]; try (rewrite Ek in X; discriminate X).
    + exfalso. eapply X; eauto.
    + rewrite Ek in X. injection X as <-.
      destruct (has_newline (c_streambuf cn ++ firstn (S n) (c_socket cn))) eqn:En.
      * destruct (stage_handle S0 (S t')) as (t2 & L2 & H2); [eexists; split; [exact Hn'|cbn [c_phase c_streambuf c_sent]; auto]|].
        exists t2. split; [lia|exact H2].
      * destruct (Nat.le_gt_cases (length pre) n) as [Lg|Lg].
        -- exfalso. enough (true = false) by discriminate. rewrite <- En. symmetry. apply has_newline_iff. apply in_or_app. right. rewrite Es, firstn_app.
           apply in_or_app. right. destruct (S n - length pre) eqn:Ed; [lia|]. now left.
        -- destruct (IHm (m - S n)) with (t := S t') as (t2 & L2 & H2); [lia| |exists t2; split; [lia|exact H2]].
           eexists. split; [exact Hn'|]. cbn [c_phase c_streambuf c_sent c_socket]. split; auto. split; auto. split; auto.
           exists (skipn (S n) pre), post. rewrite Es, skipn_app. replace (S n - length pre) with 0 by lia. rewrite skipn_length. split; [reflexivity|lia].
Qed.

Lemma stage_write S0 t : here (at_time t) (fun cn => c_phase cn <> Gone /\ c_sent cn = S0 /\ In NEWLINE (c_streambuf cn ++ c_socket cn)) ->
  exists t', t <= t' /\ here (at_time t') (answered_more S0).
Proof using K Safe.
  assert (Rd : forall t, here (at_time t) (fun cn => c_phase cn = Reading /\ c_sent cn = S0 /\ In NEWLINE (c_streambuf cn ++ c_socket cn)) ->
    exists t', t <= t' /\ here (at_time t') (answered_more S0)).
  { intros t1 (cn & Hn & P & E & N). destruct (has_newline (c_streambuf cn)) eqn:En.
    - apply stage_handle. exists cn. auto.
    - apply in_app_or in N as [N|N]; [apply has_newline_iff in N; congruence|]. apply in_split in N as (pre & post & Es).
      apply (stage_read S0 (length pre)). exists cn. eauto 10. }
  intros (cn & Hn & P & E & N). destruct (c_phase cn) eqn:Ep; [|clear P|congruence].
  { apply Rd. exists cn. auto. }
  destruct (waits (fun sv => here sv (fun cn => c_phase cn = Writing /\ c_sent cn = S0 /\ In NEWLINE (c_streambuf cn ++ c_socket cn))) (fun e => e = WriteDone sid)) with (t := t)
    as (t' & L & (cn1 & Hn1 & P1 & E1 & N1) & Ek); auto.
  - intros e. destruct e as [| |q b|q n|q m'|q|q]; try (right; intros X; discriminate X). destruct (Nat.eq_dec q sid) as [->|Ne]; [now left|right; congruence].
  - apply (finishes_writes _ _ K).
  - intros sv e (cn2 & Hn2 & P2 & E2 & N2) NP NF C C'. destruct (conn_step sv e cn2 Hn2 C C' NF) as (cn' & Hn' & [(-> & _)|[(b & _ & ->)|[(n & _ & X & _)|[(k & _ & X & _)|(X & _)]]]]);
      try congruence; try (exists cn2; auto; fail).
    eexists. split; [exact Hn'|]. cbn. split; auto. split; auto. rewrite app_assoc. apply in_or_app. now left.
  - exists cn. auto.
  - assert (C' := Safe (S t')). fold (at_time (S t')) in C'. rewrite at_S in C'.
    destruct (conn_step (at_time t') (f t') cn1 Hn1 (Safe t') C' (no_failure _ _ K t')) as (cn' & Hn' & D). rewrite <- at_S in Hn'.
    destruct D as [(_ & _ & _ & X)|[(b & X & _)|[(n' & X & _)|[(k' & X & _)|(_ & _ & ->)]]]]; try (rewrite Ek in X; discriminate X).
    + exfalso. eapply X; eauto.
    + destruct (Rd (S t')) as (t2 & L2 & H2); [eexists; split; [exact Hn'|cbn; auto]|]. exists t2. split; [lia|exact H2].
Qed.

(** Without errors, only closing ends the reading. *)
Lemma gone_hung_up t : forall cn, nth_error (sv_conns (at_time t)) sid = Some cn -> c_phase cn = Gone -> hung_up cn.
Proof using K Safe.
  induction t as [|t IH]; intros cn Hn Hg.
  - cbn in Hn. now destruct sid.
  - assert (C' := Safe (S t)). fold (at_time (S t)) in C'. rewrite at_S in C', Hn.
    destruct (nth_error (sv_conns (at_time t)) sid) as [cn0|] eqn:E0.
    + destruct (conn_step (at_time t) (f t) cn0 E0 (Safe t) C' (no_failure _ _ K t)) as (cn' & Hn' & D). rewrite Hn in Hn'. injection Hn' as <-.
      destruct D as [(-> & _)|[(b & X & ->)|[(n' & X & Y & _ & ->)|[(k' & X & _ & _ & [Y|[Y _]])|(_ & _ & ->)]]]]; cbn [c_phase] in Hg; try discriminate Hg; try congruence; try exact Y; exact (IH cn0 eq_refl Hg).
    + destruct (f t) as [| |q b|q n|q k|q|q] eqn:Ef; unfold step in Hn; rewrite (Safe t : sv_crash (at_time t) = None) in Hn.
      * destruct (sv_accepting (at_time t)); [|congruence]. cbn [sv_conns] in Hn. apply nth_error_None in E0. rewrite nth_error_app2 in Hn by auto.
        destruct (sid - length (sv_conns (at_time t))) as [|d]; [|now destruct d]. injection Hn as <-. discriminate Hg.
      * cbn in Hn. congruence.
      * exfalso. destruct (nth_error (sv_conns (at_time t)) q) as [x|] eqn:Eq; [|congruence]. cbn [with_conn sv_conns] in Hn.
        rewrite (set_conn_other _ _ _ x) in Hn; auto; congruence.
      * exfalso. destruct (nth_error (sv_conns (at_time t)) q) as [x|] eqn:Eq; [|congruence]. destruct (c_phase x); [destruct (has_newline _)|congruence|congruence]; [congruence|].
        cbn [with_conn sv_conns] in Hn. rewrite (set_conn_other _ _ _ x) in Hn; auto; congruence.
      * exfalso. destruct (nth_error (sv_conns (at_time t)) q) as [x|] eqn:Eq; [|congruence]. destruct (c_phase x); [destruct (has_newline _)|congruence|congruence]; [|congruence].
        rewrite (handle_others _ _ _ _ _ _ Eq) in Hn; congruence.
      * exfalso. destruct (nth_error (sv_conns (at_time t)) q) as [x|] eqn:Eq; [|congruence]. destruct (c_phase x); try congruence.
        cbn [with_conn sv_conns] in Hn. rewrite (set_conn_other _ _ _ x) in Hn; auto; congruence.
      * exfalso. destruct (nth_error (sv_conns (at_time t)) q) as [x|] eqn:Eq; [|congruence]. 
        cbn [with_conn sv_conns] in Hn. rewrite (set_conn_other _ _ _ x) in Hn; auto; congruence.
Qed.

Lemma eventually_answered i : forall d t line, has_sent (until f t) sid i line ->
  (forall cn, nth_error (sv_conns (at_time t)) sid = Some cn -> i < newlines (c_sent cn) + d) ->
  exists t', t <= t' /\ ((exists ans, has_answer srt pw c0 (until f t') sid i ans) \/
    (exists j l, j <= i /\ has_sent (until f t') sid j l /\ statement l (B "Connection") (B "close") [])).
Proof using Hs R K Safe.
  induction d as [|d IH]; intros t line Hsent Hd.
  all: assert (Hc := Safe t); destruct (inv_exists srt pw c0 (until f t) Hc) as (h & ss & I);
    destruct Hsent as (ls & rest & Hl & Hi);
    assert (Hlen : i < length ls) by (apply nth_error_Some; congruence);
    assert (Hcn : exists cn, nth_error (sv_conns (at_time t)) sid = Some cn).
  1,3: assert (Na : arrived (until f t) sid <> []) by (intros E; apply newlines_of in Hl; rewrite E in Hl; cbn in Hl; lia);
    apply arrives_accepted in Na; rewrite <- (i_len _ _ _ _ _ _ _ I) in Na; apply nth_error_Some in Na;
    unfold at_time; destruct (nth_error _ sid); [eauto|congruence].
  all: destruct Hcn as (cn & Hn);
    destruct (C34_one_answer_line_per_line srt pw c0 (until f t) sid cn Hs R Hc Hn) as (exs & cl & wt & rest' & L1 & L2 & L3);
    assert (Ex : newlines (c_sent cn) = length exs) by (apply newlines_of in L2; now rewrite map_length in L2);
    assert (Hex : i < length exs -> exists ans, has_answer srt pw c0 (until f t) sid i ans) by
      (intros Hx; destruct (nth_error (map snd exs) i) as [a|] eqn:Ea; [exists a; exists cn, (map snd exs), []; auto|apply nth_error_None in Ea; rewrite map_length in Ea; lia]).
  - exists t. split; auto. left. apply Hex. specialize (Hd cn Hn). lia.
  - destruct (Nat.lt_ge_cases i (length exs)) as [Hx|Hx]; [exists t; auto|].
    destruct L3 as [(Nh & -> & _)|(Hh & l & -> & Hst)].
    2:{ exists t. split; auto. right. exists (length exs), l. split; auto. split; auto. exists (map fst exs ++ [l] ++ wt), rest'. split; auto.
        rewrite nth_error_app2, map_length, Nat.sub_diag; [reflexivity|now rewrite map_length]. }
    destruct (i_conn _ _ _ _ _ _ _ I sid cn Hn) as [_ CI].
    assert (Hin : In NEWLINE (c_streambuf cn ++ c_socket cn)).
    { apply newlines_In. assert (E1 := f_equal newlines (ci_in _ _ _ _ CI)). rewrite newlines_app in E1. rewrite (newlines_clean _ (ci_lines _ _ _ _ CI)) in E1.
      assert (E2 : length (lines_in sid h) <= newlines (c_sent cn)).
      { rewrite (ci_out _ _ _ _ CI). etransitivity; [|apply newlines_lines]. unfold lines_in, answers_in. rewrite map_length.
        assert (Hno : Forall (fun e => ~ closes e) (entries_of sid h)).
        { apply Forall_forall. intros e He Hcl. apply Nh. apply (ci_hung _ _ _ _ CI). apply in_split in He as (be & af & He).
          rewrite (ci_close _ _ _ _ CI _ _ _ He Hcl) in He. eauto. }
        induction Hno as [|e es Hno _ IHe]; [auto|]. cbn [flat_map length]. rewrite app_length. destruct (e_outcome e) eqn:Eo; cbn; try lia.
        exfalso. apply Hno. eexists; eauto. }
      apply newlines_of in Hl. rewrite Hl in E1. rewrite Ex in E2. clear - E1 E2 Hx Hlen. unfold bytes in *. lia. }
    assert (Hg : c_phase cn <> Gone) by (intros Hg; apply Nh; eapply gone_hung_up; eauto).
    destruct (stage_write (c_sent cn) t) as (t' & Lt & cn' & Hn' & Hp); [exists cn; auto|].
    assert (Hs' : has_sent (until f t') sid i line).
    { destruct (until_le f t t' Lt) as (r & Er). rewrite Er. apply has_sent_more. exists ls, rest. auto. }
    destruct Hp as [Hh|(_ & a & Ea)].
    + destruct (C34_one_answer_line_per_line srt pw c0 (until f t') sid cn' Hs R (Safe t') Hn') as (exs' & cl & wt' & rest2 & L1' & L2' & L3').
      destruct L3' as [(Nh' & _)|(_ & l & -> & Hst)]; [contradiction|]. exists t'. split; auto.
      destruct (Nat.lt_ge_cases i (length exs')) as [Hx'|Hx'].
      * left. destruct (nth_error (map snd exs') i) as [an|] eqn:Ean; [exists an; exists cn', (map snd exs'), []; auto|apply nth_error_None in Ean; rewrite map_length in Ean; lia].
      * right. exists (length exs'), l. split; auto. split; auto. exists (map fst exs' ++ [l] ++ wt'), rest2. split; auto.
        rewrite nth_error_app2, map_length, Nat.sub_diag; [reflexivity|now rewrite map_length].
    + destruct (IH t' line Hs') as (t2 & Lt2 & H2).
      * intros cn2 Hn2. rewrite Hn' in Hn2. injection Hn2 as <-. rewrite Ea. unfold with_newline. rewrite !newlines_app. cbn. specialize (Hd cn Hn). unfold newlines in *. lia.
      * exists t2. split; [lia|exact H2].
Qed.
End Live.

(** C74: every complete line is answered at some time, if the client does not close the connection by it or by an earlier line, the network
    and the operating system keep serving this session, and the server does not crash.  Nothing is assumed about other sessions. *)
Theorem C74_every_line_is_answered : forall srt pw c0 f sid t i line, sort_contract srt -> reachable_by_lines srt pw c0 ->
  (forall t, sv_crash (run srt (start pw c0) (until f t)) = None) -> keeps_serving f sid ->
  has_sent (until f t) sid i line ->
  exists t', t <= t' /\
    ((exists ans, has_answer srt pw c0 (until f t') sid i ans) \/
     (exists j l, j <= i /\ has_sent (until f t') sid j l /\ statement l (B "Connection") (B "close") [])).
Proof.
  intros srt pw c0 f sid t i line Hs R Safe K H. apply (eventually_answered srt pw c0 f sid Hs R K Safe i (S i) t line H). intros. lia.
Qed.

(** An answer once sent stays sent. *)
Theorem C74_answers_stay : forall srt pw c0 es es' sid i ans, sv_crash (run srt (start pw c0) (es ++ es')) = None ->
  has_answer srt pw c0 es sid i ans -> has_answer srt pw c0 (es ++ es') sid i ans.
Proof.
  intros srt pw c0 es es' sid i ans Hc (cn & ls & rest & Hn & (E & H & N) & Hi).
  destruct (inv_exists srt pw c0 es (uncrashed_prefix _ _ _ _ Hc)) as (h & ss & I).
  destruct (inv_extend _ _ _ es es' h ss I Hc) as (h' & ss' & I').
  assert (L : sid < length (sv_conns (run srt (start pw c0) (es ++ es')))).
  { rewrite (i_len _ _ _ _ _ _ _ I'), opened_app. eapply Nat.lt_le_trans; [|apply opened_le].
    rewrite <- (i_len _ _ _ _ _ _ _ I). apply nth_error_Some. congruence. }
  apply nth_error_Some in L. destruct (nth_error (sv_conns (run srt (start pw c0) (es ++ es'))) sid) as [cn'|] eqn:Hn'; [clear L|congruence].
  destruct (i_conn _ _ _ _ _ _ _ I sid cn Hn) as [_ CI]. destruct (i_conn _ _ _ _ _ _ _ I' sid cn' Hn') as [_ CI'].
  assert (E' : c_sent cn' = c_sent cn ++ flat_map with_newline (answers_in sid h')).
  { rewrite (ci_out _ _ _ _ CI'), (ci_out _ _ _ _ CI). unfold answers_in. now rewrite entries_app, !flat_map_app. }
  destruct (lines_of_exists (rest ++ flat_map with_newline (answers_in sid h'))) as (ls2 & rest2 & E2 & H2 & N2).
  exists cn', (ls ++ ls2), rest2. split; [exact Hn'|]. split.
  - split; [|split; auto; apply Forall_app; auto]. rewrite E', E, flat_map_app, <- !app_assoc, E2. reflexivity.
  - rewrite nth_error_app1; auto. apply nth_error_Some. congruence.
Qed.

(** *** examples *)
Definition two_lines : bytes := B "x get;" ++ [NEWLINE] ++ B "y get;" ++ [NEWLINE].
Definition round_robin : schedule := fun t => match t with
  | 0 => Accept | 1 => Arrive 0 two_lines
  | S (S t) => match t mod 3 with 0 => ReadSome 0 7 | 1 => Handle 0 1000 | _ => WriteDone 0 end end.
(** The client never takes its answers. *)
Definition stuck : schedule := fun t => match t with
  | 0 => Accept | 1 => Arrive 0 two_lines
  | S (S t) => match t mod 2 with 0 => ReadSome 0 7 | _ => Handle 0 1000 end end.
Notation ex_run f t := (run insertion_sort (start [] empty_server) (until f t)).
Lemma stays f n : (forall k, step insertion_sort (ex_run f n) (f (n + k)) = ex_run f n) -> forall k, ex_run f (n + k) = ex_run f n.
Proof.
  intros H k. induction k as [|k IH]; [now rewrite Nat.add_0_r|]. rewrite Nat.add_succ_r, until_S, run_snoc, IH. apply H.
Qed.
Lemma split_time n t : t < n \/ exists k, t = n + k.
Proof. destruct (Nat.lt_ge_cases t n); [auto|right; exists (t - n); lia]. Qed.
Lemma round_robin_stays k : ex_run round_robin (8 + k) = ex_run round_robin 8.
Proof.
  apply stays. intros q. cbn [Nat.add round_robin]. destruct ((S (S (S (S (S (S q)))))) mod 3) as [|[|?]]; vm_compute; reflexivity.
Qed.
Lemma stuck_stays k : ex_run stuck (4 + k) = ex_run stuck 4.
Proof.
  apply stays. intros q. cbn [Nat.add stuck]. destruct (S (S q) mod 2) as [|?]; vm_compute; reflexivity.
Qed.
Lemma until_arrived f n : (forall k b, f (n + k) <> Arrive 0 b) -> forall k, arrived (until f (n + k)) 0 = arrived (until f n) 0.
Proof.
  intros H k. induction k as [|k IH]; [now rewrite Nat.add_0_r|]. rewrite Nat.add_succ_r, until_S. unfold arrived in *. rewrite arrives_app, IH.
  destruct (f (n + k)) as [| |s b|s b|s b|s|s] eqn:E; cbn [arrives]; try apply app_nil_r. destruct (Nat.eqb_spec s 0) as [->|]; [now destruct (H k b)|]. now rewrite !app_nil_r.
Qed.
Lemma mod_again m r t : r < m -> exists t', t <= t' /\ t' mod m = r.
Proof. intros H. exists (t * m + r). split; [nia|]. rewrite Nat.add_comm, Nat.mod_add by lia. now apply Nat.mod_small. Qed.
Example C74_ex : sort_contract insertion_sort /\ reachable_by_lines insertion_sort [] empty_server /\ (forall t, sv_crash (ex_run round_robin t) = None) /\
  keeps_serving round_robin 0 /\ has_sent (until round_robin 2) 0 1 (B "y get;").
Proof.
  split; [exact insertion_sort_contract|]. split; [constructor; reflexivity|]. split; [|split].
  - intros t. destruct (split_time 8 t) as [L|[k ->]]; [do 8 (destruct t as [|t]; [vm_compute; reflexivity|]); lia|]. rewrite round_robin_stays. vm_compute. reflexivity.
  - constructor.
    + intros t. destruct (mod_again 3 0 t) as (q & L & E); [lia|]. exists (S (S q)). split; [lia|]. cbn [round_robin]. rewrite E. eauto.
    + intros t. destruct (mod_again 3 1 t) as (q & L & E); [lia|]. exists (S (S q)). split; [lia|]. cbn [round_robin]. rewrite E. eauto.
    + intros t. destruct (mod_again 3 2 t) as (q & L & E); [lia|]. exists (S (S q)). split; [lia|]. cbn [round_robin]. rewrite E. eauto.
    + intros t. destruct t as [|[|t]]; [discriminate|discriminate|]. cbn [round_robin]. destruct (t mod 3) as [|[|?]]; discriminate.
  - exists [B "x get;"; B "y get;"], []. split; [|reflexivity]. split; [vm_compute; reflexivity|]. split; [|intros []]. 
    repeat constructor; apply has_newline_false; vm_compute; reflexivity.
Qed.

(** The server reads no further while an answer is on its way: a client that never takes the first answer never gets the second. *)
Theorem C74_without_taking_answers_refuted : exists srt pw c0 f t, sort_contract srt /\ reachable_by_lines srt pw c0 /\
  (forall t, sv_crash (run srt (start pw c0) (until f t)) = None) /\
  again_and_again f (fun e => exists n, e = ReadSome 0 (S n)) /\ again_and_again f (fun e => exists k, e = Handle 0 k) /\ (forall t, f t <> Fail 0) /\
  has_sent (until f t) 0 1 (B "y get;") /\ forall t' ans, ~ has_answer srt pw c0 (until f t') 0 1 ans.
Proof.
  exists insertion_sort, [], empty_server, stuck, 2.
  split; [exact insertion_sort_contract|]. split; [constructor; reflexivity|]. split; [|split; [|split; [|split; [|split]]]].
  - intros t. destruct (split_time 4 t) as [L|[k ->]]; [do 4 (destruct t as [|t]; [vm_compute; reflexivity|]); lia|]. rewrite stuck_stays. vm_compute. reflexivity.
  - intros t. destruct (mod_again 2 0 t) as (q & L & E); [lia|]. exists (S (S q)). split; [lia|]. cbn [stuck]. rewrite E. eauto.
  - intros t. destruct (mod_again 2 1 t) as (q & L & E); [lia|]. exists (S (S q)). split; [lia|]. cbn [stuck]. rewrite E. eauto.
  - intros t. destruct t as [|[|t]]; [discriminate|discriminate|]. cbn [stuck]. destruct (t mod 2); discriminate.
  - exists [B "x get;"; B "y get;"], []. split; [|reflexivity]. split; [vm_compute; reflexivity|]. split; [|intros []]. 
    repeat constructor; apply has_newline_false; vm_compute; reflexivity.
  - intros t' ans (cn & ls & rest & Hn & Hl & Hi). apply newlines_of in Hl. assert (Hlen : 1 < length ls) by (apply nth_error_Some; congruence).
    assert (Few : newlines (c_sent cn) <= 1).
    { destruct (split_time 4 t') as [L|[k ->]]; [|rewrite stuck_stays in Hn; vm_compute in Hn; injection Hn as <-; vm_compute; lia].
      do 4 (destruct t' as [|t']; [vm_compute in Hn; try discriminate Hn; injection Hn as <-; vm_compute; lia|]). lia. }
    lia.
Qed.
