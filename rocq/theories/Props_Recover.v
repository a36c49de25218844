(** C84: what clients were told is in the log, and the log suffices to make the data again, also after the server was stopped by undefined behaviour. *)
From Coq Require Import String List Ascii ZArith Lia.
From Coq Require Import Floats.SpecFloat.
From Verif Require Import Bytes StrUtils Outcome Grammar Parser Num Instance Context Server Platform.
From Verif Require Import Spec_Grammar Spec_State Spec_Names Spec_Text Spec_Order Spec_Server.
From Verif Require Import Proof_Parser Proof_Exec Proof_Names Proof_Context Proof_Server Proof_Local.
From Verif Require Import Props_State Props_Server Props_Local Props_Clients Props_Trace.
From Verif Require Import Spec_Local Spec_Recover.
Import ListNotations.
Open Scope list_scope.

(** Undefined behaviour leaves what was there: a schedule that ends so can be cut before it. *)
Lemma before_the_crash srt pw c0 es : exists es1 es2, es = es1 ++ es2 /\ sv_crash (run srt (start pw c0) es1) = None /\
  sv_ctx (run srt (start pw c0) es) = sv_ctx (run srt (start pw c0) es1) /\ sv_conns (run srt (start pw c0) es) = sv_conns (run srt (start pw c0) es1).
Proof.
  induction es as [|e es (es1 & es2 & E & C & X & Y)] using rev_ind.
  - exists [], []. repeat split; auto.
  - destruct (sv_crash (run srt (start pw c0) (es ++ [e]))) as [u|] eqn:D; [|exists (es ++ [e]), []; rewrite app_nil_r; auto].
    exists es1, (es2 ++ [e]). rewrite E at 1. rewrite app_assoc. split; auto. split; auto. rewrite run_snoc in *. unfold step in *. 
    destruct (sv_crash (run srt (start pw c0) es)) as [v|] eqn:F; [auto|]. rewrite <- X, <- Y.
    destruct e as [| |k b|k m|k m|k|k].
    + destruct (sv_accepting _); [discriminate D|congruence].
    + discriminate D.
    + destruct (nth_error _ k); unfold with_conn in D; cbn [sv_crash] in D; congruence.
    + destruct (nth_error _ k) as [cn|]; [|congruence]. destruct (c_phase cn); [destruct (has_newline _)|..]; unfold with_conn in D; cbn [sv_crash] in D; congruence.
    + destruct (nth_error _ k) as [cn|]; [|congruence]. destruct (c_phase cn); [destruct (has_newline _)|..]; try congruence.
      unfold handle in *. destruct (handle_line _ _ _ _ _) as [[[c' s'] [r|]]|x|v]; [destruct (do_write r m)|..]; unfold crashed in *; cbn [sv_ctx sv_conns sv_crash] in *; try congruence; auto.
    + destruct (nth_error _ k) as [cn|]; [|congruence]. destruct (c_phase cn); unfold with_conn in D; cbn [sv_crash] in D; congruence.
    + destruct (nth_error _ k) as [cn|]; unfold with_conn in D; cbn [sv_crash] in D; congruence.
Qed.
Lemma other_session srt pw c s line c' s' ans : sort_contract srt -> reachable srt pw c -> ~ connection_line line -> runs srt pw c s line c' s' ans -> s' = s.
Proof.
  intros H1 H2 N R. destruct (statement_dec line) as [(a & m & args & Hs)|Hn].
  2:{ now destruct (C26_not_a_statement _ _ _ _ _ _ _ _ Hn R). }
  destruct (statement_actor _ _ _ _ Hs) as [->|[->|[Ht|Hv]]].
  - destruct N. now exists m, args.
  - eapply C26_message_to_Context; eauto.
  - eapply C26_message_to_a_type; eauto.
  - eapply C26_message_to_a_variable; eauto.
Qed.
Lemma executes_replay srt pw k l : sort_contract srt -> forall c s c' s' d ss h, reachable srt pw c -> executes srt pw c (Some s) (map fst l) c' s' (map snd l) ->
  twin c d -> admitted (ss k) -> replay k l h -> exists d' ss', serial srt pw d ss h d' ss' /\ twin c' d'.
Proof.
  intros H1. induction l as [|[t a] l IH]; intros c s c' s' d ss h H2 X T Ad Rp; inversion X; subst; inversion Rp; subst.
  - exists d, ss. split; [constructor|exact T].
  - match goal with H : runs _ _ _ _ t ?x ?y a |- _ => rename H into R; rename x into c1; rename y into s1 end.
    assert (R1 : reachable srt pw c1) by exact (reach_step _ _ _ _ _ _ _ _ H2 R).
    destruct (any_session srt pw c s s t c1 s1 a R) as (s2 & R2). destruct (runs_unique _ _ _ _ _ _ _ _ _ _ _ R R2) as (_ & -> & _).
    eapply (IH c1 s2); eauto. match goal with Q : connection_line t |- _ => destruct Q as (m & args & Q); assert (D := C26_message_to_Connection _ _ _ _ _ _ _ _ _ _ Q R) end.
    apply same_data_twin in D; [|eapply reachable_keys; eauto|eapply reachable_keys; eauto]. destruct D as (D1 & D2 & D3), T as (T1 & T2 & T3). repeat split; congruence.
  - match goal with H : runs _ _ _ _ t ?x ?y a |- _ => rename H into R; rename x into c1; rename y into s1 end.
    assert (R1 : reachable srt pw c1) by exact (reach_step _ _ _ _ _ _ _ _ H2 R).
    match goal with Q : ~ connection_line t |- _ => rename Q into N end. assert (Es := other_session _ _ _ _ _ _ _ _ H1 H2 N R). subst s1.
    destruct (any_session srt pw c s (ss k) t c1 _ a R) as (t' & R'). assert (Et := other_session _ _ _ _ _ _ _ _ H1 H2 N R'). injection Et as ->.
    destruct (runs_twin srt pw t t c d (Some (ss k)) c1 (Some (ss k)) a (fun a m args => conj (fun x => x) (fun x => x)) T R') as (d1 & Rd & Td).
    assert (P : processes srt pw d (ss k) t d1 (ss k) (Answered a)) by (constructor; [left; apply Ad|exact Rd|apply Ad]).
    destruct (IH c1 s c' s' d1 (fun j => if (j =? k)%nat then ss k else ss j) h0 R1) as (d' & ss' & S & T'); auto; [now rewrite Nat.eqb_refl|].
    exists d', ss'. split; [|exact T']. eapply serial_cons; eauto.
Qed.

(** At every moment, be it after undefined behaviour: everything that any client was sent is the answer of a record in the log, or a refusal; the records are
    those of all lines executed. *)
Theorem C84_answered_means_recorded : forall srt pw open precision tol is_quiet es, open = true \/ is_quiet = false ->
  let sv := run srt (start pw (new_context open precision tol is_quiet)) es in
  exists h, records h (log_of (sv_ctx sv)) /\
    forall sid cn, nth_error (sv_conns sv) sid = Some cn -> c_sent cn = flat_map with_newline (answers_in sid h) /\
      exists waiting, arrived es sid = flat_map with_newline (lines_in sid h) ++ waiting.
Proof.
  intros srt pw op precision tol q es O. cbv zeta. set (c0 := new_context op precision tol q).
  destruct (before_the_crash srt pw c0 es) as (es1 & es2 & E & C & -> & ->).
  destruct (C35_every_schedule_is_serialisable srt pw c0 es1 C) as (h & X). exists h. destruct X as (ss & S & _ & A).
  destruct (serial_replay _ _ _ _ _ _ _ S) as (l & R & (Lo & Lq & L) & _). split.
  - unfold log_of. rewrite Lo. unfold c0 in *. cbn [new_context log_is_open Context.quiet logfile stdout app] in *. destruct op; [now destruct L as [-> _]|].
    destruct q; [destruct O; discriminate|]. now destruct L as [_ ->].
  - intros sid cn Hn. destruct (A sid cn Hn) as (_ & B). split; [apply B|]. destruct (acc_input _ _ _ _ B) as (w & Ew & _).
    exists (w ++ arrives (fst (opened true 0 es1)) (snd (opened true 0 es1)) es2 sid). rewrite E. unfold arrived in *. rewrite arrives_app, Ew, <- app_assoc. reflexivity.
Qed.
(** The log suffices for recovery: on a server started with the same settings, whoever sends the recorded lines again (messages to Connection left out) is answered as
    the log says, and then the data are those of the first server, however its run ended. *)
Theorem C84_recovery : forall srt pw open precision tol is_quiet es, sort_contract srt -> single_precision tol -> open = true \/ is_quiet = false ->
  let sv := run srt (start pw (new_context open precision tol is_quiet)) es in
  forall open2 is_quiet2 k ss, admitted (ss k) ->
  exists h d ss', replay k (log_of (sv_ctx sv)) h /\ serial srt pw (new_context open2 precision tol is_quiet2) ss h d ss' /\ same_data (sv_ctx sv) d.
Proof.
  intros srt pw op precision tol q es H1 T O. cbv zeta. intros o2 q2 k ss Ad. set (c0 := new_context op precision tol q).
  destruct (before_the_crash srt pw c0 es) as (es1 & es2 & E & C & -> & _).
  destruct (C54_records_reproduce_the_data srt pw c0 es1 H1 (reach_start _ _ _ _ _ _ T) C) as (h & l & _ & _ & (Lo & Lq & L) & X).
  assert (El : log_of (sv_ctx (run srt (start pw c0) es1)) = l).
  { unfold log_of. rewrite Lo. unfold c0 in *. cbn [new_context log_is_open Context.quiet logfile stdout app] in *. destruct op; [now destruct L as [-> _]|].
    destruct q; [destruct O; discriminate|]. now destruct L as [_ ->]. }
  rewrite El. assert (Rp : exists h', replay k l h').
  { clear. induction l as [|[t a] l (h & IH)]; [exists []; constructor|]. destruct (statement_dec t) as [(b & m & args & Hs)|N].
    - destruct (bytes_dec b (B "Connection")) as [->|Nb]; [exists h; constructor; auto; now exists m, args|].
      eexists. apply replay_line; eauto. intros (m' & args' & Hs'). now destruct (statement_unique _ _ _ _ _ _ _ Hs Hs') as (-> & _).
    - eexists. apply replay_line; eauto. intros (m' & args' & Hs'). eapply N; eauto. }
  destruct Rp as (h' & Rp). assert (R2 : reachable srt pw (new_context o2 precision tol q2)) by now constructor.
  destruct (X _ (fresh pw) R2 ltac:(repeat split)) as (d1 & t1 & Ex & Sd).
  destruct (executes_replay srt pw k l H1 _ _ _ _ (new_context o2 precision tol q2) ss h' R2 Ex (twin_refl _) Ad Rp) as (d & ss' & Se & Tw).
  exists h', d, ss'. split; auto. split; auto. apply twin_same_data in Tw. destruct Sd as [A1 A2], Tw as [B1 B2]. split; [intros m; rewrite B1; apply A1|].
  destruct A2 as [A2 A3], B2 as [B2 B3]. split; congruence.
Qed.

(** A server stopped by a division by zero; the client of the new server sends three lines. *)
Definition stopped : list event :=
  [Accept; Accept] ++ talk 0 (B "Integer create: x withValue: 5;") ++ talk 1 (B "Connection authenticateWithPassword: ""pw"";") ++ talk 1 (B "x add: 2;") ++ talk 0 (B "y get;") ++
  talk 1 (B "x divideBy: 0;") ++ talk 0 (B "x get;").
Definition logging : context := new_context true 3 (to_float (S754_zero false)) true.
Example C84_ex : single_precision (to_float (S754_zero false)) /\
  (let sv := run insertion_sort (start [] logging) stopped in sv_crash sv <> None /\ map c_sent (sv_conns sv) <> [] /\
   replay 7 (log_of (sv_ctx sv)) [{| e_sid := 7; e_line := B "Integer create: x withValue: 5;"; e_outcome := Answered (B "null") |};
     {| e_sid := 7; e_line := B "x add: 2;"; e_outcome := Answered (B "null") |}; {| e_sid := 7; e_line := B "y get;"; e_outcome := Answered ERR_UNKNOWN_NAME |}] /\
   lookup (sv_ctx sv) (B "x") = Some (IObj (OInt 7))) /\ admitted (fresh []).
Proof.
  split; [vm_compute; reflexivity|]. split; [|split; reflexivity]. cbv zeta. split; [vm_compute; discriminate|]. split; [vm_compute; discriminate|]. split; [|vm_compute; reflexivity].
  replace (log_of (sv_ctx (run insertion_sort (start [] logging) stopped))) with
    [(B "Integer create: x withValue: 5;", B "null"); (B "Connection authenticateWithPassword: ""pw"";", snd (nth 1 (log_of (sv_ctx (run insertion_sort (start [] logging) stopped))) ([], [])));
     (B "x add: 2;", B "null"); (B "y get;", ERR_UNKNOWN_NAME)] by (vm_compute; reflexivity).
  assert (N : forall line, match parse line with Ok p => negb (seq_eqb (p_actor p) (B "Connection")) | _ => true end = true -> ~ connection_line line).
  { intros line H (m & args & Hs). apply parse_iff in Hs. rewrite Hs in H. discriminate H. }
  apply replay_line; [apply N; vm_compute; reflexivity|]. apply replay_connection; [eexists _, _; stmt|].
  apply replay_line; [apply N; vm_compute; reflexivity|]. apply replay_line; [apply N; vm_compute; reflexivity|]. constructor.
Qed.
Print Assumptions C84_answered_means_recorded.
Print Assumptions C84_recovery.
