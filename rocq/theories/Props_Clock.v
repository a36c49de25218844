(** Property C68: the time stamps of the log.  Specification: [Spec_Clock]; model: [Clock]. *)
From Coq Require Import Lia Sorting.Sorted ZArith.
From Verif Require Import Bytes StrUtils Grammar Outcome Parser Num Containers Instance Context Server Platform Clock.
From Verif Require Import Proof_Order Proof_Clock Props_State Props_Server Props_Log.
From Verif Require Import Spec_Grammar Spec_State Spec_Names Spec_Text Spec_Number Spec_Server Spec_Local Spec_Clock.
Open Scope list_scope.
Open Scope Z_scope.

(** Every second of the years 1970 to 9999 has one stamp, of 21 characters. *)
Theorem C68_every_second_has_one_stamp : forall t, four_digit_time t ->
  exists st, stamp t st /\ (forall st', stamp t st' -> st' = st) /\ length st = 21%nat /\ ~ In NEWLINE st.
Proof.
  intros t F. destruct (timestamp_stamp (fun _ => 0) t) as (st & _ & S); [now rewrite Z.add_0_r|]. rewrite Z.add_0_r in S.
  exists st. split; [exact S|]. split; [intros st' S'; eapply stamp_unique; eauto|]. eapply stamp_length; eauto.
Qed.
(** A stamp tells the second, and stamps are in the order of the seconds. *)
Theorem C68_stamps_tell_the_time : forall t t' st, stamp t st -> stamp t' st -> t = t'.
Proof. exact stamp_tells. Qed.
Theorem C68_stamps_are_in_order : forall t st t' st', stamp t st -> stamp t' st' -> (t < t' <-> precedes st st').
Proof.
  intros t st t' st' S S'. split; [eapply stamp_before; eauto|]. intros P. destruct (Z.lt_trichotomy t t') as [L|[->|L]]; [exact L| |].
  - rewrite (stamp_unique _ _ _ S S') in P. exfalso. exact (precedes_asym _ _ P P).
  - exfalso. exact (precedes_asym _ _ P (stamp_before _ _ _ _ S' S L)).
Qed.
(** A record written at the moment [now], when local time is [zone now] seconds ahead of UTC, carries the stamp of local time. *)
Theorem C68_every_record_is_stamped : forall zone now line ans, four_digit_time (now + zone now) ->
  exists st, stamp (now + zone now) st /\ log_record zone now (line, ans) = Some (st ++ B " " ++ line ++ B " -> " ++ ans ++ [NEWLINE]).
Proof.
  intros zone now line ans F. destruct (timestamp_stamp zone now F) as (st & E & S). exists st. split; [exact S|].
  unfold log_record. rewrite E. reflexivity.
Qed.
(** The buffer for the stamp suffices for almost two thousand million years. *)
Theorem C68_the_buffer_suffices : forall zone now line ans, 0 <= now + zone now < 6 * 10 ^ 16 -> log_record zone now (line, ans) <> None.
Proof.
  intros zone now line ans F. apply timestamp_fits in F. unfold log_record. destruct (timestamp zone now); [discriminate|congruence].
Qed.
(** The whole text: the records with the stamps of the times when they were written. *)
Theorem C68_log_text : forall zone times records, length times = length records -> Forall (fun now => four_digit_time (now + zone now)) times ->
  exists stamps text, log_text zone times records = Some text /\ Forall2 (fun now st => stamp (now + zone now) st) times stamps /\
    stamped stamps records text /\ written records text.
Proof.
  intros zone. induction times as [|now times IH]; intros [|[line ans] records] L F; try discriminate L.
  - exists [], []. repeat split; constructor.
  - inversion F as [|? ? F1 F2]; subst. injection L as L. destruct (IH records L F2) as (stamps & text & E & S & T & W).
    destruct (C68_every_record_is_stamped zone now line ans F1) as (st & Hst & ER). destruct (stamp_length _ _ Hst) as [L1 L2].
    exists (st :: stamps), (st ++ B " " ++ line ++ B " -> " ++ ans ++ [NEWLINE] ++ text). split; [|split; [|split]].
    + cbn [log_text]. rewrite ER, E. f_equal. now rewrite <- !app_assoc.
    + constructor; auto.
    + now constructor.
    + rewrite app_assoc. apply written_more; [rewrite app_length, L1; reflexivity| |exact W].
      rewrite in_app_iff. intros [I|[I|[]]]; [contradiction|discriminate I].
Qed.
(** While the offset of local time stays the same and the clock is not set back, the records are in the order of their stamps. *)
Theorem C68_the_log_is_in_order : forall offset times stamps,
  Forall2 (fun now st => stamp (now + offset) st) times stamps -> StronglySorted Z.le times -> StronglySorted (fun a b => ~ precedes b a) stamps.
Proof.
  intros offset times stamps F. induction F as [|now st times stamps S F IH]; intros T; [constructor|].
  inversion T as [|? ? T1 T2]; subst. constructor; [auto|]. clear IH T T1. induction F as [|now' st' times stamps S' F IH]; [constructor|].
  inversion T2; subst. constructor; [|auto]. intros P.
  apply (proj2 (C68_stamps_are_in_order _ _ _ _ S' S)) in P. lia.
Qed.
(** When the offset changes (the end of daylight saving time), a later record can carry an earlier stamp, or the same one. *)
Theorem C68_order_across_clock_changes_refuted : exists zone now1 now2 now3 st1 st2, now1 < now2 < now3 /\
  four_digit_time (now1 + zone now1) /\ four_digit_time (now2 + zone now2) /\ four_digit_time (now3 + zone now3) /\
  stamp (now1 + zone now1) st1 /\ stamp (now2 + zone now2) st2 /\ precedes st2 st1 /\ stamp (now3 + zone now3) st1.
Proof.
  set (zone := fun now => if now <? 1000000000 then 7200 else 3600).
  assert (R : forall t, four_digit_time t -> exists st, stamp t st) by (intros t F; destruct (C68_every_second_has_one_stamp t F) as (st & S & _); eauto).
  assert (F1 : four_digit_time (999999999 + zone 999999999)) by (unfold four_digit_time; cbn; lia).
  assert (F2 : four_digit_time (1000000000 + zone 1000000000)) by (unfold four_digit_time; cbn; lia).
  assert (F3 : four_digit_time (1000003599 + zone 1000003599)) by (unfold four_digit_time; cbn; lia).
  destruct (R _ F1) as [st1 S1], (R _ F2) as [st2 S2].
  exists zone, 999999999, 1000000000, 1000003599, st1, st2. split; [lia|]. split; [exact F1|]. split; [exact F2|]. split; [exact F3|].
  split; [exact S1|]. split; [exact S2|]. split; [|exact S1].
  apply (proj1 (C68_stamps_are_in_order _ _ _ _ S2 S1)). cbn. lia.
Qed.

(** What two servers that keep logs have written determines what they executed, when, and what they hold. *)
Lemma stamped_same_stamps : forall stamps1 stamps2 records text, Forall (fun st => length st = 21%nat) stamps1 -> Forall (fun st => length st = 21%nat) stamps2 ->
  stamped stamps1 records text -> stamped stamps2 records text -> stamps1 = stamps2.
Proof.
  intros stamps1 stamps2 records text L1 L2 S1. revert stamps2 L2. induction S1 as [|st sts line ans l text S1 IH]; intros stamps2 L2 S2.
  - inversion S2; reflexivity.
  - inversion S2 as [|st' sts' ? ? ? text' S2' E1 E2 E3]; subst. inversion L1; subst. inversion L2; subst.
    assert (EL : length st' = length st) by congruence.
    assert (AI : forall (A : Type) (a b x y : list A), length a = length b -> a ++ x = b ++ y -> a = b /\ x = y).
    { clear. intros A a. induction a as [|u a IH]; intros [|v b] x y L E; try discriminate L; cbn in *; [auto|].
      injection E as <- E. destruct (IH b x y ltac:(lia) E) as [-> ->]. auto. }
    destruct (AI _ _ _ _ _ EL E3) as [<- E]. injection E as E. apply app_inv_head in E. injection E as E. apply app_inv_head in E. injection E as <-.
    f_equal. eapply IH; eauto.
Qed.
Theorem C68_the_log_tells_what_was_done_and_when :
  forall srt pw opened1 quiet1 opened2 quiet2 precision tol es1 es2 offset times1 times2 text,
  sort_contract srt -> single_precision tol -> opened1 = true \/ quiet1 = false -> opened2 = true \/ quiet2 = false ->
  let sv1 := run srt (start pw (new_context opened1 precision tol quiet1)) es1 in
  let sv2 := run srt (start pw (new_context opened2 precision tol quiet2)) es2 in
  sv_crash sv1 = None -> sv_crash sv2 = None ->
  length times1 = length (log_of (sv_ctx sv1)) -> length times2 = length (log_of (sv_ctx sv2)) ->
  Forall (fun now => four_digit_time (now + offset)) times1 -> Forall (fun now => four_digit_time (now + offset)) times2 ->
  log_text (fun _ => offset) times1 (log_of (sv_ctx sv1)) = Some text -> log_text (fun _ => offset) times2 (log_of (sv_ctx sv2)) = Some text ->
  log_of (sv_ctx sv1) = log_of (sv_ctx sv2) /\ times1 = times2 /\ same_data (sv_ctx sv1) (sv_ctx sv2).
Proof.
  intros srt pw opened1 quiet1 opened2 quiet2 precision tol es1 es2 offset times1 times2 text K T O1 O2 sv1 sv2 H1 H2 L1 L2 F1 F2 E1 E2.
  destruct (C68_log_text (fun _ => offset) _ _ L1 F1) as (stamps1 & text1 & X1 & S1 & W1 & V1).
  destruct (C68_log_text (fun _ => offset) _ _ L2 F2) as (stamps2 & text2 & X2 & S2 & W2 & V2).
  assert (text1 = text) as -> by congruence. assert (text2 = text) as -> by congruence.
  assert (E := C55_the_log_text_tells_the_records srt pw opened1 precision tol quiet1 es1 srt pw opened2 precision tol quiet2 es2 text K K T T H1 H2 V1 V2).
  fold sv1 sv2 in E. split; [exact E|]. split.
  - rewrite <- E in W2. assert (LL : forall times stamps, Forall2 (fun now st => stamp (now + offset) st) times stamps -> Forall (fun st => length st = 21%nat) stamps).
    { clear. intros times stamps F. induction F as [|now st times stamps S F IH]; constructor; auto. eapply stamp_length; eauto. }
    assert (Q := stamped_same_stamps _ _ _ _ (LL _ _ S1) (LL _ _ S2) W1 W2). subst stamps2. clear - S1 S2. revert times2 S2.
    induction S1 as [|now st times stamps S F IH]; intros times2 S2; inversion S2 as [|now' ? ? ? S' F']; subst; [reflexivity|].
    f_equal; [|auto]. assert (X := stamp_tells _ _ _ S S'). lia.
  - exact (C55_the_log_text_determines_the_data srt pw opened1 quiet1 opened2 quiet2 precision tol es1 es2 text K T O1 O2 H1 H2 V1 V2).
Qed.
(** Two clients (C35), and the log of their statements, written in the last seconds of a February with 29 days, in a zone two hours ahead of UTC. *)
Example C68_ex : let sv := run insertion_sort (start [] (new_context true 3 (to_float (S754_zero false)) true)) two_clients in
  sv_crash sv = None /\ length [1709236797; 1709236798; 1709236799; 1709236800] = length (log_of (sv_ctx sv)) /\
  Forall (fun now => four_digit_time (now + 7200)) [1709236797; 1709236798; 1709236799; 1709236800] /\
  StronglySorted Z.le [1709236797; 1709236798; 1709236799; 1709236800] /\
  log_text (fun _ => 7200) [1709236797; 1709236798; 1709236799; 1709236800] (log_of (sv_ctx sv)) =
  Some (B "[2024-02-29 21:59:57] Integer create: x withValue: 5; -> null" ++ [NEWLINE] ++ B "[2024-02-29 21:59:58] x get; -> 5" ++ [NEWLINE] ++
        B "[2024-02-29 21:59:59] x add: 2; -> null" ++ [NEWLINE] ++ B "[2024-02-29 22:00:00] x get; -> 7" ++ [NEWLINE]).
Proof.
  cbv zeta. split; [vm_compute; reflexivity|]. split; [vm_compute; reflexivity|]. split; [repeat constructor; unfold four_digit_time; lia|].
  split; [repeat constructor; lia|]. vm_compute. reflexivity.
Qed.
Example C68_ex2 : exists st, stamp 951782399 st /\ st = B "[2000-02-28 23:59:59]" /\ stamp 951782400 (B "[2000-02-29 00:00:00]").
Proof.
  assert (K : forall t st, four_digit_time t -> timestamp (fun _ => 0) t = Some st -> stamp t st).
  { intros t st F E. destruct (timestamp_stamp (fun _ => 0) t) as (st' & E' & S); [now rewrite Z.add_0_r|]. rewrite Z.add_0_r in S. congruence. }
  eexists. split; [|split; [reflexivity|]]; apply K; try (unfold four_digit_time; lia); vm_compute; reflexivity.
Qed.
Print Assumptions C68_every_second_has_one_stamp.
Print Assumptions C68_stamps_tell_the_time.
Print Assumptions C68_stamps_are_in_order.
Print Assumptions C68_every_record_is_stamped.
Print Assumptions C68_the_buffer_suffices.
Print Assumptions C68_log_text.
Print Assumptions C68_the_log_is_in_order.
Print Assumptions C68_order_across_clock_changes_refuted.
Print Assumptions C68_the_log_tells_what_was_done_and_when.
