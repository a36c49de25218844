(** Property C55: the text of the log is unambiguous.  Specification: [Spec_Local]; model: [Context], [Server]. *)
From Verif Require Import Bytes StrUtils Grammar Outcome Parser Num Containers Instance Context Server Platform.
From Verif Require Import Lemmas StringLit Proof_Grammar Proof_Parser Proof_Exec WP Proof_Inv Proof_Literal Proof_Receive Proof_Context Proof_Names Api Proof_Local.
From Verif Require Import Props_State Proof_Server Props_Server Props_Local Proof_Log.
From Verif Require Import Spec_Grammar Spec_State Spec_Names Spec_Text Spec_Server Spec_Local.
Open Scope list_scope.

(** A text that begins with a statement begins with one statement only: where it ends can be seen. *)
Theorem C55_statements_end_at_one_place : forall t1 a1 m1 args1 t2 a2 m2 args2 rest1 rest2,
  statement t1 a1 m1 args1 -> statement t2 a2 m2 args2 -> trimmed t1 t1 -> trimmed t2 t2 ->
  t1 ++ rest1 = t2 ++ rest2 -> t1 = t2 /\ rest1 = rest2.
Proof.
  intros t1 a1 m1 args1 t2 a2 m2 args2 rest1 rest2 S1 S2 (? & ? & _ & _ & _ & _ & L1) (? & ? & _ & _ & _ & _ & L2) E.
  eapply statement_cut; [exact S1|exact S2|exact L1|exact L2|exact E].
Qed.
(** A line of the log tells the line that was executed and the answer, although both may contain arrows and quotes and texts that look like
    the other. *)
Theorem C55_a_record_is_unambiguous : forall srt1 pw1 c1 s1 l1 d1 u1 t1 a1 srt2 pw2 c2 s2 l2 d2 u2 t2 a2,
  sort_contract srt1 -> sort_contract srt2 -> reachable_by_lines srt1 pw1 c1 -> reachable_by_lines srt2 pw2 c2 ->
  ~ In NEWLINE l1 -> ~ In NEWLINE l2 -> runs srt1 pw1 c1 s1 l1 d1 u1 a1 -> runs srt2 pw2 c2 s2 l2 d2 u2 a2 -> trimmed l1 t1 -> trimmed l2 t2 ->
  t1 ++ B " -> " ++ a1 = t2 ++ B " -> " ++ a2 -> t1 = t2 /\ a1 = a2.
Proof.
  intros srt1 pw1 c1 s1 l1 d1 u1 t1 a1 srt2 pw2 c2 s2 l2 d2 u2 t2 a2 K1 K2 Q1 Q2 N1 N2 R1 R2 T1 T2 E.
  assert (X := record_unambiguous srt1 pw1 srt2 pw2 (t1, a1) (t2, a2) K1 K2). cbn [fst snd] in X.
  assert (Y : (t1, a1) = (t2, a2)).
  { apply X; [exists l1, c1, s1, d1, u1; auto|exists l2, c2, s2, d2, u2; auto|exact E]. }
  inversion Y; auto.
Qed.
(** Two servers whose log texts are the same have executed the same lines with the same answers. *)
Theorem C55_the_log_text_tells_the_records : forall srt1 pw1 opened1 precision1 tol1 quiet1 es1 srt2 pw2 opened2 precision2 tol2 quiet2 es2 text,
  sort_contract srt1 -> sort_contract srt2 -> single_precision tol1 -> single_precision tol2 ->
  let sv1 := run srt1 (start pw1 (new_context opened1 precision1 tol1 quiet1)) es1 in
  let sv2 := run srt2 (start pw2 (new_context opened2 precision2 tol2 quiet2)) es2 in
  sv_crash sv1 = None -> sv_crash sv2 = None ->
  written (log_of (sv_ctx sv1)) text -> written (log_of (sv_ctx sv2)) text -> log_of (sv_ctx sv1) = log_of (sv_ctx sv2).
Proof.
  intros srt1 pw1 opened1 precision1 tol1 quiet1 es1 srt2 pw2 opened2 precision2 tol2 quiet2 es2 text K1 K2 T1 T2 sv1 sv2 H1 H2 W1 W2.
  assert (G : forall srt pw opened precision tol quiet es, sort_contract srt -> single_precision tol ->
    sv_crash (run srt (start pw (new_context opened precision tol quiet)) es) = None ->
    Forall (record_of srt pw) (log_of (sv_ctx (run srt (start pw (new_context opened precision tol quiet)) es)))).
  { intros srt pw opened precision tol quiet es K T H. destruct (C35_every_schedule_is_serialisable _ _ _ _ H) as (h & X).
    assert (N := fun e => explains_lines _ _ _ _ _ e X). destruct X as (ss & S & _).
    destruct (serial_records _ _ _ _ _ _ _ K (line_start _ _ _ _ _ _ T) S N) as (l & _ & (Lo & Lq & L) & F).
    unfold log_of. rewrite Lo. cbn [new_context log_is_open Context.quiet logfile stdout app] in *. destruct opened; [destruct L as [-> _]; exact F|].
    destruct quiet; destruct L as [_ ->]; [constructor|exact F]. }
  eapply written_unique; [exact K1|exact K2|apply G; auto|apply G; auto|exact W1|exact W2].
Qed.
(** So the text of the log of a server that writes one determines its data. *)
Theorem C55_the_log_text_determines_the_data : forall srt pw opened1 quiet1 opened2 quiet2 precision tol es1 es2 text,
  sort_contract srt -> single_precision tol -> opened1 = true \/ quiet1 = false -> opened2 = true \/ quiet2 = false ->
  let sv1 := run srt (start pw (new_context opened1 precision tol quiet1)) es1 in
  let sv2 := run srt (start pw (new_context opened2 precision tol quiet2)) es2 in
  sv_crash sv1 = None -> sv_crash sv2 = None ->
  written (log_of (sv_ctx sv1)) text -> written (log_of (sv_ctx sv2)) text -> same_data (sv_ctx sv1) (sv_ctx sv2).
Proof.
  intros srt pw opened1 quiet1 opened2 quiet2 precision tol es1 es2 text K T O1 O2 sv1 sv2 H1 H2 W1 W2.
  assert (E := C55_the_log_text_tells_the_records srt pw opened1 precision tol quiet1 es1 srt pw opened2 precision tol quiet2 es2 text K K T T H1 H2 W1 W2).
  fold sv1 sv2 in E.
  assert (G : forall opened quiet es, opened = true \/ quiet = false ->
    let sv := run srt (start pw (new_context opened precision tol quiet)) es in sv_crash sv = None ->
    exists c' t', executes srt pw (new_context true precision tol true) (Some (fresh pw)) (map fst (log_of (sv_ctx sv))) c' t' (map snd (log_of (sv_ctx sv))) /\ same_data (sv_ctx sv) c').
  { intros opened quiet es O sv H.
    destruct (C54_records_reproduce_the_data srt pw (new_context opened precision tol quiet) es K (reach_start _ _ _ _ _ _ T) H) as (h & l & _ & _ & (Lo & Lq & L) & X).
    fold sv in X, Lo, L. assert (El : log_of (sv_ctx sv) = l).
    { unfold log_of. rewrite Lo. cbn [new_context log_is_open Context.quiet logfile stdout app] in *. destruct opened; [now destruct L|].
      destruct quiet; [destruct O; discriminate|now destruct L]. }
    rewrite El. apply X; [now constructor|]. repeat split. }
  destruct (G _ _ _ O1 H1) as (c1 & t1 & E1 & S1). destruct (G _ _ _ O2 H2) as (c2 & t2 & E2 & S2). fold sv1 in E1, S1. fold sv2 in E2, S2.
  rewrite E in E1.
  assert (U : forall ls c s c' s' a c'' s'' a', executes srt pw c s ls c' s' a -> executes srt pw c s ls c'' s'' a' -> c' = c'').
  { induction ls as [|l ls IH]; intros c s c' s' a c'' s'' a' X Y; inversion X; subst; inversion Y; subst; [reflexivity|].
    match goal with A : runs _ _ _ _ l _ _ _, C : runs _ _ _ _ l _ _ _ |- _ => destruct (runs_unique _ _ _ _ _ _ _ _ _ _ _ A C) as (<- & <- & <-) end. eapply IH; eauto. }
  assert (Z := U _ _ _ _ _ _ _ _ _ E1 E2). subst c2.
  destruct S1 as [A1 [A2 A3]], S2 as [A4 [A5 A6]]. split; [intros m; rewrite <- (A4 m); apply A1|]. split; congruence.
Qed.
(** Different records whose texts look much alike, and a log. *)
Definition STAMP : bytes := B "[2024-01-01 00:00:00] ".
Example C55_ex : exists c c', reachable_by_lines insertion_sort [] c /\
  runs insertion_sort [] c None (B "s get;") c' None (B """a -> b""") /\ trimmed (B "s get;") (B "s get;") /\
  written [(B "s get;", B """a -> b""")] (STAMP ++ B "s get; -> ""a -> b""" ++ [NEWLINE]) /\
  statement (B "s get;") (B "s") (B "get") [].
Proof.
  eexists _, _. split.
  { eapply (line_step _ _ (new_context true 3 (to_float (S754_zero false)) true) None (B "String create: s withValue: ""a -> b"";")); [apply not_in_by_bool; reflexivity|constructor; vm_compute; reflexivity|].
    unfold runs. vm_compute. reflexivity. }
  split; [unfold runs; vm_compute; reflexivity|]. split; [|split; [|stmt]].
  - exists [], []. split; [reflexivity|]. split; [constructor|]. split; [constructor|]. split.
    + intros x r E. inversion E; subst. unfold space. cbn. lia.
    + intros r x E. change (B "s get;") with (B "s get" ++ [";"%char]) in E. apply app_inj_tail in E as [_ <-]. unfold space. cbn. lia.
  - apply (written_more STAMP (B "s get;") (B """a -> b""") [] []); [reflexivity|apply not_in_by_bool; reflexivity|constructor].
Qed.

Print Assumptions C55_statements_end_at_one_place.
Print Assumptions C55_a_record_is_unambiguous.
Print Assumptions C55_the_log_text_tells_the_records.
Print Assumptions C55_the_log_text_determines_the_data.
