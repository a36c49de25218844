(** C71: standard output, log files and restarts. *)
From Coq Require Import ZArith Reals Psatz.
From Verif Require Import Bytes StrUtils Grammar Outcome Parser Num Containers Instance Context Clock Server Main Platform Process.
From Verif Require Import Lemmas StringLit Proof_Grammar Proof_Parser Proof_Exec WP Proof_Inv Proof_Literal Proof_Receive Proof_Context Proof_Names Api Proof_Text.
From Verif Require Import Proof_Number Proof_Order Proof_Server Proof_Clock.
From Verif Require Import Props_Text Props_State Props_Number Props_Server Props_Start Props_Local Props_Log Props_Clock.
From Verif Require Import Spec_Grammar Spec_State Spec_Names Spec_Text Spec_Number Spec_Server Spec_Start Spec_Local Spec_Clock Spec_Process.
Import ListNotations.
Open Scope Z_scope.
Open Scope list_scope.

Lemma greeting_banner pid : greeting pid (banner pid).
Proof. exists (to_string pid). split; [apply to_string_prints|]. reflexivity. Qed.
Lemma greeting_unique pid t t' : greeting pid t -> greeting pid t' -> t = t'.
Proof. intros (p & P & ->) (p' & P' & ->). apply prints_int_iff in P, P'. now subst. Qed.
Lemma write_same d n t : write_file d n t n = Some t. Proof. unfold write_file. now rewrite seq_eqb_refl. Qed.
Lemma write_other d n t x : x <> n -> write_file d n t x = d x. Proof. intros H. unfold write_file. apply seq_eqb_neq in H. now rewrite H. Qed.
Lemma keeps_dec sys o : {keeps_log sys o} + {~ keeps_log sys o}.
Proof.
  unfold keeps_log. destruct (o_logfile o) as [|x r]; [right; now intros [H _]|]. destruct (opens sys (x :: r)); [left; split; [discriminate|reflexivity]|right; intros [_ H]; discriminate].
Qed.
Lemma opened_kept sys o d : keeps_log sys o -> opened_disk sys o d = write_file d (o_logfile o) (contents d (o_logfile o)).
Proof. intros [N O]. unfold opened_disk. apply seq_eqb_neq in N. now rewrite N, O. Qed.
Lemma opened_not sys o d : ~ keeps_log sys o -> opened_disk sys o d = d.
Proof.
  intros N. unfold opened_disk. destruct (seq_eqb (o_logfile o) []) eqn:E; auto. destruct (opens sys (o_logfile o)) eqn:O; auto. exfalso. apply N. split; auto.
  now apply seq_eqb_neq.
Qed.

Theorem C71_one_run : forall srt sys zone usage o pid es times d address port sv0,
  main sys (Some o) = Serves address port sv0 -> sv_crash (run srt sv0 es) = None -> timely zone times (sv_ctx (run srt sv0 es)) ->
  exists st h l greet text,
    program srt sys zone usage {| x_command := Some o; x_pid := pid; x_events := es; x_times := times |} d = Some st /\
    st_server st = Some (run srt sv0 es) /\
    explains srt (o_password o) (sv_ctx sv0) es h /\ records h l /\ greeting pid greet /\
    (keeps_log sys o -> recorded zone times l text /\ appended d (o_logfile o) text (st_disk st) /\ st_output st = greet) /\
    (~ keeps_log sys o -> o_quiet o = false -> recorded zone times l text /\ unchanged d (st_disk st) /\ st_output st = greet ++ text) /\
    (~ keeps_log sys o -> o_quiet o = true -> unchanged d (st_disk st) /\ st_output st = greet).
Proof.
  intros srt sys zone usage o pid es times d address port sv0 M NC [TL TF]. assert (S := proj1 (C50_start _ _ _ _ _) M). destruct S as (_ & _ & _ & _ & E & S).
  destruct S. unfold program. cbn [x_command x_pid x_events x_times]. rewrite M. rewrite E in NC, TL |- *.
  destruct (C37_the_log_is_the_history srt (o_password o) (sv_ctx sv0) es NC) as (h & l & X & R & L).
  set (sv := run srt (start (o_password o) (sv_ctx sv0)) es) in *. destruct L as (Lo & Lq & L). destruct sw_nothing_logged as [N1 N2]. rewrite N1, N2 in L. rewrite sw_quiet in L.
  cbn [app] in L. destruct (keeps_dec sys o) as [K|K].
  - assert (O : log_is_open (sv_ctx sv0) = true) by (apply sw_log; exact K). rewrite O in L, Lo. destruct L as [L1 L2]. unfold log_of in TL. rewrite Lo, L1 in TL.
    destruct (C68_log_text zone times l TL TF) as (stamps & text & E1 & S1 & W1 & _).
    rewrite L1, L2, E1, Lo. assert (E2 : log_text zone times [] = Some []) by (destruct times; reflexivity). rewrite E2.
    eexists _, h, l, (banner pid), text. split; [reflexivity|]. cbn [st_server st_disk st_output]. rewrite app_nil_r. split; [reflexivity|]. split; [exact X|]. split; [exact R|]. split; [apply greeting_banner|].
    split; [|split; intros NK; contradiction]. intros _. split; [exists stamps; auto|]. split; [|reflexivity]. rewrite (opened_kept _ _ _ K). split.
    + rewrite write_same. f_equal. unfold contents at 1. rewrite write_same. reflexivity.
    + intros x Hx. now rewrite !write_other by exact Hx.
  - assert (O : log_is_open (sv_ctx sv0) = false). { destruct (log_is_open (sv_ctx sv0)) eqn:O; auto. exfalso. apply K. now apply sw_log. }
    rewrite O in L, Lo. rewrite Lo. assert (E2 : log_text zone times [] = Some []) by (destruct times; reflexivity). destruct (o_quiet o) eqn:Q; destruct L as [L1 L2].
    + rewrite L1, L2, E2. eexists _, h, l, (banner pid), []. split; [reflexivity|]. cbn [st_server st_disk st_output]. rewrite app_nil_r. split; [reflexivity|]. split; [exact X|]. split; [exact R|]. split; [apply greeting_banner|].
      split; [intros; contradiction|]. split; [intros _ H; discriminate|]. intros _ _. split; [|reflexivity]. rewrite (opened_not _ _ _ K). intros x. reflexivity.
    + unfold log_of in TL. rewrite Lo, L2 in TL. destruct (C68_log_text zone times l TL TF) as (stamps & text & E1 & S1 & W1 & _). rewrite L1, L2, E1, E2.
      eexists _, h, l, (banner pid), text. split; [reflexivity|]. cbn [st_server st_disk st_output]. split; [reflexivity|]. split; [exact X|]. split; [exact R|]. split; [apply greeting_banner|].
      split; [intros; contradiction|]. split; [|intros _ H; discriminate]. intros _ _. split; [exists stamps; auto|]. split; [|reflexivity]. rewrite (opened_not _ _ _ K). intros x. reflexivity.
Qed.

(** *** Runs without a server *)
Theorem C71_no_server : forall srt sys zone usage x d st, program srt sys zone usage x d = Some st -> st_server st = None ->
  match x_command x with
  | None => unchanged d (st_disk st) /\ st_output st = []
  | Some o =>
      if o_help o then unchanged d (st_disk st) /\ st_output st = usage ++ [NEWLINE]
      else match o_port o with
           | None => unchanged d (st_disk st) /\ st_output st = []
           | Some _ => greeting (x_pid x) (st_output st) /\
               (keeps_log sys o -> appended d (o_logfile o) [] (st_disk st)) /\ (~ keeps_log sys o -> unchanged d (st_disk st))
           end
  end.
Proof.
  intros srt sys zone usage [cmd pid es times] d st P N. unfold program in P. cbn [x_command x_pid x_events x_times] in *.
  destruct cmd as [o|]; [|injection P as <-; now split]. cbn [main] in P. destruct (o_help o); [injection P as <-; now split|].
  destruct (o_port o) as [p|]; [|injection P as <-; now split]. destruct (listens _ _ _).
  - destruct (log_text _ _ _); [|discriminate P]. destruct (log_text _ _ _); [|discriminate P]. injection P as <-. discriminate N.
  - injection P as <-. cbn [st_disk st_output]. split; [apply greeting_banner|]. split; intros K.
    + rewrite (opened_kept _ _ _ K). split; [rewrite write_same, app_nil_r; reflexivity|]. intros. now apply write_other.
    + rewrite (opened_not _ _ _ K). intros y. reflexivity.
Qed.

(** *** Files only grow *)
Lemma served srt sys zone usage o pid es times d st sv : program srt sys zone usage {| x_command := Some o; x_pid := pid; x_events := es; x_times := times |} d = Some st ->
  st_server st = Some sv -> exists address port sv0 file out, main sys (Some o) = Serves address port sv0 /\ sv = run srt sv0 es /\
    log_text zone times (logfile (sv_ctx sv)) = Some file /\ log_text zone times (stdout (sv_ctx sv)) = Some out /\
    st_output st = banner pid ++ out /\ st_disk st = (let d' := opened_disk sys o d in
      if log_is_open (sv_ctx sv) then write_file d' (o_logfile o) (contents d' (o_logfile o) ++ file) else d').
Proof.
  intros P S. unfold program in P. cbn [x_command x_pid x_events x_times] in *. destruct (main sys (Some o)) as [code| |address port sv0] eqn:M; try (injection P as <-; discriminate S).
  destruct (log_text zone times (logfile _)) as [file|] eqn:E1; [|discriminate P]. destruct (log_text zone times (stdout _)) as [out|] eqn:E2; [|discriminate P].
  injection P as <-. cbn [st_server] in S. injection S as <-. exists address, port, sv0, file, out. repeat split; auto.
Qed.
Lemma grows_refl d name : begins_with (text_in d name) (text_in d name). Proof. exists []. now rewrite app_nil_r. Qed.
Lemma opened_text sys o d name : text_in (opened_disk sys o d) name = text_in d name /\ (name <> o_logfile o -> opened_disk sys o d name = d name).
Proof.
  unfold opened_disk. destruct (seq_eqb _ _); auto. destruct (opens _ _); auto. split; [|apply write_other].
  unfold text_in, write_file. destruct (seq_eqb name (o_logfile o)) eqn:E; auto. apply seq_eqb_eq in E. now subst.
Qed.
Lemma program_grows srt sys zone usage x d st : program srt sys zone usage x d = Some st ->
  forall name, begins_with (text_in (st_disk st) name) (text_in d name) /\ (~ logs_to x name -> st_disk st name = d name).
Proof.
  intros P name. destruct x as [cmd pid es times]. unfold logs_to. cbn [x_command].
  assert (O : forall o, cmd = Some o -> ~ (exists o, cmd = Some o /\ o_logfile o = name) -> name <> o_logfile o) by (intros o -> H ->; apply H; eauto).
  destruct (st_server st) as [sv|] eqn:S.
  - destruct cmd as [o|]; [|unfold program in P; cbn in P; injection P as <-; discriminate S].
    destruct (served _ _ _ _ _ _ _ _ _ _ _ P S) as (a & p & sv0 & file & out & _ & _ & _ & _ & _ & ->). cbv zeta. destruct (opened_text sys o d name) as [T N].
    destruct (log_is_open (sv_ctx sv)).
    + split; [|intros H; rewrite write_other by (now apply O); now apply N, O]. unfold text_in at 1, write_file. destruct (seq_eqb name (o_logfile o)) eqn:Q.
      * apply seq_eqb_eq in Q. subst name. exists file. f_equal. rewrite <- T. reflexivity.
      * exists []. rewrite app_nil_r, <- T. reflexivity.
    + split; [rewrite T; apply grows_refl|]. intros H. now apply N, O.
  - assert (X := C71_no_server _ _ _ _ _ _ _ P S). cbn [x_command x_pid] in X. destruct cmd as [o|].
    + destruct (o_help o).
      * destruct X as [U _]. split; [unfold text_in at 1; rewrite U; apply grows_refl|intros _; apply U].
      * destruct (o_port o); [|destruct X as [U _]; split; [unfold text_in at 1; rewrite U; apply grows_refl|intros _; apply U]].
        destruct X as (_ & X1 & X2). destruct (keeps_dec sys o) as [K|K].
        -- destruct (X1 K) as [A B]. rewrite app_nil_r in A. split; [|intros H; now apply B, O]. exists []. rewrite app_nil_r. unfold text_in.
           destruct (bytes_dec name (o_logfile o)) as [->|Nn]; [now rewrite A|now rewrite (B _ Nn)].
        -- split; [unfold text_in at 1; rewrite (X2 K); apply grows_refl|intros _; apply (X2 K)].
    + destruct X as [U _]. split; [unfold text_in at 1; rewrite U; apply grows_refl|intros _; apply U].
Qed.
Theorem C71_files_only_grow : forall srt sys zone usage xs d d', successive srt sys zone usage xs d d' ->
  forall name, begins_with (text_in d' name) (text_in d name) /\ ((forall x, In x xs -> ~ logs_to x name) -> d' name = d name).
Proof.
  intros srt sys zone usage xs d d' S name. induction S as [d|x xs d st d' P D S [[r IH1] IH2]]; [split; [apply grows_refl|reflexivity]|].
  destruct (program_grows _ _ _ _ _ _ _ P name) as [[q G] N]. split; [exists (q ++ r); rewrite IH1, G, app_assoc; reflexivity|].
  intros H. rewrite IH2 by (intros; apply H; now right). apply N, H. now left.
Qed.
(** *** Nothing that is written is lost *)
Lemma step_logs srt sv e : exists l, logs (sv_ctx sv) l (sv_ctx (step srt sv e)).
Proof.
  assert (K : (forall sid k, e <> Handle sid k) \/ exists sid k, e = Handle sid k) by (destruct e; eauto; left; intros; discriminate).
  destruct K as [K|(sid & k & ->)]; [exists []; rewrite (proj1 (step_ctx srt sv e K)); apply logs_refl|].
  unfold step. assert (N : exists l, logs (sv_ctx sv) l (sv_ctx sv)) by (exists []; apply logs_refl).
  destruct (sv_crash sv); auto. destruct (nth_error _ _) as [cn|]; auto. destruct (c_phase cn); auto. destruct (has_newline _); auto. unfold handle.
  destruct (handle_line_spec srt (sv_password sv) (fst (getline (c_streambuf cn))) (sv_ctx sv) (c_session cn)) as [(u & -> & _)|(c' & s' & o & -> & P)]; auto.
  assert (L : exists l, logs (sv_ctx sv) l c').
  { inversion P as [| |]; subst; [exists []; apply logs_refl|..];
      match goal with R : runs _ _ _ _ _ _ _ _ |- _ => destruct (runs_logs _ _ _ _ _ _ _ _ R) as (t & _ & L); eauto end. }
  match goal with |- context [match ?w with Some _ => _ | None => _ end] => destruct w as [r|] end; [|exact L]. destruct (do_write r k); auto.
Qed.
Lemma run_logs srt es : forall sv, exists l, logs (sv_ctx sv) l (sv_ctx (run srt sv es)).
Proof.
  induction es as [|e es IH]; intros sv; [exists []; apply logs_refl|]. destruct (step_logs srt sv e) as [l L], (IH (step srt sv e)) as [l' L'].
  exists (l ++ l'). eapply logs_trans; eauto.
Qed.
Lemma log_text_more zone t1 : forall t2 l1 l2 a b, length t1 = length l1 -> log_text zone t1 l1 = Some a -> log_text zone (t1 ++ t2) (l1 ++ l2) = Some b -> begins_with b a.
Proof.
  induction t1 as [|t t1 IH]; intros t2 [|r l1] l2 a b L A B; try discriminate L; cbn [log_text app] in *.
  - injection A as <-. now exists b.
  - destruct (log_record zone t r) as [x|]; [|discriminate A]. destruct (log_text zone t1 l1) as [y|] eqn:Ey; [|discriminate A]. injection A as <-.
    destruct (log_text zone (t1 ++ t2) (l1 ++ l2)) as [z|] eqn:Ez; [|discriminate B]. injection B as <-. injection L as L.
    destruct (IH _ _ _ _ _ L Ey Ez) as [q ->]. exists q. now rewrite app_assoc.
Qed.
Theorem C71_nothing_written_is_lost : forall srt sys zone usage o pid es1 es2 times1 times2 d st1 st2 sv1,
  program srt sys zone usage {| x_command := Some o; x_pid := pid; x_events := es1; x_times := times1 |} d = Some st1 ->
  program srt sys zone usage {| x_command := Some o; x_pid := pid; x_events := es1 ++ es2; x_times := times1 ++ times2 |} d = Some st2 ->
  st_server st1 = Some sv1 -> timely zone times1 (sv_ctx sv1) -> defined st2 ->
  begins_with (st_output st2) (st_output st1) /\ forall name, begins_with (text_in (st_disk st2) name) (text_in (st_disk st1) name).
Proof.
  intros srt sys zone usage o pid es1 es2 times1 times2 d st1 st2 sv1 P1 P2 S1 [TL _] _.
  destruct (served _ _ _ _ _ _ _ _ _ _ _ P1 S1) as (a & p & sv0 & f1 & o1 & M & E1 & F1 & O1 & W1 & D1).
  assert (S2 : st_server st2 = Some (run srt sv1 es2)).
  { unfold program in P2. cbn [x_command x_pid x_events x_times] in P2. rewrite M, run_app, <- E1 in P2. destruct (log_text _ _ _); [|discriminate P2]. destruct (log_text _ _ _); [|discriminate P2].
    now injection P2 as <-. }
  destruct (served _ _ _ _ _ _ _ _ _ _ _ P2 S2) as (a' & p' & sv0' & f2 & o2 & _ & _ & F2 & O2 & W2 & D2).
  destruct (run_logs srt es2 sv1) as (l & Lo & Lq & L). rewrite W1, W2, D1, D2, Lo. cbv zeta. unfold log_of in TL.
  assert (T0 : forall times, log_text zone times [] = Some []) by (intros []; reflexivity).
  assert (C0 : logfile (sv_ctx sv1) = [] /\ logfile (sv_ctx (run srt sv1 es2)) = [] \/ log_is_open (sv_ctx sv1) = true).
  { destruct (log_is_open (sv_ctx sv1)) eqn:Op; auto. left. assert (S := proj1 (C50_start _ _ _ _ _) M). destruct S as (_ & _ & _ & _ & _ & S). destruct S. destruct sw_nothing_logged as [N1 _].
    destruct (run_logs srt es1 sv0) as (l0 & A & B & C). rewrite <- E1, N1 in *. rewrite Op in A. rewrite <- A in C. destruct (quiet (sv_ctx sv0)), (quiet (sv_ctx sv1)); destruct C as [C _], L as [L' _]; rewrite C in *; auto. }
  destruct (log_is_open (sv_ctx sv1)) eqn:Op.
  - destruct L as [L1 L2]. rewrite L1 in F2. rewrite L2 in O2.
    assert (Z : stdout (sv_ctx sv1) = []).
    { assert (S := proj1 (C50_start _ _ _ _ _) M). destruct S as (_ & _ & _ & _ & _ & S). destruct S. destruct sw_nothing_logged as [_ N2].
      destruct (run_logs srt es1 sv0) as (l0 & A & _ & C). rewrite <- E1 in *. rewrite Op in A. rewrite <- A in C. destruct C as [_ C]. now rewrite C. }
    rewrite Z, T0 in O1, O2. injection O1 as <-. injection O2 as <-. split; [exists []; now rewrite !app_nil_r|].
    destruct (log_text_more _ _ _ _ _ _ _ TL F1 F2) as [q ->]. intros name. unfold text_in, write_file. destruct (seq_eqb name (o_logfile o)).
    + exists q. now rewrite app_assoc.
    + exists []. now rewrite app_nil_r.
  - destruct C0 as [[Z1 Z2]|]; [|discriminate]. rewrite Z1, T0 in F1. rewrite Z2, T0 in F2. split; [|intros; apply grows_refl].
    assert (Q : exists l', stdout (sv_ctx (run srt sv1 es2)) = stdout (sv_ctx sv1) ++ l').
    { destruct (quiet (sv_ctx sv1)); destruct L as [_ L]; [exists []; now rewrite app_nil_r|now exists l]. }
    destruct Q as [l' Q]. rewrite Q in O2. destruct (log_text_more _ _ _ _ _ _ _ TL O1 O2) as [q ->]. exists q. now rewrite app_assoc.
Qed.

(** *** Restarts *)
Lemma server_context sys o address port sv0 : main sys (Some o) = Serves address port sv0 ->
  exists opened, sv0 = start (o_password o) (new_context opened (o_precision o) (o_tolerance o) (o_quiet o)) /\ (opened = true <-> keeps_log sys o).
Proof.
  intros M. apply C50_start in M as (_ & _ & _ & _ & E & S). destruct S. exists (log_is_open (sv_ctx sv0)). split; [|exact sw_log]. rewrite E at 1. f_equal.
  assert (X := fun n => sw_no_variables n). clear E. unfold new_context. destruct (sv_ctx sv0) as [i fp tl lo qu lf so]. cbn in *. destruct sw_nothing_logged as [-> ->]. subst. f_equal.
  destruct i as [|[k v] i]; auto. specialize (X k). unfold lookup in X. cbn in X. rewrite ?seq_eqb_refl in X. destruct (bytes_dec k k); discriminate || congruence.
Qed.
(** A new run begins with no variables, whatever is in the log file; as long as no line is executed nothing is written to it. *)
Theorem C71_a_restart_forgets : forall srt sys zone usage o pid d address port sv0,
  main sys (Some o) = Serves address port sv0 ->
  exists st, program srt sys zone usage {| x_command := Some o; x_pid := pid; x_events := []; x_times := [] |} d = Some st /\
    st_server st = Some sv0 /\ (forall n, lookup (sv_ctx sv0) n = None) /\ forall name, text_in (st_disk st) name = text_in d name.
Proof.
  intros srt sys zone usage o pid d address port sv0 M. assert (S := proj1 (C50_start _ _ _ _ _) M). destruct S as (_ & _ & _ & _ & _ & S). destruct S.
  assert (T : timely zone [] (sv_ctx (run srt sv0 []))).
  { split; [|constructor]. cbn [run fold_left]. unfold log_of. destruct sw_nothing_logged as [N1 N2]. rewrite N1, N2. now destruct (log_is_open _). }
  destruct (C71_one_run srt sys zone usage o pid [] [] d address port sv0 M sw_no_crash T) as (st & h & l & g & text & P & Sv & _ & _ & _ & K1 & K2 & K3).
  exists st. split; [exact P|]. split; [exact Sv|]. split; [exact sw_no_variables|]. intros name.
  destruct (keeps_dec sys o) as [K|K].
  - destruct (K1 K) as ((stamps & F & W) & [A B] & _). inversion F; subst. inversion W; subst. rewrite app_nil_r in A.
    unfold text_in. destruct (bytes_dec name (o_logfile o)) as [->|N]; [now rewrite A|now rewrite (B _ N)].
  - destruct (o_quiet o); [destruct (K3 K eq_refl) as [U _]|destruct (K2 K eq_refl) as (_ & U & _)]; unfold text_in; now rewrite U.
Qed.
(** What a run adds to the file determines its data. *)
Theorem C71_what_a_run_adds_determines_its_data : forall srt sys zone usage o pid1 pid2 es1 es2 times1 times2 d1 d2 st1 st2 sv1 sv2 old text,
  sort_contract srt -> single_precision (o_tolerance o) -> keeps_log sys o ->
  program srt sys zone usage {| x_command := Some o; x_pid := pid1; x_events := es1; x_times := times1 |} d1 = Some st1 ->
  program srt sys zone usage {| x_command := Some o; x_pid := pid2; x_events := es2; x_times := times2 |} d2 = Some st2 ->
  st_server st1 = Some sv1 -> st_server st2 = Some sv2 -> defined st1 -> defined st2 -> timely zone times1 (sv_ctx sv1) -> timely zone times2 (sv_ctx sv2) ->
  text_in d1 (o_logfile o) = old -> text_in d2 (o_logfile o) = old ->
  text_in (st_disk st1) (o_logfile o) = old ++ text -> text_in (st_disk st2) (o_logfile o) = old ++ text -> same_data (sv_ctx sv1) (sv_ctx sv2).
Proof.
  intros srt sys zone usage o pid1 pid2 es1 es2 times1 times2 d1 d2 st1 st2 sv1 sv2 old text H1 V K P1 P2 S1 S2 D1 D2 T1 T2 O1 O2 X1 X2.
  assert (Step : forall pid es times d st sv, program srt sys zone usage {| x_command := Some o; x_pid := pid; x_events := es; x_times := times |} d = Some st ->
    st_server st = Some sv -> defined st -> timely zone times (sv_ctx sv) -> text_in d (o_logfile o) = old -> text_in (st_disk st) (o_logfile o) = old ++ text ->
    sv = run srt (start (o_password o) (new_context true (o_precision o) (o_tolerance o) (o_quiet o))) es /\ sv_crash sv = None /\ written (log_of (sv_ctx sv)) text).
  { clear - K. intros pid es times d st sv P S D T O X. destruct (served _ _ _ _ _ _ _ _ _ _ _ P S) as (a & p & sv0 & f & ou & M & E & _).
    destruct (server_context _ _ _ _ _ M) as (opened & E0 & Ko). assert (opened = true) by (now apply Ko). subst opened. assert (C := D _ S).
    split; [now rewrite E, E0|]. split; [exact C|]. rewrite E in C, T |- *.
    destruct (C68_log_text zone times (log_of (sv_ctx (run srt sv0 es))) (proj1 T) (proj2 T)) as (stamps & text' & Et & _ & _ & W).
    replace text with text'; [exact W|]. destruct (served _ _ _ _ _ _ _ _ _ _ _ P S) as (a2 & p2 & sv2 & f2 & ou2 & M2 & E2 & F2 & _ & _ & Dk).
    assert (Lo : log_is_open (sv_ctx sv) = true). { destruct (run_logs srt es sv0) as (l & Lo & _). rewrite E, Lo, E0. reflexivity. }
    rewrite Dk in X. cbv zeta in X. rewrite Lo in X. unfold text_in in X. rewrite write_same in X.
    assert (Q : contents (opened_disk sys o d) (o_logfile o) = old) by (rewrite <- O; exact (proj1 (opened_text sys o d (o_logfile o)))).
    rewrite Q in X. apply app_inv_head in X. subst f2. unfold log_of in Et. rewrite <- E in Et. rewrite Lo, F2 in Et. now injection Et. }
  destruct (Step _ _ _ _ _ _ P1 S1 D1 T1 O1 X1) as (E1 & C1 & W1), (Step _ _ _ _ _ _ P2 S2 D2 T2 O2 X2) as (E2 & C2 & W2). rewrite E1 in C1, W1 |- *. rewrite E2 in C2, W2 |- *.
  eapply C55_the_log_text_determines_the_data; eauto.
Qed.

(** *** The password is in the log *)
Lemma records_in h l e : records h l -> In e h -> e_outcome e <> Refused -> exists t ans, In (t, ans) l /\ trimmed (e_line e) t.
Proof.
  induction 1 as [|x h l R IH Rf|x h l t ans R IH A T]; intros I N; [destruct I| |]; apply in_app_or in I as [I|[->|[]]].
  - auto.
  - contradiction.
  - destruct (IH I N) as (t' & a' & I' & T'). exists t', a'. split; auto. apply in_or_app. now left.
  - exists t, ans. split; auto. apply in_or_app. right. now left.
Qed.
Lemma serial_not_refused srt pw c ss h c' ss' e : serial srt pw c ss h c' ss' -> In e h -> connection_line (e_line e) -> e_outcome e <> Refused.
Proof.
  induction 1 as [|h c1 ss1 sid line c2 s2 o S IH P]; intros I C; [destruct I|]. apply in_app_or in I as [I|[<-|[]]]; [auto|]. cbn [e_outcome e_line] in *.
  destruct P; try discriminate. contradiction.
Qed.
Lemma stamped_in stamps l text t ans : stamped stamps l text -> In (t, ans) l -> exists u v, text = u ++ t ++ v.
Proof.
  induction 1 as [|st sts line a l text S IH]; intros I; [destruct I|]. destruct I as [E|I].
  - injection E as -> ->. exists (st ++ B " "), (B " -> " ++ ans ++ [NEWLINE] ++ text). now rewrite <- app_assoc.
  - destruct (IH I) as (u & v & ->). exists (st ++ B " " ++ line ++ B " -> " ++ a ++ [NEWLINE] ++ u), v. now rewrite <- !app_assoc.
Qed.
Theorem C71_the_log_file_holds_the_password : forall srt sys zone usage o pid es times d st sv sid cn, keeps_log sys o ->
  program srt sys zone usage {| x_command := Some o; x_pid := pid; x_events := es; x_times := times |} d = Some st ->
  st_server st = Some sv -> defined st -> timely zone times (sv_ctx sv) -> o_password o <> [] ->
  nth_error (sv_conns sv) sid = Some cn -> is_authenticated (c_session cn) = true ->
  exists line u v, password_line (o_password o) line /\ text_in (st_disk st) (o_logfile o) = u ++ line ++ v.
Proof.
  intros srt sys zone usage o pid es times d st sv sid cn K P Sv D T Np Hn A.
  destruct (served _ _ _ _ _ _ _ _ _ _ _ P Sv) as (ad & po & sv0 & f & ou & M & E & _). assert (C := D _ Sv). rewrite E in C, T.
  destruct (C71_one_run srt sys zone usage o pid es times d ad po sv0 M C T) as (st' & h & l & g & text & P' & _ & X & R & _ & K1 & _).
  rewrite P in P'. injection P' as <-. destruct (K1 K) as ((stamps & _ & W) & [Ap _] & _).
  assert (S0 := proj1 (C50_start _ _ _ _ _) M). destruct S0 as (_ & _ & _ & _ & E0 & _).
  destruct X as (ss & S & _ & Co). rewrite E, E0 in Hn. destruct (Co _ _ Hn) as [Ts _].
  assert (Z := serial_trace _ _ _ _ _ _ _ sid S). cbn beta in Z. rewrite <- Ts in Z.
  destruct (trace_authenticated _ _ _ _ _ Z A) as [F|(e & a & He & Hs & Hd)].
  - exfalso. unfold fresh in F. cbn in F. destruct (bytes_dec (o_password o) []); [auto|discriminate].
  - unfold entries_of in He. apply filter_In in He as [He _].
    assert (Cl : connection_line (e_line e)) by (exists (B "authenticateWithPassword:"), [a]; exact Hs).
    destruct (records_in _ _ _ R He (serial_not_refused _ _ _ _ _ _ _ _ S He Cl)) as (t & ans & It & Tt).
    destruct (stamped_in _ _ _ _ _ W It) as (u & v & ->). exists t, (text_in d (o_logfile o) ++ u), v. split.
    + exists a. split; [now apply (C52_surrounding_space _ _ Tt)|exact Hd].
    + unfold text_in at 1. rewrite Ap. rewrite <- app_assoc. reflexivity.
Qed.

(** A server with a password and a log file; one client; two runs. *)
Definition demo_system : system := {| opens := fun _ => true; listens := fun _ _ => true |}.
Definition demo_options : options :=
  {| o_help := false; o_quiet := true; o_bind := B "0.0.0.0"; o_port := Some 7000; o_password := B "pw"; o_logfile := B "k.log"; o_precision := 3; o_tolerance := S754_zero false |}.
Definition demo_run : execution :=
  {| x_command := Some demo_options; x_pid := 42;
     x_events := [Accept] ++ talk 0 (B "Connection authenticateWithPassword: ""pw"";") ++ talk 0 (B "Integer create: x withValue: 5;");
     x_times := [1709236797; 1709236798] |}.
Definition demo_restart : execution := {| x_command := Some demo_options; x_pid := 43; x_events := []; x_times := [] |}.
(** The log file does not tell the data when the server has been started more than once: here the second run leaves the file as it is. *)
Lemma some_server (a b : server) : Some a = Some b -> a = b.
Proof. congruence. Qed.
Theorem C71_the_whole_log_determines_the_data_refuted : exists srt sys zone usage o x1 x2 d st1 st2 sv1 sv2,
  sort_contract srt /\ keeps_log sys o /\ x_command x1 = Some o /\ x_command x2 = Some o /\
  program srt sys zone usage x1 d = Some st1 /\ program srt sys zone usage x2 (st_disk st1) = Some st2 /\ st_server st1 = Some sv1 /\ st_server st2 = Some sv2 /\
  defined st1 /\ defined st2 /\ timely zone (x_times x1) (sv_ctx sv1) /\ timely zone (x_times x2) (sv_ctx sv2) /\
  (forall name, text_in (st_disk st2) name = text_in (st_disk st1) name) /\ ~ same_data (sv_ctx sv1) (sv_ctx sv2).
Proof.
  assert (M : exists sv0, main demo_system (Some demo_options) = Serves (B "0.0.0.0") 7000 sv0) by (eexists; vm_compute; reflexivity). destruct M as [sv0 M].
  set (es := x_events demo_run). set (sv1 := run insertion_sort sv0 es).
  assert (Esv : sv0 = start (B "pw") (new_context true 3 (S754_zero false) true)). { vm_compute in M. injection M as <-. reflexivity. }
  assert (C : sv_crash sv1 = None) by (unfold sv1, es; rewrite Esv; vm_compute; reflexivity).
  assert (T : timely (fun _ => 0) (x_times demo_run) (sv_ctx sv1)).
  { split; [unfold sv1, es; rewrite Esv; vm_compute; reflexivity|]. repeat constructor; unfold four_digit_time; lia. }
  destruct (C71_one_run insertion_sort demo_system (fun _ => 0) [] demo_options 42 es (x_times demo_run) (fun _ => None) _ _ sv0 M C T) as (st1 & _ & _ & _ & _ & P1 & S1 & _).
  destruct (C71_a_restart_forgets insertion_sort demo_system (fun _ => 0) [] demo_options 43 (st_disk st1) _ _ sv0 M) as (st2 & P2 & S2 & N2 & F2).
  exists insertion_sort, demo_system, (fun _ => 0), [], demo_options, demo_run, demo_restart, (fun _ => None), st1, st2, sv1, sv0.
  split; [exact insertion_sort_contract|]. split; [split; [discriminate|reflexivity]|]. split; [reflexivity|]. split; [reflexivity|]. split; [exact P1|]. split; [exact P2|].
  split; [exact S1|]. split; [exact S2|]. split; [intros sv E; assert (Q2 := some_server _ _ (eq_trans (eq_sym S1) E)); rewrite <- Q2; exact C|].
  split; [intros sv E; assert (Q2 := some_server _ _ (eq_trans (eq_sym S2) E)); rewrite <- Q2, Esv; reflexivity|].
  split; [exact T|]. split; [split; [rewrite Esv; reflexivity|constructor]|]. split; [exact F2|].
  intros [L _]. specialize (L (B "x")). rewrite N2 in L. unfold sv1, es in L. rewrite Esv in L. vm_compute in L. discriminate L.
Qed.
Example C71_ex : exists st, program insertion_sort demo_system (fun _ => 7200) [] demo_run (fun _ => Some (B "old")) = Some st /\ defined st /\
  st_output st = B "Running Knuckleball 0.1.0" ++ [NEWLINE] ++ B "PID: 42" ++ [NEWLINE] ++ [NEWLINE] /\
  text_in (st_disk st) (B "k.log") = B "old" ++ B "[2024-02-29 21:59:57] Connection authenticateWithPassword: ""pw""; -> null" ++ [NEWLINE] ++
    B "[2024-02-29 21:59:58] Integer create: x withValue: 5; -> null" ++ [NEWLINE] /\
  exists sv cn, st_server st = Some sv /\ nth_error (sv_conns sv) 0 = Some cn /\ is_authenticated (c_session cn) = true /\ timely (fun _ => 7200) (x_times demo_run) (sv_ctx sv).
Proof.
  eexists. split; [vm_compute; reflexivity|]. split; [intros sv E; injection E as <-; reflexivity|]. split; [vm_compute; reflexivity|]. split; [vm_compute; reflexivity|].
  eexists _, _. split; [reflexivity|]. split; [reflexivity|]. split; [reflexivity|]. split; [reflexivity|]. repeat constructor; unfold four_digit_time; lia.
Qed.
Print Assumptions C71_one_run.
Print Assumptions C71_files_only_grow.
Print Assumptions C71_nothing_written_is_lost.
Print Assumptions C71_a_restart_forgets.
Print Assumptions C71_what_a_run_adds_determines_its_data.
Print Assumptions C71_the_log_file_holds_the_password.
Print Assumptions C71_the_whole_log_determines_the_data_refuted.
