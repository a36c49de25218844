(** C88: the server is exactly what the specification says. *)
From Coq Require Import String List Ascii ZArith Lia Sorting.Sorted Classical.
From Verif Require Import Bytes StrUtils Outcome Num Instance Context Server Platform.
From Verif Require Import Spec_Grammar Spec_State Spec_Names Spec_Text Spec_Number Spec_Float Spec_Literal Spec_Order Spec_Vector Spec_String Spec_Set Spec_Object Spec_Server Spec_Manual.
From Verif Require Import Proof_Grammar Proof_Parser Proof_Exec Proof_Literal Proof_Names Proof_Context Proof_Set Proof_Server Proof_Number Proof_Order.
From Verif Require Import Props_State Props_Set Props_Server Props_Clients Props_Whole Props_Errors Props_Undefined Props_Possible Props_Observe Props_Length.
From Verif Require Import Spec_Number Spec_Whole Spec_Errors Spec_Undefined Spec_Possible Spec_Described.
Import ListNotations.
Open Scope list_scope.

(** *** The specification speaks about the data only *)
Lemma same_sym c d : same_data c d -> same_data d c.
Proof. intros (L & P & T). repeat split; auto. Qed.
Lemma same_trans a b c : same_data a b -> same_data b c -> same_data a c.
Proof. intros (L & P & T) (L' & P' & T'). repeat split; congruence. Qed.
Lemma live_same c d n : same_data c d -> live d n <-> live c n.
Proof. intros (L & _). unfold live. now rewrite L. Qed.
Lemma only_changes_same c d c' n i : same_data c d -> only_changes c c' n i -> only_changes d c' n i.
Proof.
  intros (L & P & T) (L1 & O & P1 & T1). split; auto. split; [intros x N; rewrite L; auto|]. unfold same_settings. now rewrite P, T.
Qed.
Lemma effect_same pw c d s a m args c' s' ans : same_data c d -> effect pw c s a m args c' s' ans -> effect pw d s a m args c' s' ans.
Proof.
  intros D H. assert (D' := D). destruct D' as (L & P & T). assert (LV := fun n => live_same c d n D).
  assert (SD : forall x, same_data c x -> same_data d x) by (intros x X; exact (same_trans _ _ _ (same_sym _ _ D) X)).
  destruct H as [n m args i i' ans c' Hl ME O|t m args n i c' Hc Hn O|t m args n i c' Hc Hn Hm O|names c' I W O|names c' I W O|ns names c' Hn I W O|n c' Hn O|ns c' Hn O H1 H2|c' ans Hp O|a z c' Hi Hz O H1 H2|c' ans Hp O|a f c' Hf Hb O H1 H2|z c' Hs O|a z c' Hs Hd O].
  - apply (eff_message pw d s n m args i i' ans c'); [now rewrite L|now rewrite P, T|now apply (only_changes_same c d)].
  - apply (eff_create pw d s t m args n i c'); auto; [now rewrite LV|now apply (only_changes_same c d)].
  - apply (eff_exists pw d s t m args n i c'); auto. now apply LV.
  - apply eff_listVariables; auto. intros n. now rewrite LV.
  - apply eff_listNamespaces; auto. intros ns. rewrite W. split; intros [i Hi]; exists i; apply (live_same c d _ D); auto.
  - apply eff_listVariablesOf; auto. intros n. now rewrite LV.
  - apply eff_delete; [now apply LV|now apply (only_changes_same c d)].
  - apply eff_deleteOf; auto; [unfold same_settings in *; now rewrite P, T|]. intros n X. rewrite L. auto.
  - apply eff_getFloatPrecision; auto. now rewrite P.
  - apply (eff_setFloatPrecision pw d s a z c'); auto; [intros n; now rewrite L|now rewrite T].
  - apply eff_getFloatComparisonTolerance; auto. now rewrite P, T.
  - apply (eff_setFloatComparisonTolerance pw d s a f c'); auto; [intros n; now rewrite L|now rewrite P].
  - apply (eff_close pw d s z c'); auto.
  - apply (eff_authenticate pw d s a z c'); auto.
Qed.
Lemma has_effect_same pw c d s line : same_data c d -> has_effect pw d s line -> has_effect pw c s line.
Proof. intros D (a & m & args & c' & s' & ans & St & E). exists a, m, args, c', s', ans. split; auto. exact (effect_same _ d c _ _ _ _ _ _ _ (same_sym _ _ D) E). Qed.
Lemma undefined_same c d a m args : same_data c d -> undefined_statement d a m args -> undefined_statement c a m args.
Proof.
  intros (L & P & T) H. destruct H as [m n a H1 H2 H3|a H1|n i m args Hl Hu]; [now constructor|now constructor|].
  apply (und_variable c n i m args); [now rewrite <- L|now rewrite <- T].
Qed.
Lemma chapter_same c d a sec cls held : same_data c d -> chapter c a sec cls held -> chapter d a sec cls held.
Proof.
  intros (L & _) H. destruct H; [apply chap_variable; now rewrite L|now apply chap_object|now apply (chap_vector d t e)|now apply (chap_set d t e)|now apply (chap_dictionary d t k v)|apply chap_context|apply chap_connection].
Qed.
Lemma special_same pw c d a m args e : same_data c d -> special_error pw c a m args e -> special_error pw d a m args e.
Proof.
  intros D H. destruct H as [t m args n i Hc Hn Hm|n V Hn|a v Hv Hp].
  - apply (spec_used pw d t m args n i); auto. now apply (live_same c d n D).
  - apply (spec_not_used pw d n); auto. now rewrite (live_same c d n D).
  - exact (spec_password pw d a v Hv Hp).
Qed.
Lemma error_same pw c d a m args e : same_data c d -> error_of pw c a m args e -> error_of pw d a m args e.
Proof.
  intros D H. destruct H as [V Hn|sec cls held Hc Hd|sec cls held takes gives Hc Hd Hl|e He|sec cls held takes gives Hc Hd Hl Hs].
  - apply error_no_variable; auto. now rewrite (live_same c d a D).
  - apply (error_no_message pw d a m args sec cls held); auto. exact (chapter_same _ _ _ _ _ _ D Hc).
  - apply (error_number pw d a m args sec cls held takes gives); auto. exact (chapter_same _ _ _ _ _ _ D Hc).
  - apply error_special. exact (special_same _ _ _ _ _ _ _ D He).
  - apply (error_argument pw d a m args sec cls held takes gives); auto. exact (chapter_same _ _ _ _ _ _ D Hc).
    intros e He. exact (Hs e (special_same _ _ _ _ _ _ _ (same_sym _ _ D) He)).
Qed.
Lemma described_same pw c d s line c' s' o : same_data c d -> described pw c s line c' s' o -> described pw d s line c' s' o.
Proof.
  intros D H. assert (SD : forall x, same_data c x -> same_data d x) by (intros x X; exact (same_trans _ _ _ (same_sym _ _ D) X)).
  destruct H as [A N X E|a m args ans A St E|a m args e A St N U E X S|A N X E].
  - apply described_refused; auto.
  - apply (described_effect pw d s line c' s' a m args ans A St). exact (effect_same _ _ _ _ _ _ _ _ _ _ D E).
  - apply (described_error pw d s line c' s' a m args e A St); auto.
    + intros Q. exact (N (has_effect_same _ _ _ _ _ D Q)).
    + intros Q. exact (U (undefined_same _ _ _ _ _ D Q)).
    + exact (error_same _ _ _ _ _ _ _ D E).
  - apply described_syntax; auto.
Qed.

(** *** One line *)
Theorem C88_every_line_is_described : forall srt pw c s line c' s' o, sort_contract srt -> reachable srt pw c ->
  processes srt pw c s line c' s' o -> described pw c s line c' s' o.
Proof.
  intros srt pw c s line c' s' o K R H.
  assert (G : forall c' s' ans, is_authenticated s = true \/ connection_line line -> runs srt pw c (Some s) line c' (Some s') ans ->
    described pw c s line c' s' (if is_connected s' then Answered ans else Closed ans)).
  { clear H. intros c1 s1 ans A X. destruct (statement_dec line) as [(a & m & args & St)|Ns].
    - destruct (C69_three_outcomes srt pw c s line a m args K R St) as [(_ & (u & U) & _)|(U & c2 & s2 & ans2 & X2 & H)]; [destruct (runs_ub _ _ _ _ _ _ _ _ _ X U)|].
      destruct (runs_unique _ _ _ _ _ _ _ _ _ _ _ X X2) as (<- & E & <-). injection E as <-. destruct H as [[E _]|(N & E & _ & D & ->)].
      + exact (described_effect _ _ _ _ _ _ a m args ans A St E).
      + exact (described_error _ _ _ _ _ _ a m args ans A St N U E D eq_refl).
    - assert (Q : ans = ERR_SYNTAX).
      { unfold runs, execute, run_statement, bind, lift in X. rewrite parse_not_statement in X by auto. cbn in X. inversion X; subst. reflexivity. }
      destruct (C26_not_a_statement _ _ _ _ _ _ _ _ Ns X) as [D E]. injection E as ->. rewrite Q. exact (described_syntax _ _ _ _ _ _ A Ns D eq_refl). }
  destruct H as [A N|c' s' ans A X C|c' s' ans A X C].
  - apply described_refused; auto. repeat split; auto.
  - assert (Y := G _ _ _ A X). now rewrite C in Y.
  - assert (Y := G _ _ _ A X). now rewrite C in Y.
Qed.
Lemma runs_processes srt pw c s line c' s' ans : is_authenticated s = true \/ connection_line line -> runs srt pw c (Some s) line c' (Some s') ans ->
  processes srt pw c s line c' s' (if is_connected s' then Answered ans else Closed ans).
Proof. intros A X. destruct (is_connected s') eqn:C; [now apply processes_answered|now apply processes_closed]. Qed.
Theorem C88_everything_described_happens : forall srt pw c s line c' s' o, sort_contract srt -> reachable srt pw c ->
  described pw c s line c' s' o -> ~ sorts_floats c line -> exists c'', processes srt pw c s line c'' s' o /\ same_data c' c''.
Proof.
  intros srt pw c s line c' s' o K R H F. destruct H as [A N X E|a m args ans A St E|a m args e A St N U E X S|A N X E].
  - exists c. subst s'. split; [now apply processes_refused|now apply same_sym].
  - destruct (C66_every_effect_happens srt pw c (Some s) line a m args c' (Some s') ans K R St E) as (c2 & X & D).
    + intros v L Q. apply F. exists a, args, v. subst m. auto.
    + exists c2. split; auto. now apply runs_processes.
  - subst s'. destruct (C69_three_outcomes srt pw c s line a m args K R St) as [(Q & _)|(_ & c2 & s2 & ans2 & X2 & H)]; [contradiction|].
    destruct H as [[H _]|(_ & E2 & _ & D & ->)]; [exfalso; apply N; exists a, m, args, c2, (Some s2), ans2; auto|].
    rewrite (C67_error_is_unique _ _ _ _ _ _ _ _ _ K R St E E2). exists c2. split; [now apply runs_processes|exact (same_trans _ _ _ (same_sym _ _ X) D)].
  - subst s'. assert (Q : exists c2, runs srt pw c (Some s) line c2 (Some s) ERR_SYNTAX).
    { unfold runs, execute, run_statement, bind, lift. rewrite parse_not_statement by auto. cbn. eexists. reflexivity. }
    destruct Q as [c2 Q]. exists c2. split; [now apply runs_processes|]. exact (same_trans _ _ _ (same_sym _ _ X) (proj1 (C26_not_a_statement _ _ _ _ _ _ _ _ N Q))).
Qed.
Lemma sort_answer pw c s n args c' s' ans t v : effect pw c s n (B "sort") args c' s' ans -> lookup c n = Some (IVector t v) -> ans = B "null" /\ s' = s.
Proof.
  intros E L. inversion E; subst; auto.
  rewrite L in *. match goal with H : Some _ = Some _ |- _ => injection H as <- end. split; auto.
  match goal with H : message_effect _ _ _ _ _ _ _ |- _ => inversion H; subst; auto end.
  - match goal with SE : seq_effect _ _ _ _ _ _ _ |- _ => inversion SE end.
  - match goal with SE : search_effect _ _ _ _ _ _ _ |- _ => inversion SE end.
Qed.
(** When a vector of Float is sorted, too, the answer and the session are those described. *)
Theorem C88_the_answers_described_are_given : forall srt pw c s line c' s' o, sort_contract srt -> reachable srt pw c ->
  described pw c s line c' s' o -> exists c'', processes srt pw c s line c'' s' o.
Proof.
  intros srt pw c s line c' s' o K R H. destruct (classic (sorts_floats c line)) as [(n & args & v & St & L)|F].
  2:{ destruct (C88_everything_described_happens _ _ _ _ _ _ _ _ K R H F) as (c2 & X & _). eauto. }
  destruct H as [A N X E|a m args2 ans A St2 E|a m args2 e A St2 N U E X S|A N X E].
  - exists c. subst s'. now apply processes_refused.
  - destruct (statement_unique _ _ _ _ _ _ _ St St2) as (<- & <- & <-).
    destruct (C69_three_outcomes srt pw c s line n (B "sort") args K R St) as [(_ & _ & Q)|(_ & c2 & s2 & ans2 & X2 & [[E2 _]|(Q & _)])];
      try (exfalso; apply Q; exists n, (B "sort"), args, c', (Some s'), ans; auto; fail).
    destruct (sort_answer _ _ _ _ _ _ _ _ _ _ E L) as [-> S1], (sort_answer _ _ _ _ _ _ _ _ _ _ E2 L) as [-> S2].
    injection S1 as ->. injection S2 as ->. exists c2. now apply runs_processes.
  - destruct (C69_three_outcomes srt pw c s line a m args2 K R St2) as [(Q & _)|(_ & c2 & s2 & ans2 & X2 & H)]; [contradiction|].
    destruct H as [[H _]|(_ & E2 & _ & D & ->)]; [exfalso; apply N; exists a, m, args2, c2, (Some s2), ans2; auto|]. subst s'.
    rewrite (C67_error_is_unique _ _ _ _ _ _ _ _ _ K R St2 E E2). exists c2. now apply runs_processes.
  - exfalso. exact (N _ _ _ St).
Qed.

(** *** Histories *)
Theorem C88_every_history_is_described : forall srt pw c ss h c' ss', sort_contract srt -> reachable srt pw c ->
  serial srt pw c ss h c' ss' -> described_history (fun _ _ => True) pw c ss h c' ss'.
Proof.
  intros srt pw c ss h c' ss' K R H. induction H as [|h c1 ss1 sid line c2 s2 o S IH P]; [constructor|].
  apply (described_more _ pw c ss h c1 ss1 sid line c2 s2 o); auto.
  apply (C88_every_line_is_described srt); auto. exact (serial_reach _ _ _ _ _ _ _ R S).
Qed.
Theorem C88_every_described_history_happens : forall srt pw c ss h c' ss', sort_contract srt -> reachable srt pw c ->
  described_history (fun d line => ~ sorts_floats d line) pw c ss h c' ss' -> exists c'', serial srt pw c ss h c'' ss' /\ same_data c' c''.
Proof.
  intros srt pw c ss h c' ss' K R H. induction H as [|h c1 ss1 sid line c2 s2 o S IH P D].
  - exists c. split; [constructor|repeat split; auto].
  - destruct IH as (d1 & S1 & E1). assert (R1 := serial_reach _ _ _ _ _ _ _ R S1).
    destruct (C88_everything_described_happens srt pw d1 (ss1 sid) line c2 s2 o K R1 (described_same _ _ _ _ _ _ _ _ E1 D)) as (d2 & X & E2).
    + intros (n & args & v & St & L). apply P. exists n, args, v. split; auto. now rewrite <- (proj1 E1).
    + exists d2. split; auto. now apply (serial_more srt pw c ss h d1 ss1 sid line d2 s2 o).
Qed.
Lemma described_weaken (ok ok' : context -> bytes -> Prop) pw c ss h c' ss' : (forall e d, In e h -> ok d (e_line e) -> ok' d (e_line e)) ->
  described_history ok pw c ss h c' ss' -> described_history ok' pw c ss h c' ss'.
Proof.
  intros W H. induction H as [|h c1 ss1 sid line c2 s2 o S IH P D]; [constructor|]. apply (described_more ok' pw c ss h c1 ss1 sid line c2 s2 o); auto.
  - apply IH. intros e d I. apply W. apply in_or_app. now left.
  - apply (W {| e_sid := sid; e_line := line; e_outcome := o |} c1); [apply in_or_app; right; now left|exact P].
Qed.
(** Where nothing is sorted, the histories of the server are exactly the described ones. *)
Theorem C88_exactly_the_described_histories : forall srt pw c ss h ss', sort_contract srt -> reachable srt pw c ->
  (forall e n args, In e h -> ~ statement (e_line e) n (B "sort") args) ->
  ((exists c', serial srt pw c ss h c' ss') <-> (exists c', described_history (fun _ _ => True) pw c ss h c' ss')).
Proof.
  intros srt pw c ss h ss' K R N. split.
  - intros [c' S]. exists c'. now apply (C88_every_history_is_described srt).
  - intros [c' S]. destruct (C88_every_described_history_happens srt pw c ss h c' ss' K R) as (c2 & S2 & _); [|eauto].
    apply (described_weaken (fun _ _ => True) _ _ _ _ _ _ _); [|exact S]. intros e d I _ (n & args & v & St & _). exact (N e n args I St).
Qed.

(** *** What is described is all there is *)
Lemma processes_fun srt pw c s line c1 s1 o1 c2 s2 o2 : processes srt pw c s line c1 s1 o1 -> processes srt pw c s line c2 s2 o2 -> c1 = c2 /\ s1 = s2 /\ o1 = o2.
Proof. intros H1 H2. destruct (processes_unique _ _ _ _ _ _ _ _ _ _ _ H1 H2) as (? & ? & ?). auto. Qed.
(** At most one thing can become of a line. *)
Theorem C88_one_outcome : forall srt pw c s line c1 s1 o1 c2 s2 o2, sort_contract srt -> reachable srt pw c ->
  described pw c s line c1 s1 o1 -> described pw c s line c2 s2 o2 -> o1 = o2 /\ s1 = s2 /\ (sorts_floats c line \/ same_data c1 c2).
Proof.
  intros srt pw c s line c1 s1 o1 c2 s2 o2 K R D1 D2. destruct (classic (sorts_floats c line)) as [F|F].
  - destruct (C88_the_answers_described_are_given _ _ _ _ _ _ _ _ K R D1) as [d1 X1], (C88_the_answers_described_are_given _ _ _ _ _ _ _ _ K R D2) as [d2 X2].
    destruct (processes_fun _ _ _ _ _ _ _ _ _ _ _ X1 X2) as (_ & -> & ->). auto.
  - destruct (C88_everything_described_happens _ _ _ _ _ _ _ _ K R D1 F) as (d1 & X1 & E1), (C88_everything_described_happens _ _ _ _ _ _ _ _ K R D2 F) as (d2 & X2 & E2).
    destruct (processes_fun _ _ _ _ _ _ _ _ _ _ _ X1 X2) as (-> & -> & ->). split; auto. split; auto. right. exact (same_trans _ _ _ E1 (same_sym _ _ E2)).
Qed.
(** Something becomes of it unless it is a statement that is executed and has undefined behaviour. *)
Theorem C88_described_or_undefined : forall srt pw c s line, sort_contract srt -> reachable srt pw c ->
  ((exists c' s' o, described pw c s line c' s' o) <->
   ~ ((is_authenticated s = true \/ connection_line line) /\ exists a m args, statement line a m args /\ undefined_statement c a m args)).
Proof.
  intros srt pw c s line K R. split.
  - intros (c' & s' & o & D) (A & a & m & args & St & U). destruct (C88_the_answers_described_are_given _ _ _ _ _ _ _ _ K R D) as [d X].
    destruct (proj2 (C69_undefined_iff srt pw c s line K R) (ex_intro _ a (ex_intro _ m (ex_intro _ args (conj St U))))) as [u UB].
    destruct X as [A' N'|c2 s2 a2 A' X' C'|c2 s2 a2 A' X' C']; [destruct A as [A|A]; [congruence|contradiction]|exact (runs_ub _ _ _ _ _ _ _ _ _ X' UB)|exact (runs_ub _ _ _ _ _ _ _ _ _ X' UB)].
  - intros N. destruct (classic (is_authenticated s = true \/ connection_line line)) as [A|A].
    + destruct (statement_dec line) as [(a & m & args & St)|Ns].
      * destruct (C69_three_outcomes srt pw c s line a m args K R St) as [(U & _)|(U & c2 & s2 & ans2 & X2 & _)].
        -- exfalso. apply N. split; auto. exists a, m, args. auto.
        -- exists c2, s2. eexists. apply (C88_every_line_is_described srt); auto. apply runs_processes; eauto.
      * exists c, s. eexists. apply described_syntax; auto. repeat split; auto.
    + exists c, s, Refused. apply described_refused; [|intros Q; apply A; right; exact Q|repeat split; auto|auto].
      destruct (is_authenticated s) eqn:Q; [exfalso; apply A; now left|reflexivity].
Qed.

(** *** Schedules *)
Theorem C88_every_schedule_is_described : forall srt pw c0 es, sort_contract srt -> reachable srt pw c0 -> sv_crash (run srt (start pw c0) es) = None ->
  exists h ss, explains srt pw c0 es h /\ described_history (fun _ _ => True) pw c0 (fun _ => fresh pw) h (sv_ctx (run srt (start pw c0) es)) ss.
Proof.
  intros srt pw c0 es K R C. destruct (C66_every_schedule_follows_the_specification srt pw c0 es K R C) as (h & _ & X & _).
  assert (X' := X). destruct X' as (ss & S & _). exists h, ss. split; auto. now apply (C88_every_history_is_described srt).
Qed.
Theorem C88_every_description_has_a_schedule : forall srt pw c0 h c ss, sort_contract srt -> reachable srt pw c0 ->
  described_history (fun d line => ~ sorts_floats d line) pw c0 (fun _ => fresh pw) h c ss ->
  Forall (fun e => ~ In NEWLINE (e_line e)) h ->
  (forall sid before e after, entries_of sid h = before ++ e :: after -> closes e -> after = []) ->
  Forall (fun e => Forall (fun a => List.length a < 65536)%nat (answer_to (e_outcome e))) h ->
  exists es, sv_crash (run srt (start pw c0) es) = None /\ explains srt pw c0 es h /\ same_data c (sv_ctx (run srt (start pw c0) es)).
Proof.
  intros srt pw c0 h c ss K R D H1 H2 H3. destruct (C88_every_described_history_happens _ _ _ _ _ _ _ K R D) as (c2 & S & E).
  destruct (C76_every_order_can_happen srt pw c0 h) as (es1 & es2 & _ & _ & _ & C & X & _).
  - split; auto. exists c2, ss. exact S.
  - exists (es1 ++ es2). split; auto. split; auto. destruct X as (ss2 & S2 & _). destruct (serial_unique _ _ _ _ _ _ _ _ _ _ S S2 eq_refl) as (_ & <- & _). exact E.
Qed.

(** Two clients; effects, an error and what is no statement. *)
Definition described_lines : list (nat * bytes) :=
  [(0%nat, B "Integer create: x withValue: 5;"); (1%nat, B "x get;"); (1%nat, B "x size;"); (0%nat, B "x get")].
Example C88_ex : exists h c ss, reachable insertion_sort [] empty_server /\
  map (fun e => (e_sid e, e_line e)) h = described_lines /\
  map (fun e => e_outcome e) h = [Answered (B "null"); Answered (B "5"); Answered ERR_MESSAGE; Answered ERR_SYNTAX] /\
  described_history (fun d line => ~ sorts_floats d line) [] empty_server (fun _ => fresh []) h c ss /\
  Forall (fun e => ~ In NEWLINE (e_line e)) h /\ lookup c (B "x") = Some (IObj (OInt 5)).
Proof.
  destruct (play empty_server [] described_lines) as [[c h]|] eqn:E; [|vm_compute in E; discriminate E].
  destruct (plays _ _ _ _ E) as (ss & S). exists h, c, ss.
  assert (R : reachable insertion_sort [] empty_server) by (constructor; vm_compute; reflexivity).
  assert (D := C88_every_history_is_described _ _ _ _ _ _ _ insertion_sort_contract R S). clear S.
  assert (L : lookup c (B "x") = Some (IObj (OInt 5)) /\ map (fun e => (e_sid e, e_line e)) h = described_lines /\
     map (fun e => e_outcome e) h = [Answered (B "null"); Answered (B "5"); Answered ERR_MESSAGE; Answered ERR_SYNTAX]).
  { vm_compute in E. inversion E; subst. split; [vm_compute; reflexivity|split; reflexivity]. }
  clear E. destruct L as (L1 & L2 & L3).
  assert (A : forall e, In e h -> In (e_line e) (map snd described_lines)).
  { intros e I. rewrite <- L2, map_map. cbn [snd]. now apply in_map. }
  split; [exact R|]. split; [exact L2|]. split; [exact L3|]. split; [|split; [|exact L1]].
  - apply (described_weaken (fun _ _ => True) _ _ _ _ _ _ _); [|exact D]. intros e d I _ (n & args & v & St & _). apply A in I. cbn [map snd described_lines In] in I.
    destruct I as [I|[I|[I|[I|[]]]]]; rewrite <- I in St; apply parse_iff in St; vm_compute in St; discriminate St.
  - apply Forall_forall. intros e I. apply A in I. cbn [map snd described_lines In] in I. destruct I as [I|[I|[I|[I|[]]]]]; rewrite <- I; vm_compute; intuition discriminate.
Qed.
