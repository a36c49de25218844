(** Properties C52 (what an answer depends on), C53 (order of independent statements), C54 (replaying the log).
    Specification: [Spec_Local], [Spec_Server]. *)
From Verif Require Import Bytes StrUtils Grammar Outcome Parser Num Containers Instance Context Server Platform.
From Verif Require Import Lemmas StringLit Proof_Grammar Proof_Parser Proof_Exec WP Proof_Inv Proof_Literal Proof_Receive Proof_Context Proof_Names Api Proof_Local.
From Verif Require Import Props_State Proof_Server Props_Server Props_Object.
From Verif Require Import Spec_Grammar Spec_State Spec_Names Spec_Text Spec_Server Spec_Local.
Open Scope list_scope.

(** ** C52 *)
(** Answers, undefined behaviour and new data depend on the pieces of the statement and on the data only: not on the white space, not on
    the log, not on the history that led to the data. *)
Theorem C52_effect_depends_on_pieces_and_data : forall srt pw pwc pwd c d s l1 l2 c' s' ans, sort_contract srt ->
  reachable srt pwc c -> reachable srt pwd d -> same_data c d -> same_reading l1 l2 ->
  runs srt pw c s l1 c' s' ans -> exists d', runs srt pw d s l2 d' s' ans /\ same_data c' d'.
Proof.
  intros srt pw pwc pwd c d s l1 l2 c' s' ans H1 Hc Hd T R X. apply same_data_twin in T; [|eapply reachable_keys; eauto|eapply reachable_keys; eauto].
  destruct (runs_twin _ _ _ _ _ _ _ _ _ _ R T X) as (d' & Y & T'). exists d'. split; [exact Y|now apply twin_same_data].
Qed.
Theorem C52_undefined_behaviour_depends_on_pieces_and_data : forall srt pw pwc pwd c d s l1 l2 u, sort_contract srt ->
  reachable srt pwc c -> reachable srt pwd d -> same_data c d -> same_reading l1 l2 ->
  (undefined_behaviour srt pw c s l1 u <-> undefined_behaviour srt pw d s l2 u).
Proof.
  intros srt pw pwc pwd c d s l1 l2 u H1 Hc Hd T R. apply same_data_twin in T; [|eapply reachable_keys; eauto|eapply reachable_keys; eauto].
  split; apply ub_twin; auto using twin_sym. intros a m args. symmetry. apply R.
Qed.
(** Two statements with the same pieces have the same reading, and so has a line without the white space around it. *)
Theorem C52_same_pieces : forall l1 l2 a m args, statement l1 a m args -> statement l2 a m args -> same_reading l1 l2.
Proof.
  intros l1 l2 a m args H1 H2 a' m' args'. split; intros H.
  - destruct (statement_unique _ _ _ _ _ _ _ H1 H) as (<- & <- & <-). exact H2.
  - destruct (statement_unique _ _ _ _ _ _ _ H2 H) as (<- & <- & <-). exact H1.
Qed.
Lemma spaces_trimmed_statement sp t sp' a m args : spaces sp -> spaces sp' -> statement t a m args -> statement (sp ++ t ++ sp') a m args.
Proof.
  intros H H' (sp0 & s & sp1 & msg & sp2 & sp3 & -> & S0 & Ha & Hs & S1 & Hm & S2 & S3).
  exists (sp ++ sp0), s, sp1, msg, sp2, (sp3 ++ sp'). split; [now rewrite <- !app_assoc|]. repeat split; auto; apply Forall_app; auto.
Qed.
Lemma spaces_first_not sp sp' x (r r' : bytes) : spaces sp -> ~ space x -> sp ++ r = sp' ++ x :: r' -> spaces sp' -> exists q, sp' = sp ++ q.
Proof.
  revert sp'. induction sp as [|y sp IH]; intros sp' H N E H'; [now exists sp'|]. inversion H; subst. destruct sp' as [|z sp'].
  - inversion E; subst. contradiction.
  - inversion E; subst. inversion H'; subst. destruct (IH sp') as [q ->]; auto. now exists q.
Qed.
Theorem C52_surrounding_space : forall line t, trimmed line t -> same_reading line t.
Proof.
  intros line t (sp & sp' & -> & H & H' & F & L) a m args. split; [|now apply spaces_trimmed_statement].
  intros S. destruct (statement_dec t) as [(a' & m' & args' & St)|N].
  - assert (S' := spaces_trimmed_statement sp t sp' a' m' args' H H' St). destruct (statement_unique _ _ _ _ _ _ _ S S') as (-> & -> & ->). exact St.
  - exfalso. destruct S as (sp0 & s & sp1 & msg & sp2 & sp3 & E & S0 & Ha & Hs & S1 & Hm & S2 & S3).
    assert (At := actor_tight a Ha). destruct At as (An & Af & Al). destruct a as [|x a]; [congruence|].
    assert (Nx : ~ space x) by (apply (Af x a eq_refl)).
    destruct (spaces_first_not sp sp0 x (t ++ sp') (a ++ [s] ++ sp1 ++ msg ++ sp2 ++ B ";" ++ sp3) H Nx) as [q ->]; [exact E|exact S0|].
    rewrite <- app_assoc in E. apply app_inv_head in E. apply Forall_app in S0 as [_ Sq].
    assert (E' : rev sp' ++ rev t = rev sp3 ++ ";"%char :: rev (q ++ (x :: a) ++ [s] ++ sp1 ++ msg ++ sp2)).
    { rewrite <- rev_app_distr, E. change (B ";") with [";"%char]. rewrite !rev_app_distr. cbn [rev app]. rewrite <- !app_assoc. reflexivity. }
    destruct (spaces_first_not (rev sp') (rev sp3) ";"%char (rev t) (rev (q ++ (x :: a) ++ [s] ++ sp1 ++ msg ++ sp2))) as [q' Eq].
    + now apply Forall_rev.
    + unfold space. cbn. lia.
    + exact E'.
    + now apply Forall_rev.
    + apply (f_equal (@rev ascii)) in Eq. rewrite rev_app_distr, !rev_involutive in Eq. subst sp3. apply Forall_app in S3 as [S3 _].
      apply (N (x :: a) m args). exists q, s, sp1, msg, sp2, (rev q'). repeat split; auto. rewrite !app_assoc in E. apply app_inv_tail in E. rewrite E. now rewrite <- !app_assoc.
Qed.
(** The answer to a message to a variable, and what the variable becomes, depend on that variable's value and the two settings only: two
    servers that agree on them agree on the answer, whatever else they hold and whoever asks. *)
Lemma variable_effect srt pw c s line n m args c' s' ans : keys_sorted (instances c) -> statement line n m args -> variable n ->
  runs srt pw c s line c' s' ans ->
  match lookup c n with
  | None => ans = ERR_UNKNOWN_NAME /\ lookup c' n = None
  | Some i => exists r, receive (env_of srt c) i m args = r /\ ~ is_ub (snd r) /\ ans = text_of (snd r) /\ lookup c' n = Some (fst r)
  end /\ s' = s.
Proof.
  intros K Hs Hv R. destruct (lookup c n) as [i|] eqn:L.
  - destruct (receive (env_of srt c) i m args) as [i' r] eqn:E.
    assert (U : ~ is_ub r).
    { intros U. destruct r as [o|e|u]; try contradiction. assert (X := run_variable srt pw _ _ _ _ {| w_ctx := c; w_session := s |} Hs Hv).
      unfold in_ctx, execute_in_variable in X. cbn [w_ctx w_session p_actor p_message p_args] in X. unfold lookup in L. rewrite <- assoc_smap_find, L, E in X.
      cbn [fst snd] in X. apply execute_ub in X. unfold runs in R. rewrite R in X. discriminate. }
    destruct (exec_variable srt pw c s line n m args i i' r K Hs Hv L E U) as (c1 & R1 & L1 & _).
    destruct (runs_unique _ _ _ _ _ _ _ _ _ _ _ R R1) as (-> & -> & ->). split; [|reflexivity]. exists (i', r). auto.
  - assert (X := run_variable srt pw _ _ _ _ {| w_ctx := c; w_session := s |} Hs Hv).
    unfold in_ctx, execute_in_variable in X. cbn [w_ctx w_session p_actor p_message p_args] in X. unfold lookup in L. rewrite <- assoc_smap_find, L in X.
    cbn [fst snd] in X. unfold runs in R. rewrite (execute_ok _ _ _ _ _ _ X) in R by exact (fun x => x). inversion R; subst. cbn [w_ctx w_session]. split; [|reflexivity].
    split; [reflexivity|]. now rewrite write_log_lookup.
Qed.
Theorem C52_locality : forall srt pw pwc pwd c d s t l1 l2 n m args c' s' ans, sort_contract srt -> reachable srt pwc c -> reachable srt pwd d ->
  statement l1 n m args -> statement l2 n m args -> variable n -> lookup d n = lookup c n -> same_settings c d ->
  runs srt pw c s l1 c' s' ans -> exists d', runs srt pw d t l2 d' t ans /\ lookup d' n = lookup c' n.
Proof.
  intros srt pw pwc pwd c d s t l1 l2 n m args c' s' ans H1 Hc Hd S1 S2 Hv L [P T] R.
  assert (Kc := reachable_keys srt pwc c H1 Hc). assert (Kd := reachable_keys srt pwd d H1 Hd).
  destruct (variable_effect _ _ _ _ _ _ _ _ _ _ _ Kc S1 Hv R) as [E _]. destruct (lookup c n) as [i|].
  - destruct E as ([i' r] & E & U & -> & ->). cbn [fst snd] in *. assert (X : env_of srt d = env_of srt c) by (unfold env_of; now rewrite P, T). rewrite <- X in E.
    destruct (exec_variable srt pw d t l2 n m args i i' r Kd S2 Hv L E U) as (d' & Rd & Ld & _). eauto.
  - destruct E as [-> ->]. assert (X := run_variable srt pw _ _ _ _ {| w_ctx := d; w_session := t |} S2 Hv).
    unfold in_ctx, execute_in_variable in X. cbn [w_ctx w_session p_actor p_message p_args] in X. unfold lookup in L. rewrite <- assoc_smap_find, L in X. cbn [fst snd] in X.
    eexists. split; [unfold runs; rewrite (execute_ok _ _ _ _ _ _ X) by exact (fun x => x); reflexivity|]. cbn [w_ctx]. rewrite write_log_lookup. exact L.
Qed.
(** Two servers with the same data, one of which keeps a log, and two writings of one statement. *)
Definition one_integer_logging : context := set_instances (new_context true 3 (to_float (S754_zero false)) true) [(B "x", IObj (OInt 5))].
Definition one_integer_logged : context :=
  log_file one_integer_logging (B "Integer create: x withValue: 5;", B "null").
Example C52_ex : same_reading (B "x add: 2;") (B "  x   add:  2 ; ") /\ same_data one_integer one_integer_logged /\
  reachable insertion_sort [] one_integer /\ reachable insertion_sort [] one_integer_logged /\
  (exists c', runs insertion_sort [] one_integer None (B "x add: 2;") c' None (B "null")) /\
  exists t, trimmed (B "  x   add:  2 ; ") t /\ t = B "x   add:  2 ;".
Proof.
  split; [apply (C52_same_pieces _ _ (B "x") (B "add:") [B "2"]); stmt|]. split; [repeat split|]. split; [exact one_integer_reachable|]. split.
  - eapply (reach_step _ _ (new_context true 3 (to_float (S754_zero false)) true) None (B "Integer create: x withValue: 5;")); [constructor; vm_compute; reflexivity|].
    unfold runs. vm_compute. reflexivity.
  - split; [eexists; unfold runs; vm_compute; reflexivity|]. exists (B "x   add:  2 ;"). split; [|reflexivity].
    exists (B "  "), (B " "). split; [reflexivity|]. split; [apply is_spaces_iff; reflexivity|]. split; [apply is_spaces_iff; reflexivity|]. split.
    + intros x r E. inversion E; subst. unfold space. cbn. lia.
    + intros r x E. change (B "x   add:  2 ;") with (B "x   add:  2 " ++ [";"%char]) in E. apply app_inj_tail in E as [_ <-]. unfold space. cbn. lia.
Qed.

(** ** C53: statements to different variables commute *)
Theorem C53_statements_to_different_variables_commute : forall srt pw c s t l1 n1 m1 args1 l2 n2 m2 args2 c1 s' a1 c2 t' a2, sort_contract srt -> reachable srt pw c ->
  statement l1 n1 m1 args1 -> variable n1 -> statement l2 n2 m2 args2 -> variable n2 -> n1 <> n2 ->
  runs srt pw c s l1 c1 s' a1 -> runs srt pw c1 t l2 c2 t' a2 ->
  exists d1 d2, runs srt pw c t l2 d1 t' a2 /\ runs srt pw d1 s l1 d2 s' a1 /\ same_data c2 d2.
Proof.
  intros srt pw c s t l1 n1 m1 args1 l2 n2 m2 args2 c1 s' a1 c2 t' a2 H1 H2 S1 V1 S2 V2 N R1 R2.
  assert (Q1 : reachable srt pw c1) by (econstructor; eauto).
  destruct (C26_message_to_a_variable _ _ _ _ _ _ _ _ _ _ _ H1 H2 S1 V1 R1) as (-> & St1 & O1 & _).
  destruct (C26_message_to_a_variable _ _ _ _ _ _ _ _ _ _ _ H1 Q1 S2 V2 R2) as (-> & St2 & O2 & _).
  assert (St1' : same_settings c1 c) by (destruct St1; split; congruence).
  destruct (C52_locality srt pw pw pw c1 c t t l2 l2 n2 m2 args2 c2 t a2 H1 Q1 H2 S2 S2 V2 (eq_sym (O1 _ (not_eq_sym N))) St1' R2) as (d1 & R2' & L2).
  assert (Qd : reachable srt pw d1) by (eapply reach_step; [exact H2|exact R2']).
  destruct (C26_message_to_a_variable _ _ _ _ _ _ _ _ _ _ _ H1 H2 S2 V2 R2') as (_ & St3 & O3 & _).
  destruct (C52_locality srt pw pw pw c d1 s s l1 l1 n1 m1 args1 c1 s a1 H1 H2 Qd S1 S1 V1 (O3 _ N) St3 R1) as (d2 & R1' & L1).
  destruct (C26_message_to_a_variable _ _ _ _ _ _ _ _ _ _ _ H1 Qd S1 V1 R1') as (_ & St4 & O4 & _).
  exists d1, d2. split; [exact R2'|]. split; [exact R1'|]. split.
  - intros x. destruct (bytes_dec x n1) as [->|X1].
    + rewrite L1. symmetry. now apply O2.
    + rewrite (O4 _ X1). destruct (bytes_dec x n2) as [->|X2]; [exact L2|]. rewrite (O3 _ X2). rewrite (O2 _ X2). symmetry. now apply O1.
  - destruct St1, St2, St3, St4. split; congruence.
Qed.
Example C53_ex : exists c c1 c2, reachable insertion_sort [] c /\
  statement (B "x add: 2;") (B "x") (B "add:") [B "2"] /\ statement (B "v pushBack: 3;") (B "v") (B "pushBack:") [B "3"] /\ variable (B "x") /\ variable (B "v") /\
  runs insertion_sort [] c None (B "x add: 2;") c1 None (B "null") /\ runs insertion_sort [] c1 None (B "v pushBack: 3;") c2 None (B "null") /\
  lookup c2 (B "x") = Some (IObj (OInt 7)) /\ lookup c2 (B "v") = Some (IVector (B "Integer") [OInt 3]).
Proof.
  eexists _, _, _. split; [apply (after_reachable _ _ [B "Integer create: x withValue: 5;"; B "Vector<Integer> create: v;"] empty_server); [constructor; vm_compute; reflexivity|vm_compute; reflexivity]|].
  split; [stmt|]. split; [stmt|]. split; [apply is_variable_iff; reflexivity|]. split; [apply is_variable_iff; reflexivity|].
  split; [unfold runs; vm_compute; reflexivity|]. split; [unfold runs; vm_compute; reflexivity|]. split; reflexivity.
Qed.

(** ** C54: the log, executed again, gives the same data and the same answers *)
Lemma session_answer pw m args s t : snd (session_receive pw m args s) = snd (session_receive pw m args t).
Proof.
  unfold session_receive. cbn [dispatch]. destruct (seq_eqb m _); [reflexivity|]. destruct (seq_eqb m _); [|reflexivity].
  unfold session_authenticate, check_nargs, throw_if, bind, lift, get, put, ret, throw.
  destruct (negb (length args =? 1)%nat); [reflexivity|]. unfold arg. destruct (nth_error args 0) as [a|]; [|reflexivity].
  unfold ret. destruct (negb (is_string_value a)); [reflexivity|]. destruct (string_of a) as [v|e|u]; try reflexivity. destruct (seq_eqb v pw); reflexivity.
Qed.
Lemma any_session srt pw c s t line c' s' ans : runs srt pw c (Some s) line c' s' ans -> exists t', runs srt pw c (Some t) line c' (Some t') ans.
Proof.
  intros R. unfold runs, execute in *. unfold run_statement, bind, lift in *. destruct (parse line) as [p|e|u].
  - destruct (is_type _); [|destruct (is_context _); [|destruct (is_variable _); [|destruct (is_connection _)]]];
      unfold in_ctx, in_session in *; cbn [w_ctx w_session fst snd] in *.
    + destruct (catch_text _); inversion R; subst. eauto.
    + destruct (catch_text _); inversion R; subst. eauto.
    + destruct (catch_text _); inversion R; subst. eauto.
    + rewrite (session_answer pw (p_message p) (p_args p) s t) in R. destruct (catch_text _); inversion R; subst. eauto.
    + cbn in *. inversion R; subst. eauto.
  - cbn in *. inversion R; subst. eauto.
  - cbn in *. inversion R.
Qed.
Lemma executes_app srt pw c s l1 c1 s1 a1 l2 c2 s2 a2 : executes srt pw c s l1 c1 s1 a1 -> executes srt pw c1 s1 l2 c2 s2 a2 ->
  executes srt pw c s (l1 ++ l2) c2 s2 (a1 ++ a2).
Proof. induction 1; cbn [app]; auto. intros. econstructor; eauto. Qed.
Lemma serial_replay srt pw c ss h c' ss' : serial srt pw c ss h c' ss' ->
  exists l, records h l /\ logs c l c' /\
    forall d t, twin c d -> exists d' t', executes srt pw d (Some t) (map fst l) d' (Some t') (map snd l) /\ twin c' d'.
Proof.
  induction 1 as [|h c1 ss1 sid line c2 s2 o H (l & R & L & X) P].
  - exists []. split; [constructor|]. split; [apply logs_refl|]. intros d t T. exists d, t. split; [constructor|exact T].
  - assert (G : forall ans s', runs srt pw c1 (Some (ss1 sid)) line c2 s' ans ->
      exists t, trimmed line t /\ logs c (l ++ [(t, ans)]) c2 /\
        forall d u, twin c d -> exists d' u', executes srt pw d (Some u) (map fst (l ++ [(t, ans)])) d' (Some u') (map snd (l ++ [(t, ans)])) /\ twin c2 d').
    { intros ans s' Y. destruct (runs_logs _ _ _ _ _ _ _ _ Y) as (t & Tr & Lg). exists t. split; [exact Tr|]. split; [eapply logs_trans; eauto|].
      intros d u T. destruct (X d u T) as (d1 & u1 & E1 & T1). destruct (any_session _ _ _ _ u1 _ _ _ _ Y) as [u2 Y2].
      destruct (runs_twin _ _ line t _ _ _ _ _ _ (C52_surrounding_space _ _ Tr) T1 Y2) as (d2 & Z & T2).
      exists d2, u2. split; [|exact T2]. rewrite !map_app. eapply executes_app; [exact E1|]. cbn [map fst snd]. econstructor; [exact Z|constructor]. }
    inversion P as [|? ? ans A Y|? ? ans A Y]; subst.
    + exists l. split; [now constructor|]. split; [exact L|exact X].
    + destruct (G _ _ Y) as (t & Tr & Lg & E). exists (l ++ [(t, ans)]). split; [|auto]. eapply records_executed; eauto.
    + destruct (G _ _ Y) as (t & Tr & Lg & E). exists (l ++ [(t, ans)]). split; [|auto]. eapply records_executed; eauto.
Qed.
(** Whatever the schedule and wherever it is cut off, executing the lines recorded so far, in one session, on a server with the same first
    data, gives the same answers and the same data. *)
Theorem C54_records_reproduce_the_data : forall srt pw c0 es, sort_contract srt -> reachable srt pw c0 -> sv_crash (run srt (start pw c0) es) = None ->
  exists h l, explains srt pw c0 es h /\ records h l /\ logs c0 l (sv_ctx (run srt (start pw c0) es)) /\
    forall d t, reachable srt pw d -> same_data c0 d ->
      exists d' t', executes srt pw d (Some t) (map fst l) d' t' (map snd l) /\ same_data (sv_ctx (run srt (start pw c0) es)) d'.
Proof.
  intros srt pw c0 es H1 H2 H. destruct (C35_every_schedule_is_serialisable _ _ _ _ H) as (h & X). assert (Y := X). destruct Y as (ss & S & _).
  destruct (serial_replay _ _ _ _ _ _ _ S) as (l & R & L & E). exists h, l. split; [exact X|]. split; [exact R|]. split; [exact L|].
  intros d t Hd D. apply same_data_twin in D; [|eapply reachable_keys; eauto|eapply reachable_keys; eauto].
  destruct (E d t D) as (d' & t' & A & T). exists d', (Some t'). split; [exact A|now apply twin_same_data].
Qed.
(** In particular the log file of a server that keeps one. *)
Theorem C54_the_log_file_reproduces_the_data : forall srt pw es precision tol is_quiet opened' is_quiet' t, sort_contract srt -> single_precision tol ->
  let sv := run srt (start pw (new_context true precision tol is_quiet)) es in
  sv_crash sv = None ->
  exists c' t', executes srt pw (new_context opened' precision tol is_quiet') (Some t)
                  (map fst (logfile (sv_ctx sv))) c' t' (map snd (logfile (sv_ctx sv))) /\ same_data (sv_ctx sv) c'.
Proof.
  intros srt pw es precision tol is_quiet opened' is_quiet' t H1 Ht sv H.
  destruct (C54_records_reproduce_the_data srt pw (new_context true precision tol is_quiet) es H1 (reach_start _ _ _ _ _ _ Ht) H) as (h & l & _ & _ & L & E).
  destruct L as (_ & _ & L). cbn in L. destruct L as [L _]. fold sv in L. rewrite L. apply E; [now constructor|]. repeat split.
Qed.
Example C54_ex : let sv := run insertion_sort (start [] (new_context true 3 (to_float (S754_zero false)) true)) two_clients in
  sv_crash sv = None /\ lookup (sv_ctx sv) (B "x") = Some (IObj (OInt 7)) /\
  logfile (sv_ctx sv) = [(B "Integer create: x withValue: 5;", B "null"); (B "x get;", B "5"); (B "x add: 2;", B "null"); (B "x get;", B "7")].
Proof. vm_compute. repeat split. Qed.

Print Assumptions C52_effect_depends_on_pieces_and_data.
Print Assumptions C52_undefined_behaviour_depends_on_pieces_and_data.
Print Assumptions C52_same_pieces.
Print Assumptions C52_surrounding_space.
Print Assumptions C52_locality.
Print Assumptions C53_statements_to_different_variables_commute.
Print Assumptions C54_records_reproduce_the_data.
Print Assumptions C54_the_log_file_reproduces_the_data.
