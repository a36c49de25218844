(** Properties C58-C60: clients that work together through one server - queues and stacks, counters, locks.
    Specification: [Spec_Clients] (and [Spec_Server], [Spec_State]); model: [Context], [Server]. *)
From Coq Require Import ZArith.
From Verif Require Import Bytes StrUtils Grammar Outcome Parser Num Containers Instance Context Server Platform.
From Verif Require Import Lemmas StringLit Proof_Grammar Proof_Parser Proof_Exec Proof_Inv Proof_Literal Proof_Receive Proof_Context Proof_Names Api Proof_Text Proof_Number Props_State Props_Text Props_Number Proof_Vector Proof_Server Proof_Set Props_Vector Props_Server.
From Verif Require Import Spec_Grammar Spec_State Spec_Names Spec_Text Spec_Number Spec_Float Spec_Order Spec_Vector Spec_Set Spec_Server Spec_Clients.
Local Open Scope Z_scope.
Local Open Scope list_scope.

Lemma processes_cases srt pw c s line c' s' o : processes srt pw c s line c' s' o ->
  (o = Refused /\ c' = c /\ s' = s) \/ exists ans, runs srt pw c (Some s) line c' (Some s') ans /\ (o = Answered ans \/ o = Closed ans).
Proof. intros P. inversion P; subst; eauto. Qed.
Lemma processes_reach srt pw c s line c' s' o : reachable srt pw c -> processes srt pw c s line c' s' o -> reachable srt pw c'.
Proof. intros R P. destruct (processes_cases _ _ _ _ _ _ _ _ P) as [(_ & -> & _)|(ans & H & _)]; auto. eapply reach_step; [exact R|exact H]. Qed.
Lemma serial_reach srt pw c ss h c' ss' : reachable srt pw c -> serial srt pw c ss h c' ss' -> reachable srt pw c'.
Proof. intros R. induction 1; auto. eapply processes_reach; eauto. Qed.
Lemma leaves_lookup srt pw c s line c' s' ans n : sort_contract srt -> reachable srt pw c -> runs srt pw c s line c' s' ans ->
  leaves line n -> live c n -> lookup c' n = lookup c n.
Proof.
  intros H1 H2 R [K S] L. destruct (step_cases srt pw c s line c' s' ans n H1 H2 R) as [E|[(m & args & i & Hs & Hm & _)|[(T & m & args & i & _ & _ & N & _)|[_ N]]]]; auto.
  - destruct (S m args Hm Hs).
  - contradiction.
  - contradiction.
Qed.
Lemma answers_error srt pw c s line n m args i c' s' ans e : sort_contract srt -> reachable srt pw c ->
  statement line n m args -> lookup c n = Some i -> runs srt pw c s line c' s' ans ->
  receive (env_of srt c) i m args = (i, Throw e) -> looks_like_error ans /\ lookup c' n = Some i.
Proof.
  intros H1 H2 Hs Hl R E. destruct (step_variable _ _ _ _ _ _ _ _ _ _ _ _ H1 H2 Hs Hl R) as (L & -> & _). rewrite E in L |- *. split; auto.
  apply error_answer_looks. apply error_answer_exc.
Qed.

Section Vectors.
Context (srt : sorter) (pw n t : bytes) (HS : sort_contract srt).
Lemma push_step c s line a v c' s' ans : reachable srt pw c -> lookup c n = Some (IVector t v) ->
  statement line n (B "pushBack:") [a] -> runs srt pw c s line c' s' ans ->
  (exists x, literal_of t a x /\ ans = B "null" /\ lookup c' n = Some (IVector t (v ++ [x]))) \/
  (looks_like_error ans /\ lookup c' n = Some (IVector t v)).
Proof using HS.
  intros H2 Hl Hs R. assert (T := holder_typed srt pw c n _ HS H2 Hl). destruct T as [Ho _].
  assert (E : forall E, vector_receive E t (B "pushBack:") [a] v =
    match get_shared_instance t a with Ok x => (v ++ [x], Ok (B "null")) | Throw e => (v, Throw e) | UB u => (v, UB u) end).
  { intros E. change (vector_receive E t (B "pushBack:") [a] v) with (vector_pushBack t [a] v). unfold vector_pushBack. mon. now destruct (get_shared_instance t a). }
  destruct (get_shared_instance t a) as [x|e|u] eqn:G.
  - left. exists x. destruct (step_variable _ _ _ _ _ _ _ _ _ _ _ _ HS H2 Hs Hl R) as (L & -> & _). cbn [receive] in L |- *. rewrite E in L |- *. cbn in L |- *.
    split; [eapply get_literal; eauto|]. auto.
  - right. eapply answers_error; eauto. cbn [receive]. rewrite E. reflexivity.
  - exfalso. eapply runs_ub; [exact R|]. eapply (var_undefined srt pw c s line n _ [a] _ HS H2 Hs Hl). cbn [receive]. rewrite E. reflexivity.
Qed.
Lemma pop_front_step c s line v c' s' ans : reachable srt pw c -> lookup c n = Some (IVector t v) ->
  statement line n (B "popFront") [] -> runs srt pw c s line c' s' ans ->
  match v with
  | [] => ans = B "null" /\ lookup c' n = Some (IVector t [])
  | x :: w => shows (float_precision c) x ans /\ lookup c' n = Some (IVector t w)
  end.
Proof using HS.
  intros H2 Hl Hs R.
  assert (X : exists v' a, seq_effect (float_precision c) t (B "popFront") [] v v' a /\
     match v with [] => a = B "null" /\ v' = [] | x :: w => shows (float_precision c) x a /\ v' = w end).
  { destruct v as [|x w]; [exists [], (B "null"); split; [constructor|auto]|]. exists w, (obj_repr (env_of srt c) x).
    split; [|split; [apply (obj_repr_shows (env_of srt c))|auto]]. constructor. apply (obj_repr_shows (env_of srt c)). }
  destruct X as (v' & a & X & Y). destruct (C18_effect srt pw c s line n _ _ t v v' a HS H2 Hs Hl X) as (c1 & R1 & L & _).
  destruct (runs_unique _ _ _ _ _ _ _ _ _ _ _ R R1) as (-> & _ & ->). destruct v as [|x w]; destruct Y as [Y ->]; auto.
Qed.
Lemma pop_back_step c s line v c' s' ans : reachable srt pw c -> lookup c n = Some (IVector t v) ->
  statement line n (B "popBack") [] -> runs srt pw c s line c' s' ans ->
  (v = [] /\ ans = B "null" /\ lookup c' n = Some (IVector t [])) \/
  exists w x, v = w ++ [x] /\ shows (float_precision c) x ans /\ lookup c' n = Some (IVector t w).
Proof using HS.
  intros H2 Hl Hs R. destruct (split_last v) as [->|(w & x & ->)].
  - left. destruct (C18_effect srt pw c s line n _ _ t [] [] (B "null") HS H2 Hs Hl (eff_popBack_empty _ _)) as (c1 & R1 & L & _).
    destruct (runs_unique _ _ _ _ _ _ _ _ _ _ _ R R1) as (-> & _ & ->). auto.
  - right. exists w, x. assert (Q := obj_repr_shows (env_of srt c) x). cbn [e_precision env_of] in Q.
    destruct (C18_effect srt pw c s line n _ _ t (w ++ [x]) w _ HS H2 Hs Hl (eff_popBack _ t w x _ Q)) as (c1 & R1 & L & _).
    destruct (runs_unique _ _ _ _ _ _ _ _ _ _ _ R R1) as (-> & _ & ->). auto.
Qed.
End Vectors.

(** ** C58: queues and stacks *)
(** First in, first out, nothing lost, nothing delivered twice: what the queue held and what was added, in order, is what was taken, in
    order, and what is left. *)
Theorem C58_queue : forall srt pw c0 ss h c1 ss1 n t v, sort_contract srt -> reachable srt pw c0 ->
  lookup c0 n = Some (IVector t v) -> serial srt pw c0 ss h c1 ss1 -> Forall (as_queue n) h ->
  exists put taken left, queue_use n t v h put taken /\ lookup c1 n = Some (IVector t left) /\ v ++ put = taken ++ left.
Proof.
  intros srt pw c0 ss h c1 ss1 n t v H1 H2 Hl S. induction S as [|h c1 ss1 sid line c2 s2 o S IH P]; intros F.
  - exists [], [], v. split; [constructor|]. split; auto. apply app_nil_r.
  - apply Forall_app in F as [F Fe]. apply Forall_inv in Fe. destruct (IH F) as (put & taken & left & U & L & E). clear IH.
    assert (R1 := serial_reach _ _ _ _ _ _ _ H2 S).
    destruct (processes_cases _ _ _ _ _ _ _ _ P) as [(-> & -> & _)|(ans & R & O)].
    { exists put, taken, left. split; [|auto]. apply queue_other; auto. left. reflexivity. }
    destruct Fe as [(a & Hs)|[Hs|Hs]]; cbn [e_line] in Hs.
    + destruct (push_step srt pw n t H1 _ _ _ _ _ _ _ _ R1 L Hs R) as [(x & X & -> & L')|[X L']].
      * exists (put ++ [x]), taken, (left ++ [x]). split; [eapply queue_put; eauto|]. split; auto. rewrite !app_assoc. now rewrite E.
      * exists put, taken, left. split; [|auto]. apply queue_other; auto. right. left. exists ans. split; auto.
    + assert (X := pop_front_step srt pw n t H1 _ _ _ _ _ _ _ R1 L Hs R). destruct left as [|x w].
      * destruct X as [-> L']. exists put, taken, []. split; [eapply queue_take_nothing; eauto; rewrite E; apply app_nil_r|auto].
      * destruct X as [X L']. exists put, (taken ++ [x]), w. split; [eapply queue_take; eauto|]. split; auto. rewrite E, <- app_assoc. reflexivity.
    + exists put, taken, left. split; [apply queue_other; auto; right; right; exact Hs|]. split; auto.
      rewrite <- L. eapply leaves_lookup; eauto. unfold live. congruence.
Qed.
(** The same for every schedule of events of any number of sessions. *)
Theorem C58_queue_under_any_schedule : forall srt pw c0 es n t v, sort_contract srt -> reachable srt pw c0 ->
  lookup c0 n = Some (IVector t v) -> sv_crash (run srt (start pw c0) es) = None ->
  exists h, explains srt pw c0 es h /\
    (Forall (as_queue n) h ->
     exists put taken left, queue_use n t v h put taken /\ lookup (sv_ctx (run srt (start pw c0) es)) n = Some (IVector t left) /\
       v ++ put = taken ++ left).
Proof.
  intros srt pw c0 es n t v H1 H2 Hl C. destruct (C35_every_schedule_is_serialisable srt pw c0 es C) as (h & X). exists h. split; auto.
  intros F. destruct X as (ss & S & _). eapply C58_queue; eauto.
Qed.
(** Last in, first out. *)
Theorem C58_stack : forall srt pw c0 ss h c1 ss1 n t v, sort_contract srt -> reachable srt pw c0 ->
  lookup c0 n = Some (IVector t v) -> serial srt pw c0 ss h c1 ss1 -> Forall (as_stack n) h ->
  exists w, stack_use n t v h w /\ lookup c1 n = Some (IVector t w).
Proof.
  intros srt pw c0 ss h c1 ss1 n t v H1 H2 Hl S. induction S as [|h c1 ss1 sid line c2 s2 o S IH P]; intros F.
  - exists v. split; [constructor|auto].
  - apply Forall_app in F as [F Fe]. apply Forall_inv in Fe. destruct (IH F) as (w & U & L). clear IH.
    assert (R1 := serial_reach _ _ _ _ _ _ _ H2 S).
    destruct (processes_cases _ _ _ _ _ _ _ _ P) as [(-> & -> & _)|(ans & R & O)].
    { exists w. split; [|auto]. apply stack_other; auto. left. reflexivity. }
    destruct Fe as [(a & Hs)|[Hs|Hs]]; cbn [e_line] in Hs.
    + destruct (push_step srt pw n t H1 _ _ _ _ _ _ _ _ R1 L Hs R) as [(x & X & -> & L')|[X L']].
      * exists (w ++ [x]). split; [eapply stack_push; eauto|auto].
      * exists w. split; [|auto]. apply stack_other; auto. right. left. exists ans. split; auto.
    + destruct (pop_back_step srt pw n t H1 _ _ _ _ _ _ _ R1 L Hs R) as [(-> & -> & L')|(w' & x & -> & X & L')].
      * exists []. split; [eapply stack_pop_nothing; eauto|auto].
      * exists w'. split; [eapply stack_pop; eauto|auto].
    + exists w. split; [apply stack_other; auto; right; right; exact Hs|]. rewrite <- L. eapply leaves_lookup; eauto. unfold live. congruence.
Qed.

(** ** C59: counters *)
(** No addition is lost, whoever makes it: a counter holds its first value plus all that was added. *)
Theorem C59_counter : forall srt pw c0 ss h c1 ss1 n z, sort_contract srt -> reachable srt pw c0 ->
  lookup c0 n = Some (IObj (OInt z)) -> serial srt pw c0 ss h c1 ss1 -> Forall (as_counter n) h ->
  exists k, counted n h k /\ lookup c1 n = Some (IObj (OInt (z + k))).
Proof.
  intros srt pw c0 ss h c1 ss1 n z H1 H2 Hl S. induction S as [|h c1 ss1 sid line c2 s2 o S IH P]; intros F.
  - exists 0. split; [constructor|]. now rewrite Z.add_0_r.
  - apply Forall_app in F as [F Fe]. apply Forall_inv in Fe. destruct (IH F) as (k & U & L). clear IH.
    assert (R1 := serial_reach _ _ _ _ _ _ _ H2 S).
    destruct (processes_cases _ _ _ _ _ _ _ _ P) as [(-> & -> & _)|(ans & R & O)].
    { exists k. split; [|auto]. apply counted_other; auto. left. reflexivity. }
    assert (Step : forall o a, statement line n (message_of o) [a] ->
      (forall d, denotes_int a d -> exists r, exact_result o (z + k) d r /\ ans = B "null" /\ lookup c2 n = Some (IObj (OInt r))) /\
      (~ float_value a -> looks_like_error ans /\ lookup c2 n = Some (IObj (OInt (z + k))))).
    { intros o' a Hs. split.
      - intros d D.
        destruct (Classical_Prop.classic (fits d /\ exists r, exact_result o' (z + k) d r /\ fits r)) as [(Fd & r & X & Fr)|N].
        + exists r. destruct (C09_exact_arithmetic srt pw c1 (Some (ss1 sid)) line n (z + k) o' a d r H1 R1 Hs L D Fd X Fr) as (c3 & R3 & L3 & _).
          destruct (runs_unique _ _ _ _ _ _ _ _ _ _ _ R R3) as (-> & _ & ->). auto.
        + exfalso. apply (C10_arithmetic_undefined_iff srt pw c1 (Some (ss1 sid)) line n (z + k) o' a d H1 R1 Hs L D) in N as [u N]. eapply runs_ub; eauto.
      - intros N. destruct (C09_other_arguments_are_refused srt pw c1 (Some (ss1 sid)) line n (z + k) o' a H1 R1 Hs L N) as (c3 & R3 & L3 & _).
        destruct (runs_unique _ _ _ _ _ _ _ _ _ _ _ R R3) as (-> & _ & ->). split; [|now rewrite L3].
        apply error_answer_looks. unfold error_answer. cbn. tauto. }
    destruct Fe as [(a & Hs & K)|Hs]; cbn [e_line] in Hs.
    + destruct K as [K|K].
      * destruct (C08_every_literal_denotes_one_integer a K) as (d & D & _). destruct Hs as [Hs|Hs].
        -- destruct (Step Add a Hs) as [X _]. destruct (X d D) as (r & Q & -> & L'). exists (k + d). split; [eapply counted_add; eauto|].
           rewrite L'. inversion Q; subst. do 3 f_equal. lia.
        -- destruct (Step Subtract a Hs) as [X _]. destruct (X d D) as (r & Q & -> & L'). exists (k - d). split; [eapply counted_subtract; eauto|].
           rewrite L'. inversion Q; subst. do 3 f_equal. lia.
      * exists k. assert (X : looks_like_error ans /\ lookup c2 n = Some (IObj (OInt (z + k)))).
        { destruct Hs as [Hs|Hs]; [apply (Step Add a Hs)|apply (Step Subtract a Hs)]; auto. }
        destruct X as [X L']. split; auto. apply counted_other; auto. right. left. exists ans. split; auto.
    + exists k. split; [apply counted_other; auto; right; right; exact Hs|]. rewrite <- L. eapply leaves_lookup; eauto. unfold live. congruence.
Qed.
Theorem C59_counter_under_any_schedule : forall srt pw c0 es n z, sort_contract srt -> reachable srt pw c0 ->
  lookup c0 n = Some (IObj (OInt z)) -> sv_crash (run srt (start pw c0) es) = None ->
  exists h, explains srt pw c0 es h /\
    (Forall (as_counter n) h -> exists k, counted n h k /\ lookup (sv_ctx (run srt (start pw c0) es)) n = Some (IObj (OInt (z + k)))).
Proof.
  intros srt pw c0 es n z H1 H2 Hl C. destruct (C35_every_schedule_is_serialisable srt pw c0 es C) as (h & X). exists h. split; auto.
  intros F. destruct X as (ss & S & _). eapply C59_counter; eauto.
Qed.

(** ** C60: locks *)
Lemma null_no_error : ~ looks_like_error (B "null").
Proof. intros (r & [X|[X|X]]); discriminate. Qed.
Lemma executed_answer e a b : executed e a -> executed e b -> a = b.
Proof. intros [X|X] [Y|Y]; congruence. Qed.
Lemma refused_not_executed e a : e_outcome e = Refused -> ~ executed e a.
Proof. intros X [Y|Y]; congruence. Qed.
Lemma asks_dead srt pw c s line c' s' ans n : sort_contract srt -> reachable srt pw c -> runs srt pw c s line c' s' ans -> asks_for line n ->
  live c' n /\ (~ live c n -> ans = B "null").
Proof.
  intros H1 H2 R (T & m & args & i & Hs & C). destruct (Classical_Prop.classic (live c n)) as [L|L].
  - split; [|contradiction]. assert (X : exists a, only_answers srt pw c s line a).
    { assert (M : with_value m \/ without_value m) by (inversion C; auto).
      destruct M as [[->| ->]|[->| ->]]; eexists.
      - eapply C24_create_on_a_used_name; eauto.
      - eapply C24_createIfNotExists_on_a_used_name; eauto.
      - eapply C24_create_on_a_used_name; eauto.
      - eapply C24_createIfNotExists_on_a_used_name; eauto. }
    destruct X as (a & X). unfold live. rewrite (only_answers_lookup _ _ _ _ _ _ _ _ _ n X R). exact L.
  - destruct (C24_create_on_a_free_name srt pw c s line T m args n i H1 H2 Hs C L) as (c1 & R1 & L1 & _).
    destruct (runs_unique _ _ _ _ _ _ _ _ _ _ _ R R1) as (-> & _ & ->). unfold live. rewrite L1. split; [discriminate|auto].
Qed.
Lemma delete_step srt pw c s line c' s' ans n : sort_contract srt -> reachable srt pw c -> runs srt pw c s line c' s' ans ->
  ~ keeps line n -> live c n -> (lookup c' n = None /\ ans = B "null") \/ (looks_like_error ans /\ lookup c' n = lookup c n).
Proof.
  intros H1 H2 R NK L.
  destruct (Classical_Prop.classic (statement line (B "Context") (B "deleteVariable:") [n])) as [D|D].
  { left. destruct (C25_deleteVariable srt pw c s line n H1 H2 D L) as (c1 & R1 & L1 & _).
    destruct (runs_unique _ _ _ _ _ _ _ _ _ _ _ R R1) as (-> & _ & ->). auto. }
  destruct (Classical_Prop.classic (exists ns i, n = qualified ns i /\ statement line (B "Context") (B "deleteVariablesOfNamespace:") [ns])) as [(ns & i & -> & D')|D'].
  - destruct (Classical_Prop.classic (namespace ns)) as [Hn|Hn].
    + left. destruct (C25_deleteVariablesOfNamespace srt pw c s line ns D' Hn) as (c1 & R1 & _ & L1 & _).
      destruct (runs_unique _ _ _ _ _ _ _ _ _ _ _ R R1) as (-> & _ & ->). split; [apply L1|reflexivity].
    + right. destruct (C25_bad_names srt pw c s line _ ns D') as (c1 & R1 & L1 & _); [auto|].
      destruct (runs_unique _ _ _ _ _ _ _ _ _ _ _ R R1) as (-> & _ & ->). split; [|apply L1].
      apply error_answer_looks. unfold error_answer. cbn. auto.
  - exfalso. apply NK. split; auto. intros ns i Q1 Q2. apply D'. eauto.
Qed.
Lemma step_live srt pw c s c' s' e n : sort_contract srt -> reachable srt pw c -> processes srt pw c s (e_line e) c' s' (e_outcome e) ->
  (live c' n <-> (asks_for (e_line e) n /\ executed e (B "null")) \/ (live c n /\ ~ gives_back n e)).
Proof.
  intros H1 H2 P. destruct (processes_cases _ _ _ _ _ _ _ _ P) as [(Hr & -> & _)|(ans & R & O)].
  { split; [intros L; right; split; auto; intros [_ X]; eapply refused_not_executed; eauto|].
    intros [[_ X]|[L _]]; auto. exfalso. eapply refused_not_executed; eauto. }
  assert (A : forall a, executed e a -> a = ans) by (intros a X; eapply executed_answer; [exact X|exact O]).
  split.
  - intros L'. destruct (Classical_Prop.classic (live c n)) as [L|L].
    + right. split; auto. intros [NK X]. apply A in X as Xe. subst ans. destruct (delete_step _ _ _ _ _ _ _ _ _ H1 H2 R NK L) as [[N _]|[N _]]; [contradiction|].
      now apply null_no_error.
    + left. destruct (step_cases srt pw c (Some s) (e_line e) c' (Some s') ans n H1 H2 R) as [E|[(m & args & i & _ & _ & E)|[(T & m & args & i & Hs & C & _ & _)|[N _]]]].
      * exfalso. apply L. unfold live in *. congruence.
      * exfalso. apply L. unfold live. congruence.
      * assert (Q : asks_for (e_line e) n) by (exists T, m, args, i; auto). split; auto.
        destruct (asks_dead _ _ _ _ _ _ _ _ _ H1 H2 R Q) as [_ X]. rewrite <- (X L). exact O.
      * contradiction.
  - intros [[Q X]|[L N]].
    + eapply asks_dead; eauto.
    + intros D. destruct (step_cases srt pw c (Some s) (e_line e) c' (Some s') ans n H1 H2 R) as [E|[(m & args & i & Hs & _ & E)|[(T & m & args & i & _ & _ & E & _)|[_ NK]]]].
      * apply L. congruence.
      * destruct (step_variable _ _ _ _ _ _ _ _ _ _ _ _ H1 H2 Hs E R) as (L' & _). congruence.
      * contradiction.
      * destruct (delete_step _ _ _ _ _ _ _ _ _ H1 H2 R NK L) as [[_ ->]|[_ E]]; [|apply L; congruence]. apply N. split; auto.
Qed.
(** A name is in use exactly when a creation was executed after which there was no deletion. *)
Theorem C60_in_use_iff_held : forall srt pw c0 ss h c1 ss1 n, sort_contract srt -> reachable srt pw c0 ->
  ~ live c0 n -> serial srt pw c0 ss h c1 ss1 -> (live c1 n <-> held n h).
Proof.
  intros srt pw c0 ss h c1 ss1 n H1 H2 L S. induction S as [|h c1 ss1 sid line c2 s2 o S IH P].
  - split; [contradiction|]. intros ([|y l] & e & h2 & E & _); discriminate.
  - assert (R1 := serial_reach _ _ _ _ _ _ _ H2 S).
    set (e := {| e_sid := sid; e_line := line; e_outcome := o |}).
    rewrite (step_live srt pw c1 (ss1 sid) c2 s2 e n H1 R1 P), IH. clear IH. split.
    + intros [[Q X]|[(h1 & e' & h2 & -> & Q & X & F) N]].
      * exists h, e, []. repeat split; auto.
      * exists h1, e', (h2 ++ [e]). rewrite <- app_assoc. repeat split; auto. apply Forall_app. auto.
    + intros (h1 & e' & h2 & E & Q & X & F). destruct (snoc_split h2) as [->|(h3 & y & ->)].
      * apply app_inj_tail in E as [_ <-]. auto.
      * rewrite app_comm_cons, app_assoc in E. apply app_inj_tail in E as [-> <-]. apply Forall_app in F as [F Fe]. apply Forall_inv in Fe.
        right. split; auto. exists h1, e', h3. auto.
Qed.
(** Whoever tries to create the name gets it exactly when it is free; else the answer is the error "variable name already used". *)
Theorem C60_obtained_iff_free : forall srt pw c0 ss h e c1 ss1 n ans, sort_contract srt -> reachable srt pw c0 ->
  ~ live c0 n -> serial srt pw c0 ss (h ++ [e]) c1 ss1 -> tries (e_line e) n -> executed e ans ->
  (ans = B "null" /\ ~ held n h) \/ (ans = ERR_USED /\ held n h).
Proof.
  intros srt pw c0 ss h e c1 ss1 n ans H1 H2 L S (T & m & args & i & Hs & C & M) X.
  destruct (serial_snoc_inv _ _ _ _ _ _ _ _ S) as (c2 & ss2 & s3 & S2 & P & _).
  assert (R2 := serial_reach _ _ _ _ _ _ _ H2 S2). rewrite <- (C60_in_use_iff_held srt pw c0 ss h c2 ss2 n H1 H2 L S2).
  destruct (processes_cases _ _ _ _ _ _ _ _ P) as [(Hr & _)|(a & R & O)]; [exfalso; eapply refused_not_executed; eauto|].
  assert (ans = a) by (eapply executed_answer; [exact X|exact O]). subst a.
  destruct (Classical_Prop.classic (live c2 n)) as [K|K]; [right|left]; split; auto.
  - destruct (C24_create_on_a_used_name srt pw c2 (Some (ss2 (e_sid e))) (e_line e) T m args n i Hs C K M) as (c3 & R3 & _).
    now destruct (runs_unique _ _ _ _ _ _ _ _ _ _ _ R R3) as (_ & _ & ->).
  - destruct (C24_create_on_a_free_name srt pw c2 (Some (ss2 (e_sid e))) (e_line e) T m args n i H1 R2 Hs C K) as (c3 & R3 & _).
    now destruct (runs_unique _ _ _ _ _ _ _ _ _ _ _ R R3) as (_ & _ & ->).
Qed.
(** Mutual exclusion: between two successful attempts, of the same or of different sessions, the name was given back. *)
Theorem C60_mutual_exclusion : forall srt pw c0 ss h1 e1 h2 e2 h3 c1 ss1 n, sort_contract srt -> reachable srt pw c0 ->
  serial srt pw c0 ss (h1 ++ e1 :: h2 ++ e2 :: h3) c1 ss1 -> obtains n e1 -> obtains n e2 -> exists e, In e h2 /\ gives_back n e.
Proof.
  intros srt pw c0 ss h1 e1 h2 e2 h3 c1 ss1 n H1 H2 S [(T1 & m1 & g1 & i1 & Hs1 & C1 & M1) X1] [T2 X2].
  apply Classical_Prop.NNPP. intros N.
  assert (F : Forall (fun e => ~ gives_back n e) h2) by (apply Forall_forall; intros y Hy G; apply N; eauto). clear N.
  replace (h1 ++ e1 :: h2 ++ e2 :: h3) with (((h1 ++ e1 :: h2) ++ [e2]) ++ h3) in S by (now rewrite <- !app_assoc).
  destruct (serial_prefix _ _ _ _ _ _ _ _ S) as (c3 & ss3 & S3). destruct (serial_snoc_inv _ _ _ _ _ _ _ _ S3) as (c2 & ss2 & s4 & S2 & P & _).
  assert (K : live c2 n).
  { clear S S3 P c3 ss3 X2 T2. revert c2 ss2 S2. induction h2 as [|y h2 IH] using rev_ind; intros c2 ss2 S2.
    - destruct (serial_snoc_inv _ _ _ _ _ _ _ _ S2) as (c4 & ss4 & s5 & S4 & P4 & _).
      apply (step_live srt pw c4 (ss4 (e_sid e1)) c2 s5 e1 n H1 (serial_reach _ _ _ _ _ _ _ H2 S4) P4). left. split; auto. exists T1, m1, g1, i1. auto.
    - rewrite app_comm_cons, app_assoc in S2. destruct (serial_snoc_inv _ _ _ _ _ _ _ _ S2) as (c4 & ss4 & s5 & S4 & P4 & _).
      apply Forall_app in F as [F Fe]. apply Forall_inv in Fe.
      apply (step_live srt pw c4 (ss4 (e_sid y)) c2 s5 y n H1 (serial_reach _ _ _ _ _ _ _ H2 S4) P4). right. split; auto. eapply IH; eauto. }
  destruct T2 as (T & m & args & i & Hs & C & M).
  destruct (processes_cases _ _ _ _ _ _ _ _ P) as [(Hr & _)|(a & R & O)]; [eapply refused_not_executed; eauto|].
  destruct (C24_create_on_a_used_name srt pw c2 (Some (ss2 (e_sid e2))) (e_line e2) T m args n i Hs C K M) as (c5 & R5 & _).
  destruct (runs_unique _ _ _ _ _ _ _ _ _ _ _ R R5) as (_ & _ & ->). assert (Q := executed_answer _ _ _ X2 O). discriminate.
Qed.
(** The same for every schedule of events. *)
Theorem C60_mutual_exclusion_under_any_schedule : forall srt pw c0 es h1 e1 h2 e2 h3 n, sort_contract srt -> reachable srt pw c0 ->
  explains srt pw c0 es (h1 ++ e1 :: h2 ++ e2 :: h3) -> obtains n e1 -> obtains n e2 -> exists e, In e h2 /\ gives_back n e.
Proof. intros srt pw c0 es h1 e1 h2 e2 h3 n H1 H2 (ss & S & _). eapply C60_mutual_exclusion; eauto. Qed.

(** ** Concrete histories *)
(** The history of the given lines of the given sessions on a server without a password, if none of them is undefined or closes a session. *)
Fixpoint play (c : context) (h : list entry) (l : list (nat * bytes)) : option (context * list entry) :=
  match l with
  | [] => Some (c, h)
  | (sid, line) :: l =>
    match execute insertion_sort [] line {| w_ctx := c; w_session := Some (fresh []) |} with
    | (w, Ok ans) => match w_session w with
                     | Some {| is_connected := true; is_authenticated := true |} =>
                         play (w_ctx w) (h ++ [{| e_sid := sid; e_line := line; e_outcome := Answered ans |}]) l
                     | _ => None
                     end
    | _ => None
    end
  end.
Lemma play_serial c0 l : forall c h c' h' ss, play c h l = Some (c', h') -> (forall k, ss k = fresh []) -> serial insertion_sort [] c0 (fun _ => fresh []) h c ss ->
  exists ss', serial insertion_sort [] c0 (fun _ => fresh []) h' c' ss'.
Proof.
  induction l as [|[sid line] l IH]; intros c h c' h' ss E F S; cbn in E.
  - inversion E; subst. eauto.
  - destruct (execute _ _ _ _) as [[wc ws] [ans|x|u]] eqn:X; try discriminate. cbn [w_session w_ctx] in E. destruct ws as [[[|] [|]]|]; try discriminate.
    eapply (IH _ _ _ _ _ E); [|eapply (serial_more _ _ _ _ _ _ _ sid line wc (fresh []) (Answered ans) S)].
    + intros k. cbn. destruct (k =? sid)%nat; auto.
    + rewrite F. apply processes_answered; [left; reflexivity|exact X|reflexivity].
Qed.
Lemma plays c0 l c h : play c0 [] l = Some (c, h) -> exists ss, serial insertion_sort [] c0 (fun _ => fresh []) h c ss.
Proof. intros E. eapply play_serial; [exact E| |constructor]. reflexivity. Qed.
Ltac nostmt := let H := fresh in intro H; apply parse_iff in H; vm_compute in H; discriminate H.
Ltac leaf := split; [split; [nostmt|intros ? ? _; nostmt]|
  let m := fresh "m" in let I := fresh "I" in let H := fresh "H" in intros m ? I H; apply parse_iff in H; vm_compute in H; try discriminate H;
  injection H as <- <-; vm_compute in I; intuition discriminate].
(** A queue of numbers that starts with 7: two sessions put 1 and 2, a third one takes twice. *)
Definition queue_server : context := set_instances empty_server [(B "q", IVector (B "Integer") [OInt 7])].
Lemma queue_server_reachable : reachable insertion_sort [] queue_server.
Proof.
  eapply (reach_step _ _ (set_instances empty_server [(B "q", IVector (B "Integer") [])]) None (B "q pushBack: 7;")); [|unfold runs; vm_compute; reflexivity].
  eapply (reach_step _ _ empty_server None (B "Vector<Integer> create: q;")); [constructor; vm_compute; reflexivity|unfold runs; vm_compute; reflexivity].
Qed.
Definition three_clients : list (nat * bytes) :=
  [(0%nat, B "q pushBack: 1;"); (2%nat, B "q popFront;"); (1%nat, B "q pushBack: 2;"); (1%nat, B "Integer create: x withValue: 1;"); (1%nat, B "q pushBack: foo;"); (2%nat, B "q popFront;")].
Example C58_ex : exists c h ss, serial insertion_sort [] queue_server (fun _ => fresh []) h c ss /\ Forall (as_queue (B "q")) h /\
  lookup queue_server (B "q") = Some (IVector (B "Integer") [OInt 7]) /\
  map (fun e => e_outcome e) h = map Answered [B "null"; B "7"; B "null"; B "null"; ERR_ARGUMENT; B "1"] /\
  lookup c (B "q") = Some (IVector (B "Integer") [OInt 2]).
Proof.
  destruct (play queue_server [] three_clients) as [[c h]|] eqn:E; [|vm_compute in E; discriminate].
  destruct (plays _ _ _ _ E) as (ss & S). exists c, h, ss. split; [exact S|]. clear S. vm_compute in E. inversion E; subst c h. clear E.
  split; [|split; [reflexivity|split; reflexivity]].
  repeat apply Forall_cons; try apply Forall_nil; unfold as_queue; cbn [e_line];
    first [right; left; stmt|left; eexists; stmt|right; right; leaf].
Qed.
(** The same as a schedule of events. *)
Definition busy_queue : list event := [Accept; Accept; Accept] ++ concat (map (fun p => talk (fst p) (snd p)) three_clients).
Example C58_schedule_ex : let sv := run insertion_sort (start [] queue_server) busy_queue in
  sv_crash sv = None /\ map c_sent (sv_conns sv) =
    [with_newline (B "null"); with_newline (B "null") ++ with_newline (B "null") ++ with_newline ERR_ARGUMENT; with_newline (B "7") ++ with_newline (B "1")].
Proof. vm_compute. repeat split. Qed.
Example C58_stack_ex : exists c h ss, serial insertion_sort [] queue_server (fun _ => fresh []) h c ss /\ Forall (as_stack (B "q")) h /\
  map (fun e => e_outcome e) h = map Answered [B "null"; B "1"; B "7"; B "null"].
Proof.
  destruct (play queue_server [] [(0%nat, B "q pushBack: 1;"); (2%nat, B "q popBack;"); (1%nat, B "q popBack;"); (1%nat, B "q popBack;")]) as [[c h]|] eqn:E; [|vm_compute in E; discriminate].
  destruct (plays _ _ _ _ E) as (ss & S). exists c, h, ss. split; [exact S|]. clear S. vm_compute in E. inversion E; subst c h. clear E.
  split; [|reflexivity]. repeat apply Forall_cons; try apply Forall_nil; unfold as_stack; cbn [e_line];
    first [right; left; stmt|left; eexists; stmt|right; right; leaf].
Qed.
(** Two sessions count: 5 + 3 - 10; one line is refused. *)
Example C59_ex : exists c h ss, serial insertion_sort [] one_integer (fun _ => fresh []) h c ss /\ Forall (as_counter (B "x")) h /\
  lookup one_integer (B "x") = Some (IObj (OInt 5)) /\ length h = 4%nat /\ lookup c (B "x") = Some (IObj (OInt (-2))).
Proof.
  destruct (play one_integer [] [(0%nat, B "x add: 3;"); (1%nat, B "x subtract: 10;"); (1%nat, B "x add: foo;"); (0%nat, B "x get;")]) as [[c h]|] eqn:E; [|vm_compute in E; discriminate].
  destruct (plays _ _ _ _ E) as (ss & S). exists c, h, ss. split; [exact S|]. clear S. vm_compute in E. inversion E; subst c h. clear E.
  split; [|split; [reflexivity|split; reflexivity]].
  assert (I3 : integer_value (B "3")) by (apply is_integer_value_iff; reflexivity).
  assert (I10 : integer_value (B "10")) by (apply is_integer_value_iff; reflexivity).
  assert (N : ~ float_value (B "foo")) by (intros H; apply is_float_value_iff in H; discriminate).
  repeat apply Forall_cons; try apply Forall_nil; unfold as_counter; cbn [e_line].
  - left. exists (B "3"). split; [left; stmt|auto].
  - left. exists (B "10"). split; [right; stmt|auto].
  - left. exists (B "foo"). split; [left; stmt|auto].
  - right. leaf.
Qed.
(** Two sessions, one lock: session 0 gets it, session 1 does not, session 0 gives it back, session 1 gets it. *)
Example C60_ex : exists c h1 e1 h2 e2 ss, serial insertion_sort [] empty_server (fun _ => fresh []) (h1 ++ e1 :: h2 ++ e2 :: []) c ss /\
  obtains (B "lock") e1 /\ obtains (B "lock") e2 /\ e_sid e1 = 0%nat /\ e_sid e2 = 1%nat /\
  map (fun e => (e_sid e, e_outcome e)) h2 = [(1%nat, Answered ERR_USED); (0%nat, Answered (B "null"))].
Proof.
  destruct (play empty_server [] [(0%nat, B "Set<Integer> create: lock;"); (1%nat, B "Set<Integer> create: lock;"); (0%nat, B "Context deleteVariable: lock;"); (1%nat, B "Set<Integer> create: lock;")]) as [[c h]|] eqn:E; [|vm_compute in E; discriminate].
  destruct (plays _ _ _ _ E) as (ss & S). vm_compute in E. inversion E; subst c h. clear E.
  match type of S with serial _ _ _ _ [?a; ?b; ?d; ?e] ?c _ => exists c, [], a, [b; d], e, ss end.
  split; [exact S|]. clear S.
  assert (T : tries (B "Set<Integer> create: lock;") (B "lock")).
  { exists (B "Set<Integer>"), (B "create:"), [B "lock"], (ISet (B "Integer") []). split; [stmt|]. split; [|now left].
    apply creates_set; [|now left|apply is_variable_iff; reflexivity].
    exists [], []. split; [reflexivity|]. split; [constructor|]. split; [constructor|]. right; right; now left. }
  split; [split; [exact T|now left]|]. split; [split; [exact T|now left]|]. repeat split.
Qed.

Print Assumptions C58_queue.
Print Assumptions C58_queue_under_any_schedule.
Print Assumptions C58_stack.
Print Assumptions C59_counter.
Print Assumptions C59_counter_under_any_schedule.
Print Assumptions C60_in_use_iff_held.
Print Assumptions C60_obtained_iff_free.
Print Assumptions C60_mutual_exclusion.
Print Assumptions C60_mutual_exclusion_under_any_schedule.
