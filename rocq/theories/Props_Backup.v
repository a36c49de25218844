(** Property C78: backup and restore.  Specification: [Spec_Backup]. *)
From Coq Require Import ZArith Reals Psatz.
From Verif Require Import Bytes StrUtils Grammar Outcome Parser Num Containers Instance Context Server Platform.
From Verif Require Import Lemmas StringLit Proof_Grammar Proof_Parser Proof_Exec WP Proof_Inv Proof_Literal Proof_Receive Proof_Context Proof_Names Api Proof_Text.
From Verif Require Import Proof_Number Proof_Float Proof_Order Proof_Literal Proof_Storable Proof_Server Proof_Local.
From Verif Require Import Props_Language Props_Text Props_State Props_Number Props_Float Props_Order Props_Set Props_Object Props_Storable Props_Local Props_Server Props_Whole Props_Observe.
From Verif Require Import Spec_Grammar Spec_State Spec_Names Spec_Text Spec_Number Spec_Float Spec_Order Spec_Vector Spec_String Spec_Set Spec_Object Spec_Local Spec_Storable Spec_Server Spec_Whole Spec_Observe Spec_Backup.
Import ListNotations.
Open Scope Z_scope.
Open Scope list_scope.

Lemma keys_nodup {V} (l : list (str * V)) : Proof_Exec.keys_sorted l -> NoDup (map fst l).
Proof.
  unfold Proof_Exec.keys_sorted. generalize (map fst l). clear l. induction l as [|k l IH]; intros H; [constructor|]. inversion H as [|? ? H1 H2]; subst. constructor; auto.
  intros I. rewrite Forall_forall in H2. specialize (H2 k I). rewrite str_ltb_irrefl in H2. discriminate H2.
Qed.
Lemma by_lines srt pw c : reachable_by_lines srt pw c -> reachable srt pw c.
Proof. induction 1 as [|c s line c' s' ans N R IH X]; [now constructor|]. exact (reach_step _ _ _ _ _ _ _ _ IH X). Qed.
Lemma in_assoc {V} (l : list (bytes * V)) n v : NoDup (map fst l) -> In (n, v) l -> assoc l n = Some v.
Proof.
  induction l as [|[k w] l IH]; intros N I; [destruct I|]. cbn [map fst] in N. inversion N as [|? ? N1 N2]; subst. cbn [assoc]. destruct (bytes_dec k n) as [->|Ne].
  - destruct I as [E|I]; [now injection E as ->|]. destruct N1. apply in_map_iff. exists (n, v). auto.
  - destruct I as [E|I]; [injection E as -> _; contradiction|auto].
Qed.

(** Settings that clients can make stay such. *)
Theorem C78_settings_stay_settable : forall srt pw c s line c' s' ans, sort_contract srt -> reachable srt pw c -> settable c ->
  runs srt pw c s line c' s' ans -> settable c'.
Proof.
  intros srt pw c s line c' s' ans Hs R (S1 & S2 & S3 & S4 & S5) X.
  assert (T : single_precision (tolerance c')) by (eapply reachable_tolerance; eauto; exact (reach_step _ _ _ _ _ _ _ _ R X)).
  assert (Same : float_precision c' = float_precision c /\ tolerance c' = tolerance c -> settable c') by (intros [E1 E2]; unfold settable; rewrite E1, E2; auto).
  destruct (statement_dec line) as [(a & m & args & St)|Hn].
  2:{ destruct (C26_not_a_statement _ _ _ _ _ _ _ _ Hn X) as [[_ E] _]. auto. }
  destruct (every_answer _ _ _ _ _ _ _ _ Hs R X) as [(_ & [_ E] & _)|[He _]]; auto.
  assert (F := C66_every_success_is_an_effect _ _ _ _ _ _ _ _ _ _ _ Hs R St X He). clear X St He.
  destruct F;
    try (apply Same; match goal with O : only_changes _ _ _ _ |- _ => apply O | D : same_data _ _ |- _ => apply D | D : same_settings _ _ |- _ => apply D end).
  - assert (Fz : fits z) by (clear - H; unfold Spec_Literal.index_of in H; inversion H as [| | |? ? ? F|? ? ? ? ? ? ? ? (_ & _ & F)| |]; subst; exact F).
    unfold settable. match goal with E : tolerance _ = tolerance _, E2 : float_precision _ = _ |- _ => rewrite E, E2 end. auto 10.
  - match goal with L : literal_of _ _ _ |- _ => apply literal_float in L as [_ ->] end.
    unfold settable. match goal with E : tolerance _ = _, E2 : float_precision _ = _ |- _ => rewrite E, E2 in * end. split; auto. split; auto. split; auto. split; auto.
    eapply narrows_not_nan; [apply atof_not_nan|apply to_float_narrows].
Qed.
(** Whatever data clients have made, on a server without variables there are lines that make them again, all answered null. *)
Theorem C78_every_server_can_be_rebuilt : forall srt pw c pw0 c0 s, sort_contract srt -> reachable_by_lines srt pw c -> settable c ->
  reachable srt pw0 c0 -> (forall n, ~ live c0 n) ->
  exists lines answers d, Forall one_line lines /\ executes srt pw0 c0 s lines d s answers /\ Forall (fun a => a = B "null") answers /\ same_data c d.
Proof.
  intros srt pw c pw0 c0 s Hs R (S1 & S2 & S3 & S4 & S5) R0 Em.
  assert (K := reachable_keys _ _ _ Hs (by_lines _ _ _ R)). apply keys_nodup in K.
  destruct (C57_every_state srt pw0 c0 s (instances c) (float_precision c) (tolerance c) Hs R0 Em K) as (lines & answers & d & L1 & L2 & L3 & L4 & L5 & L6); auto.
  - apply Forall_forall. intros [n i] I. cbn [fst snd]. apply (C57_exactly srt pw n i Hs). exists c. split; auto. unfold lookup. now apply in_assoc.
  - exists lines, answers, d. split; auto. split; auto. split; auto. split; [intros m; apply L4|]. split; auto.
Qed.
(** Two servers with the same data cannot be told apart by any schedule: every client gets the same bytes, and they fail at the same places. *)
Theorem C78_the_copy_serves_like_the_original : forall srt pw c d pwc pwd es, sort_contract srt -> reachable srt pwc c -> reachable srt pwd d -> same_data c d ->
  let sv := run srt (start pw c) es in let sv' := run srt (start pw d) es in
  sv_conns sv = sv_conns sv' /\ sv_crash sv = sv_crash sv' /\ (sv_crash sv = None -> same_data (sv_ctx sv) (sv_ctx sv')).
Proof.
  intros srt pw c d pwc pwd es Hs Rc Rd T. apply same_data_twin in T; [|eapply reachable_keys; eauto|eapply reachable_keys; eauto].
  enough (G : let sv := run srt (start pw c) es in let sv' := run srt (start pw d) es in
    sv_password sv = pw /\ sv_password sv' = pw /\ sv_conns sv = sv_conns sv' /\ sv_accepting sv = sv_accepting sv' /\ sv_crash sv = sv_crash sv' /\ twin (sv_ctx sv) (sv_ctx sv')).
  { cbv zeta in *. destruct G as (_ & _ & G1 & _ & G2 & G3). split; auto. split; auto. intros _. now apply twin_same_data. }
  clear Rc Rd. cbv zeta. induction es as [|e es IH] using rev_ind; [cbn; auto 10|].
  rewrite !run_snoc. revert IH. generalize (run srt (start pw c) es) (run srt (start pw d) es). intros sv sv' (P & P' & I2 & I3 & I4 & I1).
  unfold step. rewrite <- I4. destruct (sv_crash sv) as [u|] eqn:C; [rewrite C, <- I4; auto 10|]. symmetry in I4.
  destruct e as [| |k b|k m|k m|k|k]; rewrite <- ?I2, <- ?I3.
  - destruct (sv_accepting sv) eqn:Ac; cbn [sv_password sv_ctx sv_conns sv_accepting sv_crash]; rewrite ?C, ?I4, ?P, ?P', <- ?I2, <- ?I3; auto 10.
  - cbn [sv_password sv_ctx sv_conns sv_accepting sv_crash]. auto 10.
  - destruct (nth_error (sv_conns sv) k) as [cn|]; [|rewrite C, I4; auto 10]. unfold with_conn. cbn [sv_password sv_ctx sv_conns sv_accepting sv_crash]. rewrite ?C, ?I4, <- ?I2, <- ?I3. auto 10.
  - destruct (nth_error (sv_conns sv) k) as [cn|]; [|rewrite C, I4; auto 10]. destruct (c_phase cn); [destruct (has_newline (c_streambuf cn))|..]; rewrite ?C, ?I4; auto 10.
    unfold with_conn. cbn [sv_password sv_ctx sv_conns sv_accepting sv_crash]. rewrite ?C, ?I4, <- ?I2, <- ?I3. auto 10.
  - destruct (nth_error (sv_conns sv) k) as [cn|] eqn:En; [|rewrite C, I4; auto 10]. destruct (c_phase cn); [destruct (has_newline (c_streambuf cn)) eqn:Hb|..]; rewrite ?C, ?I4; auto 10.
    unfold handle. rewrite P, P', <- ?I2, <- ?I3. set (line := fst (getline (c_streambuf cn))).
    assert (H : (exists u, handle_line srt pw line (sv_ctx sv) (c_session cn) = UB u /\ handle_line srt pw line (sv_ctx sv') (c_session cn) = UB u) \/
      exists c1 d1 s1 o, handle_line srt pw line (sv_ctx sv) (c_session cn) = Ok (c1, s1, o) /\ handle_line srt pw line (sv_ctx sv') (c_session cn) = Ok (d1, s1, o) /\ twin c1 d1).
    { assert (SR : same_reading line line) by (intros a1 m1 args1; reflexivity).
      unfold handle_line. destruct (actor_of_spec line) as (a & -> & _). cbn [rbind]. destruct (is_authenticated (c_session cn) || is_connection a); [|right; eauto 10].
      assert (X : exists w r, execute srt pw line {| w_ctx := sv_ctx sv; w_session := Some (c_session cn) |} = (w, r)) by (destruct (execute srt pw line {| w_ctx := sv_ctx sv; w_session := Some (c_session cn) |}); eauto).
      destruct X as ([c1 s1] & r & X). rewrite X. cbn [fst snd w_ctx w_session]. destruct r as [ans|x|u].
      - right. destruct (runs_twin srt pw line line _ _ _ _ _ _ SR I1 X) as (d1 & Y & T1). unfold runs in Y. rewrite Y. cbn [fst snd w_ctx w_session rbind].
        eexists _, _, _, _. split; [reflexivity|]. split; [reflexivity|exact T1].
      - exfalso. apply (execute_not_throw srt pw line {| w_ctx := sv_ctx sv; w_session := Some (c_session cn) |} x). rewrite X. reflexivity.
      - left. assert (U : undefined_behaviour srt pw (sv_ctx sv) (Some (c_session cn)) line u) by (unfold undefined_behaviour; rewrite X; reflexivity).
        apply (ub_twin _ _ line line _ _ _ _ SR I1) in U. unfold undefined_behaviour in U. destruct (execute srt pw line {| w_ctx := sv_ctx sv'; w_session := Some (c_session cn) |}) as [w2 r2].
        cbn [snd] in *. subst r2. cbn [rbind]. eauto. }
    destruct H as [(u & -> & ->)|(c1 & d1 & s1 & o & -> & -> & T1)].
    + unfold crashed. cbn [sv_password sv_ctx sv_conns sv_accepting sv_crash]. rewrite <- ?I2, <- ?I3. auto 10.
    + destruct o as [r|]; [destruct (do_write r m)|]; unfold crashed; cbn [sv_password sv_ctx sv_conns sv_accepting sv_crash]; rewrite ?C, ?I4, <- ?I1, <- ?I2, <- ?I3; auto 10.
  - destruct (nth_error (sv_conns sv) k) as [cn|]; [|rewrite C, I4; auto 10]. destruct (c_phase cn); rewrite ?C, ?I4; auto 10.
    unfold with_conn. cbn [sv_password sv_ctx sv_conns sv_accepting sv_crash]. rewrite ?C, ?I4, <- ?I2, <- ?I3. auto 10.
  - destruct (nth_error (sv_conns sv) k) as [cn|]; [|rewrite C, I4; auto 10].
    unfold with_conn. cbn [sv_password sv_ctx sv_conns sv_accepting sv_crash]. rewrite ?C, ?I4, <- ?I2, <- ?I3. auto 10.
Qed.
(** A server restored from a backup serves every schedule like the original would have. *)
Theorem C78_a_restored_server_serves_like_the_original : forall srt pw c c0 s, sort_contract srt -> reachable_by_lines srt pw c -> settable c ->
  reachable srt pw c0 -> (forall n, ~ live c0 n) ->
  exists lines answers d, Forall one_line lines /\ executes srt pw c0 s lines d s answers /\ Forall (fun a => a = B "null") answers /\
    forall es, sv_conns (run srt (start pw d) es) = sv_conns (run srt (start pw c) es) /\ sv_crash (run srt (start pw d) es) = sv_crash (run srt (start pw c) es).
Proof.
  intros srt pw c c0 s Hs R St R0 Em. destruct (C78_every_server_can_be_rebuilt srt pw c pw c0 s Hs R St R0 Em) as (lines & answers & d & L1 & L2 & L3 & L4).
  exists lines, answers, d. split; auto. split; auto. split; auto. intros es.
  assert (Rd : reachable srt pw d). { clear - R0 L2. revert R0. induction L2; intros R0; auto. apply IHL2. eapply reach_step; eauto. }
  destruct (C78_the_copy_serves_like_the_original srt pw c d pw pw es Hs (by_lines _ _ _ R) Rd L4) as (E1 & E2 & _). auto.
Qed.
Lemma executes_by_lines srt pw c s lines d t answers : executes srt pw c s lines d t answers -> reachable_by_lines srt pw c -> Forall one_line lines -> reachable_by_lines srt pw d.
Proof.
  induction 1 as [|c s line c1 s1 ans lines c2 s2 answers X E IH]; intros R F; auto. inversion F; subst. apply IH; auto. eapply line_step; eauto.
Qed.
Definition worked : list bytes :=
  [B "Set<Float> create: s;"; B "s add: 2.5;"; B "Vector<Integer> create: v;"; B "v pushBack: 3;"; B "v pushBack: 1;"; B "Integer create: x withValue: 5;"; B "v sort;"; B "x multiplyBy: 3;";
   B "Context setFloatPrecision: 7;"; B "s add: 0.1;"].
Definition rebuilding : list bytes :=
  [B "Context setFloatPrecision: 7;"; B "Set<Float> create: s;"; B "s add: 0.1;"; B "s add: 2.5;"; B "Vector<Integer> create: v;"; B "v pushBack: 1;"; B "v pushBack: 3;"; B "Integer create: x withValue: 15;"].
Example C78_ex : exists c d a1 a2, executes insertion_sort [] empty_server None worked c None a1 /\ reachable_by_lines insertion_sort [] c /\ settable c /\ reachable insertion_sort [] empty_server /\
  (forall n, ~ live empty_server n) /\ executes insertion_sort [] empty_server None rebuilding d None a2 /\ Forall (fun a => a = B "null") a2 /\ same_data c d /\ lookup c (B "x") = Some (IObj (OInt 15)).
Proof.
  assert (R0 : reachable_by_lines insertion_sort [] empty_server) by (constructor; reflexivity).
  assert (X1 : exists c a1, executes insertion_sort [] empty_server None worked c None a1 /\ instances c = [(B "s", ISet (B "Float") [OFloat (to_float (atof (B "0.1"))); OFloat (to_float (atof (B "2.5")))]); (B "v", IVector (B "Integer") [OInt 1; OInt 3]); (B "x", IObj (OInt 15))] /\
    float_precision c = 7 /\ tolerance c = S754_zero false).
  { eexists _, _. split; [unfold worked; repeat (eapply executes_more; [unfold runs; vm_compute; reflexivity|]); constructor|vm_compute; auto]. }
  assert (X2 : exists d a2, executes insertion_sort [] empty_server None rebuilding d None a2 /\ Forall (fun a => a = B "null") a2 /\
    instances d = [(B "s", ISet (B "Float") [OFloat (to_float (atof (B "0.1"))); OFloat (to_float (atof (B "2.5")))]); (B "v", IVector (B "Integer") [OInt 1; OInt 3]); (B "x", IObj (OInt 15))] /\
    float_precision d = 7 /\ tolerance d = S754_zero false).
  { eexists _, _. split; [unfold rebuilding; repeat (eapply executes_more; [unfold runs; vm_compute; reflexivity|]); constructor|]. split; [repeat constructor|vm_compute; auto]. }
  destruct X1 as (c & a1 & E1 & I1 & P1 & T1). destruct X2 as (d & a2 & E2 & F2 & I2 & P2 & T2). exists c, d, a1, a2. split; auto.
  split; [eapply executes_by_lines; eauto; unfold worked; repeat constructor; vm_compute; intuition discriminate|].
  split; [unfold settable; rewrite P1, T1; split; [lia|]; split; [unfold fits; lia|]; split; [reflexivity|]; split; [discriminate|]; intros Z; apply not_below in Z; vm_compute in Z; discriminate Z|].
  split; [now apply by_lines|]. split; [intros n L; exact (L eq_refl)|]. split; auto. split; auto.
  split; [split; [intros m; unfold lookup; rewrite I1, I2; reflexivity|split; congruence]|]. unfold lookup. rewrite I1. reflexivity.
Qed.
Print Assumptions C78_every_server_can_be_rebuilt.
Print Assumptions C78_a_restored_server_serves_like_the_original.
