(** C80 for histories and schedules: servers without floating-point numbers do not depend on the tolerance. *)
From Coq Require Import ZArith List Lia.
From Verif Require Import Bytes StrUtils Outcome Num Instance Context Server Platform.
From Verif Require Import Spec_Grammar Spec_State Spec_Names Spec_Text Spec_Number Spec_Order Spec_Set Spec_Server Spec_Secret.
From Verif Require Import Proof_Grammar Proof_Parser Proof_Exec Proof_Literal Proof_Names Proof_Context Proof_Set Proof_Server.
From Verif Require Import Props_State Props_Set Props_Server Props_Clients Props_Secret Props_Safe Props_Observe Props_Tolerance Spec_Tolerance.
Import ListNotations.
Open Scope list_scope.

Lemma float_free_calm c line : without_floats c -> float_free line -> ~ tolerance_matters c line.
Proof.
  intros W F (a & m & args & Hs & [[-> ->]|(i & L & _ & X)]); destruct (F _ _ _ Hs) as (_ & _ & _ & _ & F5 & F6).
  - now apply F6.
  - assert (Y := W a i L). destruct i as [[b|ch|z|f|s]|t v|t v|kt vt d]; try contradiction.
    destruct X as [_ (x & Hx & Fx & Nx)]. apply Nx. exact (F5 x Hx Fx).
Qed.
Lemma float_class E i m args z : fst (receive E i m args) = IObj (OFloat z) -> exists z0, i = IObj (OFloat z0).
Proof. destruct i as [[]|t0 v0|t0 v0|k0 v0 d0]; cbn [receive on fst]; intros H; try discriminate H. eauto. Qed.
Lemma stays_without srt pw c s line c' s' ans : sort_contract srt -> reachable srt pw c -> without_floats c -> float_free line -> runs srt pw c s line c' s' ans -> without_floats c'.
Proof.
  intros H1 H2 T K R n i L. destruct (step_cases srt pw c s line c' s' ans n H1 H2 R) as [E|[(m & args & j & Hs & Hm & Hj)|[(t & m & args & j & Hs & C & _ & Lj)|[E _]]]].
  - apply (T n i). congruence.
  - destruct (step_variable srt pw c s line n _ _ _ c' s' ans H1 H2 Hs Hj R) as (E & _). rewrite L in E. injection E as E. symmetry in E. assert (Tn := T n j Hj).
    destruct i as [[]|t0 v0|t0 v0|k0 v0 d0]; auto.
    + apply float_class in E as [v1 ->]. exact Tn.
    + apply vec_class in E as [v1 ->]. exact Tn.
    + apply set_class in E as [v1 ->]. exact Tn.
    + apply dict_class in E as [v1 ->]. exact Tn.
  - rewrite L in Lj. injection Lj as <-. destruct (K _ _ _ Hs) as (K1 & K2 & K3 & K4 & _). inversion C; subst; clear C; auto.
    + match goal with X : literal_of _ _ ?x |- _ => assert (Ty := literal_typed _ _ _ X); destruct x; auto end.
    + intros ->. auto.
    + intros ->. auto.
    + intros ->. eapply K4; eauto.
  - congruence.
Qed.
(** What becomes of a line is the same with both tolerances. *)
Lemma processes_calm srt pw c d s line c' s' o : sort_contract srt -> reachable srt pw c -> reachable srt pw d -> same_but_tolerance c d -> ~ tolerance_matters c line ->
  processes srt pw c s line c' s' o -> exists d', processes srt pw d s line d' s' o /\ same_but_tolerance c' d'.
Proof.
  intros K Rc Rd S N [A1 N1|c2 s2 ans A1 X C1|c2 s2 ans A1 X C1].
  - exists d. split; [now constructor|exact S].
  - destruct (C80_tolerance_matters_for_floats_only srt pw pw pw c d _ line c2 _ ans K Rc Rd S N X) as (d' & Y & S'). exists d'. split; [now constructor|exact S'].
  - destruct (C80_tolerance_matters_for_floats_only srt pw pw pw c d _ line c2 _ ans K Rc Rd S N X) as (d' & Y & S'). exists d'. split; [now constructor|exact S'].
Qed.
Theorem C80_histories : forall srt pw c d ss h c' ss', sort_contract srt -> reachable srt pw c -> reachable srt pw d -> same_but_tolerance c d ->
  serial srt pw c ss h c' ss' ->
  (forall h1 e h2 c1 ss1, h = h1 ++ e :: h2 -> serial srt pw c ss h1 c1 ss1 -> ~ tolerance_matters c1 (e_line e)) ->
  exists d', serial srt pw d ss h d' ss' /\ same_but_tolerance c' d'.
Proof.
  intros srt pw c d ss h c' ss' K Rc Rd S H. induction H as [|h c1 ss1 sid line c2 s2 o H IH P]; intros F.
  - exists d. split; [constructor|exact S].
  - destruct IH as (d1 & H1 & S1).
    { intros h1 e h2 ca sa E. apply (F h1 e (h2 ++ [{| e_sid := sid; e_line := line; e_outcome := o |}])). rewrite E, <- app_assoc. reflexivity. }
    assert (N : ~ tolerance_matters c1 line) by (exact (F h {| e_sid := sid; e_line := line; e_outcome := o |} [] c1 ss1 eq_refl H)).
    destruct (processes_calm srt pw c1 d1 _ line c2 s2 o K (serial_reach _ _ _ _ _ _ _ Rc H) (serial_reach _ _ _ _ _ _ _ Rd H1) S1 N P) as (d2 & P2 & S2).
    exists d2. split; [now constructor 2 with d1|exact S2].
Qed.
Lemma handle_line_calm srt pw c d s line : sort_contract srt -> reachable srt pw c -> reachable srt pw d -> same_but_tolerance c d -> ~ tolerance_matters c line ->
  (exists u, handle_line srt pw line c s = UB u /\ handle_line srt pw line d s = UB u) \/
  (exists c' d' s' o, handle_line srt pw line c s = Ok (c', s', o) /\ handle_line srt pw line d s = Ok (d', s', o) /\ same_but_tolerance c' d').
Proof.
  intros K Rc Rd S N. destruct (handle_line_spec srt pw line c s) as [(u & E & U & A)|(c' & s' & o & E & P)]; destruct (handle_line_spec srt pw line d s) as [(u2 & E2 & U2 & A2)|(d' & s2 & o2 & E2 & P2)].
  - left. exists u. split; [exact E|]. rewrite E2. apply (C80_undefined_behaviour_and_tolerance srt pw pw pw c d (Some s) line u K Rc Rd S N) in U. unfold undefined_behaviour in U, U2. rewrite U in U2. injection U2 as <-. reflexivity.
  - exfalso. apply (C80_undefined_behaviour_and_tolerance srt pw pw pw c d (Some s) line u K Rc Rd S N) in U. destruct P2 as [A1 N1|c2 s3 ans A1 X C1|c2 s3 ans A1 X C1]; [destruct A; congruence|eapply runs_ub; eauto..].
  - exfalso. apply (C80_undefined_behaviour_and_tolerance srt pw pw pw c d (Some s) line u2 K Rc Rd S N) in U2. destruct P as [A1 N1|c2 s3 ans A1 X C1|c2 s3 ans A1 X C1]; [destruct A2; congruence|eapply runs_ub; eauto..].
  - right. destruct (processes_calm srt pw c d s line c' s' o K Rc Rd S N P) as (d2 & P3 & S3). destruct (processes_unique _ _ _ _ _ _ _ _ _ _ _ P2 P3) as (-> & -> & ->).
    exists c', d2, s', (written o). auto.
Qed.
Theorem C80_servers_without_floats : forall srt pw c0 d0 es, sort_contract srt -> reachable srt pw c0 -> reachable srt pw d0 -> same_but_tolerance c0 d0 -> without_floats c0 ->
  (forall sid line, complete_line (arrived es sid) line -> float_free line) ->
  let sv := run srt (start pw c0) es in let sv' := run srt (start pw d0) es in
  same_but_tolerance (sv_ctx sv) (sv_ctx sv') /\ sv_conns sv = sv_conns sv' /\ sv_accepting sv = sv_accepting sv' /\ sv_crash sv = sv_crash sv'.
Proof.
  intros srt pw c0 d0 es H Rc Rd S W K. cbv zeta.
  enough (G : (sv_crash (run srt (start pw c0) es) = None -> without_floats (sv_ctx (run srt (start pw c0) es))) /\
    same_but_tolerance (sv_ctx (run srt (start pw c0) es)) (sv_ctx (run srt (start pw d0) es)) /\ sv_conns (run srt (start pw c0) es) = sv_conns (run srt (start pw d0) es) /\
    sv_accepting (run srt (start pw c0) es) = sv_accepting (run srt (start pw d0) es) /\ sv_crash (run srt (start pw c0) es) = sv_crash (run srt (start pw d0) es)) by apply G.
  revert K. induction es as [|e es IH] using rev_ind; intros K.
  - cbn. auto.
  - assert (K0 : forall sid line, complete_line (arrived es sid) line -> float_free line).
    { intros sid line Hl. apply (K sid). unfold arrived. rewrite arrives_app. apply complete_more. exact Hl. }
    rewrite !run_snoc. destruct (IH K0) as (IW & I1 & I2 & I3 & I4). clear IH K.
    destruct (sv_crash (run srt (start pw c0) es)) as [u|] eqn:C.
    { unfold step. rewrite C, <- I4. rewrite C. split; [discriminate|auto]. }
    specialize (IW eq_refl).
    destruct (inv_exists srt pw c0 es C) as (h & ss & I). assert (P := i_pw _ _ _ _ _ _ _ I).
    symmetry in I4. destruct (inv_exists srt pw d0 es I4) as (h' & ss' & I'). assert (P' := i_pw _ _ _ _ _ _ _ I').
    assert (R1 := Props_Undefined.run_reaches srt pw c0 es H Rc C). assert (R2 := Props_Undefined.run_reaches srt pw d0 es H Rd I4).
    set (sv := run srt (start pw c0) es) in *. set (sv' := run srt (start pw d0) es) in *. unfold step. rewrite C, I4.
    destruct e as [| |k b|k m|k m|k|k]; rewrite <- ?I2, <- ?I3.
    + destruct (sv_accepting sv) eqn:Ac; cbn [sv_ctx sv_conns sv_accepting sv_crash]; [|rewrite ?C, ?I4; repeat split; auto; try apply I1; congruence]. rewrite P, P'. auto 10.
    + cbn [sv_ctx sv_conns sv_accepting sv_crash]. auto.
    + destruct (nth_error (sv_conns sv) k) as [cn|]; [|rewrite C, I4; auto]. unfold with_conn. cbn [sv_ctx sv_conns sv_accepting sv_crash]. rewrite ?C, ?I4, <- ?I2, <- ?I3. auto 10.
    + destruct (nth_error (sv_conns sv) k) as [cn|]; [|rewrite C, I4; auto]. destruct (c_phase cn); [destruct (has_newline (c_streambuf cn))|..]; rewrite ?C, ?I4; auto.
      unfold with_conn. cbn [sv_ctx sv_conns sv_accepting sv_crash]. rewrite ?C, ?I4, <- ?I2, <- ?I3. auto 10.
    + destruct (nth_error (sv_conns sv) k) as [cn|] eqn:En; [|rewrite C, I4; auto]. destruct (c_phase cn); [destruct (has_newline (c_streambuf cn)) eqn:Hb|..]; rewrite ?C, ?I4; auto.
      apply has_newline_iff in Hb. destruct (getline_spec _ Hb) as [G1 G2]. destruct (i_conn _ _ _ _ _ _ _ I _ _ En) as [_ CI].
      assert (B : float_free (fst (getline (c_streambuf cn)))).
      { apply (K0 k). rewrite (ci_in _ _ _ _ CI). apply next_complete; auto; [|apply (ci_lines _ _ _ _ CI)]. exists (snd (getline (c_streambuf cn)) ++ c_socket cn). rewrite app_assoc, <- G1. reflexivity. }
      unfold handle. rewrite P, P'.
      assert (Wo : forall c' s' o, handle_line srt pw (fst (getline (c_streambuf cn))) (sv_ctx sv) (c_session cn) = Ok (c', s', o) -> without_floats c').
      { intros c' s' o E. destruct (handle_line_spec srt pw (fst (getline (c_streambuf cn))) (sv_ctx sv) (c_session cn)) as [(u & E2 & _)|(c2 & s2 & o2 & E2 & P2)]; rewrite E in E2; [discriminate E2|].
        injection E2 as -> _ _. destruct P2 as [A1 N1|c2 s3 ans A1 X C1|c2 s3 ans A1 X C1]; auto; exact (stays_without _ _ _ _ _ _ _ _ H R1 IW B X). }
      destruct (handle_line_calm srt pw (sv_ctx sv) (sv_ctx sv') (c_session cn) _ H R1 R2 I1 (float_free_calm _ _ IW B)) as [(u & -> & ->)|(c' & d' & s' & o & E1 & -> & S')].
      * unfold crashed. cbn [sv_ctx sv_conns sv_accepting sv_crash]. auto.
      * assert (W' := Wo _ _ _ E1). rewrite E1. destruct o as [r|].
        -- destruct (do_write r m); unfold crashed; cbn [sv_ctx sv_conns sv_accepting sv_crash]; rewrite ?C, ?I4, <- ?I2, <- ?I3; auto 10.
        -- cbn [sv_ctx sv_conns sv_accepting sv_crash]. rewrite ?C, ?I4, <- ?I2, <- ?I3. auto 10.
    + destruct (nth_error (sv_conns sv) k) as [cn|]; [|rewrite C, I4; auto]. destruct (c_phase cn); rewrite ?C, ?I4; auto.
      unfold with_conn. cbn [sv_ctx sv_conns sv_accepting sv_crash]. rewrite ?C, ?I4, <- ?I2, <- ?I3. auto 10.
    + destruct (nth_error (sv_conns sv) k) as [cn|]; [|rewrite C, I4; auto].
      unfold with_conn. cbn [sv_ctx sv_conns sv_accepting sv_crash]. rewrite ?C, ?I4, <- ?I2, <- ?I3. auto 10.
Qed.

(** Two servers with different tolerances and the two clients of C35, who use an Integer. *)
Definition coarse_server : context := new_context false 3 (to_float (atof (B "0.5"))) true.
Definition two_clients_lines (sid : nat) : list bytes :=
  match sid with O => [B "Integer create: x withValue: 5;"; B "x get;"] | S O => [B "x get;"; B "x add: 2;"] | _ => [] end.
Lemma float_free_of line a m args : statement line a m args -> seq_eqb a (B "Float") = false -> no_float_container a = true ->
  forallb (fun x => implb (Grammar.is_float_value x) (Grammar.is_integer_value x)) args = true -> seq_eqb m (B "getFloatComparisonTolerance") = false -> float_free line.
Proof.
  intros Hs Ha Hc Hx Hm a2 m2 args2 Hs2. destruct (statement_unique _ _ _ _ _ _ _ Hs Hs2) as (<- & <- & <-). apply no_float_container_of in Hc. unfold Spec_Safe.float_container in Hc.
  split; [intros ->; vm_compute in Ha; discriminate Ha|]. split; [tauto|]. split; [tauto|]. split; [intros v X; apply Hc; eauto|]. split.
  - intros x I F. rewrite forallb_forall in Hx. assert (Y := Hx x I). apply is_float_value_iff in F. rewrite F in Y. now apply is_integer_value_iff.
  - intros [_ ->]. vm_compute in Hm. discriminate Hm.
Qed.
Example C80_calm_ex : reachable insertion_sort [] empty_server /\ reachable insertion_sort [] coarse_server /\ same_but_tolerance empty_server coarse_server /\ tolerance empty_server <> tolerance coarse_server /\ without_floats empty_server /\ (forall sid line, complete_line (arrived two_clients sid) line -> float_free line) /\ map c_sent (sv_conns (run insertion_sort (start [] coarse_server) two_clients)) = [flat_map with_newline [B "null"; B "7"]; flat_map with_newline [B "5"; B "null"]].
Proof.
  split; [constructor; vm_compute; reflexivity|]. split; [constructor; vm_compute; reflexivity|]. split; [split; [intros n; reflexivity|reflexivity]|]. split; [vm_compute; discriminate|].
  split; [intros n i L; discriminate L|]. split; [|vm_compute; reflexivity].
  intros sid line (ls & rest & Ls & I).
  assert (L : lines_of (arrived two_clients sid) (two_clients_lines sid) []).
  { destruct sid as [|[|sid]]; (split; [vm_compute; reflexivity|]; split; [|intros []]; repeat apply Forall_cons; try apply Forall_nil; vm_compute; intuition discriminate). }
  destruct (lines_of_unique _ _ _ _ _ Ls L) as [-> _]. destruct sid as [|[|sid]]; cbn [two_clients_lines In] in I; repeat destruct I as [<-|I]; try (now destruct I).
  - apply (float_free_of _ (B "Integer") (B "create:withValue:") [B "x"; B "5"]); [stmt|reflexivity..].
  - apply (float_free_of _ (B "x") (B "get") []); [stmt|reflexivity..].
  - apply (float_free_of _ (B "x") (B "get") []); [stmt|reflexivity..].
  - apply (float_free_of _ (B "x") (B "add:") [B "2"]); [stmt|reflexivity..].
Qed.
Print Assumptions C80_servers_without_floats.
