(** C85: it does not matter who sends a line. *)
From Coq Require Import String List Ascii ZArith Lia.
From Coq Require Import Floats.SpecFloat.
From Verif Require Import Bytes StrUtils Outcome Grammar Parser Num Instance Context Server Platform.
From Verif Require Import Spec_Grammar Spec_State Spec_Names Spec_Text Spec_Order Spec_Server Spec_Secret Spec_Possible.
From Verif Require Import Proof_Parser Proof_Exec Proof_Names Proof_Context Proof_Order Proof_Server.
From Verif Require Import Props_State Props_Server Props_Local Props_Clients Props_Trace Props_Recover Props_Possible.
From Verif Require Import Spec_Recover Spec_Anyone.
Import ListNotations.
Open Scope list_scope.

(** Clients may be numbered otherwise. *)
Theorem C85_renumbering : forall srt pw c ss h c' ss' f st, (forall i j, f i = f j -> i = j) -> (forall k, st (f k) = ss k) ->
  serial srt pw c ss h c' ss' -> exists st', serial srt pw c st (map (renumbered f) h) c' st' /\ forall k, st' (f k) = ss' k.
Proof.
  intros srt pw c ss h c' ss' f st I E S. induction S as [|h c1 ss1 sid line c2 s2 o S IH P].
  - exists st. split; [constructor|exact E].
  - destruct IH as (st1 & S1 & E1). rewrite map_app. exists (fun k => if (k =? f sid)%nat then s2 else st1 k). split.
    + cbn [map renumbered e_sid e_line e_outcome]. apply (serial_more srt pw c st (map (renumbered f) h) c1 st1 (f sid) line c2 s2 o S1). now rewrite E1.
    + intros k. cbn beta. destruct (Nat.eqb_spec (f k) (f sid)) as [Q|Q], (Nat.eqb_spec k sid) as [Q'|Q']; auto; [destruct Q'; auto|subst; contradiction].
Qed.

Lemma common_step srt pw c s line c' s' o : sort_contract srt -> reachable srt pw c -> admitted s -> ~ connection_line line ->
  processes srt pw c s line c' s' o -> s' = s /\ (exists ans, o = Answered ans) /\ forall t, admitted t -> processes srt pw c t line c' t o.
Proof.
  intros H1 H2 Ad N P. inversion P as [A|? ? ans A R C|? ? ans A R C]; subst.
  - destruct Ad as [_ Ad]. rewrite A in Ad. discriminate Ad.
  - assert (Q := other_session _ _ _ _ _ _ _ _ H1 H2 N R). injection Q as ->. split; auto. split; [eauto|]. intros t At.
    destruct (any_session srt pw c s t line c' _ ans R) as (t' & R'). assert (Q := other_session _ _ _ _ _ _ _ _ H1 H2 N R'). injection Q as ->.
    constructor; auto; [left; apply At|apply At].
  - assert (Q := other_session _ _ _ _ _ _ _ _ H1 H2 N R). injection Q as ->. destruct Ad as [Ad _]. rewrite C in Ad. discriminate Ad.
Qed.
(** The same lines, sent by others: the same outcomes and the same data, log included. *)
Theorem C85_any_assignment : forall srt pw c ss h c' ss' st h2, sort_contract srt -> reachable srt pw c ->
  serial srt pw c ss h c' ss' -> Forall (common ss) h -> Forall2 same_line h h2 -> Forall (common st) h2 ->
  exists st', serial srt pw c st h2 c' st' /\ (forall k, st' k = st k) /\ (forall k, ss' k = ss k) /\ Forall (fun e => exists ans, e_outcome e = Answered ans) h2.
Proof.
  intros srt pw c ss h c' ss' st h2 H1 H2 S. revert h2. induction S as [|h c1 ss1 sid line c2 s2 o S IH P]; intros h2 F S2 F2.
  - inversion S2; subst. exists st. split; [constructor|]. auto.
  - apply Forall_app in F as [F Fe]. inversion Fe as [|? ? [Ad N] _]; subst. cbn [e_sid e_line] in Ad, N.
    apply Forall2_app_inv_l in S2 as (k2 & l2 & S2 & T2 & ->). inversion T2 as [|? e' ? ? [E1 E2] T3]; subst. inversion T3; subst. cbn [e_line e_outcome] in E1, E2.
    apply Forall_app in F2 as [F2 Fe2]. inversion Fe2 as [|? ? [Ad2 _] _]; subst.
    destruct (IH k2 F S2 F2) as (st1 & S1 & X1 & Y1 & O1). assert (R1 := serial_reach _ _ _ _ _ _ _ H2 S). rewrite <- Y1 in Ad.
    destruct (common_step srt pw c1 (ss1 sid) (e_line e') c2 s2 _ H1 R1 Ad N P) as (-> & (ans & Ea) & Q).
    exists (fun k => if (k =? e_sid e')%nat then st (e_sid e') else st1 k). split; [|split; [|split]].
    + destruct e' as [k l o]. cbn [e_line e_outcome e_sid] in *. apply serial_more with (c1 := c1); auto. rewrite X1. apply Q, Ad2.
    + intros k. destruct (Nat.eqb_spec k (e_sid e')) as [->|]; auto.
    + intros k. destruct (Nat.eqb_spec k sid) as [->|]; auto.
    + apply Forall_app. split; auto. constructor; [exists ans; exact Ea|constructor].
Qed.
(** Everything that any number of clients did can be done by others, or by one client alone: on a server without password, take any schedule in which nobody sent a
    message to Connection, and give the lines that were processed to any clients.  Then there is a schedule in which these clients send these lines, and each gets
    the answers to its lines, and the data and the log are the same. *)
Theorem C85_one_client_can_do_it_all : forall srt c0 es h h2, sort_contract srt -> reachable_by_lines srt [] c0 ->
  sv_crash (run srt (start [] c0) es) = None -> explains srt [] c0 es h -> (forall e, In e h -> ~ connection_line (e_line e)) -> Forall2 same_line h h2 ->
  exists es2, sv_crash (run srt (start [] c0) es2) = None /\ explains srt [] c0 es2 h2 /\
    sv_ctx (run srt (start [] c0) es2) = sv_ctx (run srt (start [] c0) es) /\
    (forall sid, arrived es2 sid = flat_map with_newline (lines_in sid h2)) /\
    forall sid cn, nth_error (sv_conns (run srt (start [] c0) es2)) sid = Some cn -> finished cn /\ c_sent cn = flat_map with_newline (answers_in sid h2).
Proof.
  intros srt c0 es h h2 H1 H2 C X N S2.
  assert (R : reachable srt [] c0) by (eapply by_lines_reachable; eauto).
  assert (Po : possible srt [] c0 h) by (apply C76_exactly_the_possible_histories; eauto).
  destruct X as (ss & S & X).
  assert (F : Forall (common (fun _ => fresh [])) h) by (apply Forall_forall; intros e He; split; [split; reflexivity|auto]).
  assert (F2 : Forall (common (fun _ => fresh [])) h2).
  { clear - F S2. induction S2 as [|e e' h h2 [E _] S2 IH]; constructor; inversion F as [|? ? [_ N] F']; subst; auto. split; [split; reflexivity|now rewrite E]. }
  destruct (C85_any_assignment srt [] c0 _ h _ _ (fun _ => fresh []) h2 H1 R S F S2 F2) as (st' & S' & _ & _ & Ans).
  assert (Po2 : possible srt [] c0 h2).
  { constructor.
    - eauto.
    - assert (Q := pos_lines _ _ _ _ Po). clear - S2 Q. induction S2 as [|e e' h h2 [E _] S2 IH]; constructor; inversion Q; subst; auto. now rewrite E.
    - intros sid b e a E (ans & Ce). exfalso. assert (Ie : In e h2) by (apply (proj1 (filter_In (fun e => (e_sid e =? sid)%nat) e h2)); change (In e (entries_of sid h2)); rewrite E; apply in_elt).
      rewrite Forall_forall in Ans. destruct (Ans e Ie) as (a' & Ea). rewrite Ea in Ce. discriminate Ce.
    - assert (Q := pos_short _ _ _ _ Po). clear - S2 Q. induction S2 as [|e e' h h2 [_ E] S2 IH]; constructor; inversion Q; subst; auto. now rewrite E. }
  destruct (C76_every_order_can_happen srt [] c0 h2 Po2) as (e1 & e2 & A1 & A2 & A3 & A4 & A5 & A6).
  exists (e1 ++ e2). split; auto. split; auto. split; [|split].
  - destruct A5 as (s5 & S5 & _). now destruct (serial_unique _ _ _ _ _ _ _ _ _ _ S5 S' eq_refl) as (_ & -> & _).
  - intros sid. now rewrite A3.
  - intros sid cn Hn. split; [eauto|]. destruct A5 as (s5 & _ & _ & A5). destruct (A5 sid cn Hn) as [_ B]. apply B.
Qed.
(** Two clients, and then one with another number that sends the two lines. *)
Definition two_lines : list entry :=
  [{| e_sid := 0; e_line := B "Integer create: x withValue: 5;"; e_outcome := Answered (B "null") |}; {| e_sid := 1; e_line := B "x get;"; e_outcome := Answered (B "5") |}].
Definition one_sender : list entry :=
  [{| e_sid := 3; e_line := B "Integer create: x withValue: 5;"; e_outcome := Answered (B "null") |}; {| e_sid := 3; e_line := B "x get;"; e_outcome := Answered (B "5") |}].
Example C85_ex : reachable_by_lines insertion_sort [] empty_server /\ (exists es, sv_crash (run insertion_sort (start [] empty_server) es) = None /\ explains insertion_sort [] empty_server es two_lines) /\
  (forall e, In e two_lines -> ~ connection_line (e_line e)) /\ Forall2 same_line two_lines one_sender /\
  Forall (common (fun _ => fresh [])) two_lines /\ Forall (common (fun _ => fresh [])) one_sender /\
  map (renumbered S) one_sender <> one_sender.
Proof.
  assert (N : forall line, match parse line with Ok p => negb (seq_eqb (p_actor p) (B "Connection")) | _ => true end = true -> ~ connection_line line).
  { intros line H (m & args & Hs). apply parse_iff in Hs. rewrite Hs in H. discriminate H. }
  assert (R : reachable_by_lines insertion_sort [] empty_server) by (constructor; vm_compute; reflexivity).
  split; [exact R|]. split; [apply (C76_exactly_the_possible_histories insertion_sort [] empty_server two_lines Proof_Order.insertion_sort_contract R); apply C76_ex|]. split; [|split; [|split; [|split]]].
  - intros e [<-|[<-|[]]]; apply N; vm_compute; reflexivity.
  - repeat constructor.
  - repeat apply Forall_cons; try apply Forall_nil; (split; [split; reflexivity|apply N; vm_compute; reflexivity]).
  - repeat apply Forall_cons; try apply Forall_nil; (split; [split; reflexivity|apply N; vm_compute; reflexivity]).
  - discriminate.
Qed.
Print Assumptions C85_renumbering.
Print Assumptions C85_any_assignment.
Print Assumptions C85_one_client_can_do_it_all.
