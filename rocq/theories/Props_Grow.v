(** C95: readers do not see growing data shrink. *)
From Coq Require Import String List Ascii ZArith Lia.
From Verif Require Import Bytes StrUtils Outcome Num Instance Context Server Platform.
From Verif Require Import Spec_Grammar Spec_State Spec_Names Spec_Text Spec_Number Spec_Literal Spec_Order Spec_Set Spec_Object Spec_Server Spec_Clients Spec_Secret Spec_Whole Spec_Errors.
From Verif Require Import Proof_Parser Proof_Grammar Proof_Exec Proof_Literal Proof_Names Proof_Context Proof_Number Proof_Set Proof_Server.
From Verif Require Import Props_State Props_Number Props_Object Props_Set Props_Server Props_Clients Props_Linear Props_Trace Props_LastWrite Props_Observe Props_Publish Props_Whole.
From Verif Require Import Spec_Trace Spec_Set Spec_Clients Spec_Grow.
Import ListNotations.
Open Scope list_scope.
Open Scope Z_scope.

Lemma as_counters n h : (forall e, In e h -> only_increases n (e_line e)) -> Forall (as_counter n) h.
Proof.
  intros F. apply Forall_forall. intros e He. destruct (F e He) as [(a & d & Hs & Hd & _)|Lv]; [left|right; exact Lv].
  exists a. split; [left; exact Hs|]. left. apply is_integer_value_iff. eapply int_literal; eauto.
Qed.
Lemma counts_up n h k : counted n h k -> (forall e, In e h -> only_increases n (e_line e)) -> 0 <= k.
Proof.
  intros C. induction C as [|h k e a d C IH Hs Hd X|h k e a d C IH Hs Hd X|h k e C IH N]; intros F; [lia| | |].
  all: assert (IH' : 0 <= k) by (apply IH; intros g Hg; apply F, in_or_app; now left). all: specialize (F e ltac:(apply in_or_app; right; now left)).
  - destruct F as [(a2 & d2 & Hs2 & Hd2 & P)|[_ Si]].
    + destruct (statement_unique _ _ _ _ _ _ _ Hs Hs2) as (_ & _ & Q). injection Q as ->. assert (d = d2) by exact (denotes_int_unique _ _ _ Hd Hd2). lia.
    + exfalso. refine (Si (B "add:") [a] _ Hs). cbn [In mutators]. tauto.
  - destruct F as [(a2 & d2 & Hs2 & _)|[_ Si]].
    + destruct (statement_unique _ _ _ _ _ _ _ Hs Hs2) as (_ & Q & _). discriminate Q.
    + exfalso. refine (Si (B "subtract:") [a] _ Hs). cbn [In mutators]. tauto.
  - exact IH'.
Qed.
Lemma reads_counter srt pw c ss e c' ss' n z args ans : sort_contract srt -> reachable srt pw c -> lookup c n = Some (IObj (OInt z)) ->
  serial srt pw c ss [e] c' ss' -> statement (e_line e) n (B "get") args -> executed e ans -> prints_int z ans /\ lookup c' n = Some (IObj (OInt z)).
Proof.
  intros K R L S Hs X. destruct (C86_reading_an_object srt pw c ss [] e c' ss' n (B "Integer") _ args K R L eq_refl S ltac:(constructor) Hs) as (a & cx & sx & Xa & Sx & Sh).
  { intros Q. exact (refused_not_executed _ _ Q X). }
  assert (a = ans) by (exact (executed_answer _ _ _ Xa X)). subst a.
  assert (Z : shows (float_precision cx) (OInt z) ans) by (apply Sh; right; split; auto; intros ? ? []). split; [inversion Z; auto|].
  change [e] with ([] ++ [e]) in S. apply serial_snoc_inv in S as (c1 & s1 & s2 & S & P & _). apply serial_nil_inv in S as [-> ->].
  destruct (processes_cases _ _ _ _ _ _ _ _ P) as [(Q & -> & _)|(b & Y & _)]; auto. rewrite <- L. eapply leaves_lookup; eauto; [|unfold live; congruence].
  split; [|intros m r I H; destruct (statement_unique _ _ _ _ _ _ _ Hs H) as (_ & <- & _); revert I; cbn [In mutators]; intros I; repeat (destruct I as [I|I]; [discriminate I|]); destruct I].
  split; [|intros ns i _]; intros H; destruct (statement_unique _ _ _ _ _ _ _ Hs H) as (_ & Q & _); discriminate Q.
Qed.

(** Two readings of a counter, one after the other, by anyone: the second number is not smaller. *)
Theorem C95_a_counter_does_not_go_back : forall srt pw c ss e1 h e2 c' ss' n z args1 ans1 args2 ans2, sort_contract srt -> reachable srt pw c ->
  lookup c n = Some (IObj (OInt z)) -> serial srt pw c ss ([e1] ++ h ++ [e2]) c' ss' -> (forall e, In e h -> only_increases n (e_line e)) ->
  statement (e_line e1) n (B "get") args1 -> executed e1 ans1 -> statement (e_line e2) n (B "get") args2 -> executed e2 ans2 ->
  exists z1 z2, prints_int z1 ans1 /\ prints_int z2 ans2 /\ z1 <= z2.
Proof.
  intros srt pw c ss e1 h e2 c' ss' n z args1 ans1 args2 ans2 K R L S F Hs1 X1 Hs2 X2.
  destruct (serial_split _ _ _ _ _ _ _ _ S) as (c1 & ss1 & S1 & S'). destruct (serial_split _ _ _ _ _ _ _ _ S') as (c2 & ss2 & S2 & S3).
  destruct (reads_counter _ _ _ _ _ _ _ _ _ _ _ K R L S1 Hs1 X1) as [P1 L1]. assert (R1 := serial_reach _ _ _ _ _ _ _ R S1).
  destruct (C59_counter _ _ _ _ _ _ _ _ _ K R1 L1 S2 (as_counters _ _ F)) as (k & C & L2).
  destruct (reads_counter _ _ _ _ _ _ _ _ _ _ _ K (serial_reach _ _ _ _ _ _ _ R1 S2) L2 S3 Hs2 X2) as [P2 _].
  exists z, (z + k). split; auto. split; auto. assert (Q := counts_up _ _ _ C F). lia.
Qed.
Lemma asks_set srt pw c ss e c' ss' n t v a x b : sort_contract srt -> reachable srt pw c -> t <> B "Float" -> lookup c n = Some (ISet t v) ->
  serial srt pw c ss [e] c' ss' -> statement (e_line e) n (B "contains?") [a] -> literal_of t a x -> executed e (truth b) ->
  (b = true <-> In x v) /\ lookup c' n = Some (ISet t v).
Proof.
  intros K R N L S Hs Hx X. change [e] with ([] ++ [e]) in S. apply serial_snoc_inv in S as (c1 & s1 & s2 & S & P & _). apply serial_nil_inv in S as [-> ->].
  destruct (processes_cases _ _ _ _ _ _ _ _ P) as [(Q & _)|(ans & Y & O)]; [destruct (refused_not_executed _ _ Q X)|].
  assert (ans = truth b) by (eapply executed_answer; [exact O|exact X]). subst ans. split.
  - destruct (set_has_history srt pw c n t v K R L) as [S H]. destruct (set_history_inv srt pw n t c S K N H) as (_ & v0 & L0 & _ & E0). rewrite L in L0. injection L0 as <-.
    destruct (C21_contains srt pw n t c S (Some (ss (e_sid e))) (e_line e) a x K N H Hs Hx) as (b2 & (c2 & Y2 & _) & I). destruct (runs_unique _ _ _ _ _ _ _ _ _ _ _ Y Y2) as (_ & _ & Q).
    rewrite E0. destruct b, b2; try discriminate Q; exact I.
  - rewrite <- L. eapply leaves_lookup; eauto; [|unfold live; congruence].
    split; [|intros m r I H; destruct (statement_unique _ _ _ _ _ _ _ Hs H) as (_ & <- & _); revert I; cbn [In mutators]; intros I; repeat (destruct I as [I|I]; [discriminate I|]); destruct I].
    split; [|intros ns i _]; intros H; destruct (statement_unique _ _ _ _ _ _ _ Hs H) as (_ & Q & _); discriminate Q.
Qed.
(** What a set once contained it contains as long as nobody removes anything from it. *)
Theorem C95_a_set_forgets_nothing : forall srt pw c ss e1 h e2 c' ss' n t v a1 a2 x b, sort_contract srt -> reachable srt pw c -> t <> B "Float" ->
  lookup c n = Some (ISet t v) -> serial srt pw c ss ([e1] ++ h ++ [e2]) c' ss' -> (forall e, In e h -> removes_nothing n (e_line e)) ->
  statement (e_line e1) n (B "contains?") [a1] -> literal_of t a1 x -> executed e1 (truth true) ->
  statement (e_line e2) n (B "contains?") [a2] -> literal_of t a2 x -> executed e2 (truth b) -> b = true.
Proof.
  intros srt pw c ss e1 h e2 c' ss' n t v a1 a2 x b K R N L S F Hs1 Hx1 X1 Hs2 Hx2 X2.
  destruct (serial_split _ _ _ _ _ _ _ _ S) as (c1 & ss1 & S1 & S'). destruct (serial_split _ _ _ _ _ _ _ _ S') as (c2 & ss2 & S2 & S3).
  destruct (asks_set _ _ _ _ _ _ _ _ _ _ _ _ _ K R N L S1 Hs1 Hx1 X1) as [I1 L1]. assert (R1 := serial_reach _ _ _ _ _ _ _ R S1).
  destruct (C82_a_shared_set_loses_nothing _ _ _ _ _ _ _ _ _ _ K R1 N L1 S2) as (v' & L2 & E); [apply Forall_forall; exact F|].
  apply (asks_set _ _ _ _ _ _ _ _ _ _ _ _ _ K (serial_reach _ _ _ _ _ _ _ R1 S2) N L2 S3 Hs2 Hx2 X2). apply E. left. apply I1. reflexivity.
Qed.

(** On every schedule. *)
Theorem C95_on_every_schedule : forall srt pw c0 es n z, sort_contract srt -> reachable srt pw c0 -> sv_crash (run srt (start pw c0) es) = None ->
  lookup c0 n = Some (IObj (OInt z)) -> (forall sid line, complete_line (arrived es sid) line -> only_increases n line) ->
  exists h, explains srt pw c0 es h /\
    forall h1 e1 h2 e2 h3 args1 ans1 args2 ans2, h = h1 ++ [e1] ++ h2 ++ [e2] ++ h3 ->
      statement (e_line e1) n (B "get") args1 -> executed e1 ans1 -> statement (e_line e2) n (B "get") args2 -> executed e2 ans2 ->
      exists z1 z2, prints_int z1 ans1 /\ prints_int z2 ans2 /\ z <= z1 <= z2.
Proof.
  intros srt pw c0 es n z K R C L O. destruct (C35_every_schedule_is_serialisable srt pw c0 es C) as (h & X). exists h. split; [exact X|].
  intros h1 e1 h2 e2 h3 args1 ans1 args2 ans2 E Hs1 X1 Hs2 X2.
  assert (F : forall e, In e h -> only_increases n (e_line e)).
  { intros e He. destruct (lines_of_exists (arrived es (e_sid e))) as (ls & rest & Ls). destruct (first_lines _ _ _ _ _ _ _ _ X Ls) as (more & E2). apply (O (e_sid e)).
    exists ls, rest. split; auto. rewrite E2. apply in_or_app. left. unfold lines_in. apply in_map, filter_In. split; auto. apply Nat.eqb_refl. }
  destruct X as (ss & S & _). rewrite E in S, F. destruct (serial_split _ _ _ _ _ _ _ _ S) as (c1 & ss1 & S1 & S').
  replace ([e1] ++ h2 ++ [e2] ++ h3) with (([e1] ++ h2 ++ [e2]) ++ h3) in S' by (rewrite <- !app_assoc; reflexivity).
  destruct (serial_prefix _ _ _ _ _ _ _ _ S') as (c2 & ss2 & S2).
  assert (F1 : forall e, In e h1 -> only_increases n (e_line e)) by (intros e He; apply F, in_or_app; now left).
  destruct (C59_counter _ _ _ _ _ _ _ _ _ K R L S1 (as_counters _ _ F1)) as (k & Ck & L1). assert (Q := counts_up _ _ _ Ck F1). assert (R1 := serial_reach _ _ _ _ _ _ _ R S1).
  assert (F2 : forall e, In e h2 -> only_increases n (e_line e)) by (intros e He; apply F, in_or_app; right; apply in_or_app; right; apply in_or_app; now left).
  destruct (C95_a_counter_does_not_go_back _ _ _ _ _ _ _ _ _ _ _ _ _ _ _ K R1 L1 S2 F2 Hs1 X1 Hs2 X2) as (z1 & z2 & P1 & P2 & Le).
  destruct (serial_split _ _ _ _ _ _ _ _ S2) as (c3 & ss3 & S3 & _). destruct (reads_counter _ _ _ _ _ _ _ _ _ _ _ K R1 L1 S3 Hs1 X1) as [P3 _].
  assert (Q2 := prints_int_inj _ _ _ P1 P3). exists z1, z2. split; auto. split; auto. lia.
Qed.

(** Client 0 counts, client 1 watches. *)
Definition watching : list event :=
  [Accept; Accept] ++ talk 1 (B "x get;") ++ talk 0 (B "x add: 3;") ++ talk 0 (B "x add: 0;") ++ talk 1 (B "x get;") ++ talk 0 (B "x add: 4;") ++ talk 1 (B "x get;").
Example C95_ex : let sv := run insertion_sort (start [] one_integer) watching in
  reachable insertion_sort [] one_integer /\ sv_crash sv = None /\ lookup one_integer (B "x") = Some (IObj (OInt 5)) /\
  (forall sid line, complete_line (arrived watching sid) line -> only_increases (B "x") line) /\
  map c_sent (sv_conns sv) = [flat_map with_newline [B "null"; B "null"; B "null"]; flat_map with_newline [B "5"; B "8"; B "12"]].
Proof.
  cbv zeta. split; [apply one_integer_reachable|]. split; [vm_compute; reflexivity|]. split; [vm_compute; reflexivity|]. split; [|vm_compute; reflexivity].
  assert (L : forall k ls, arrived watching k = flat_map with_newline ls -> forallb (fun l => negb (existsb (Ascii.eqb NEWLINE) l)) ls = true -> lines_of (arrived watching k) ls []).
  { intros k ls E F. split; [now rewrite app_nil_r|]. split; [|intros []]. rewrite forallb_forall in F. apply Forall_forall. intros l Hl I. apply F in Hl.
    apply Bool.negb_true_iff in Hl. rewrite <- Bool.not_true_iff_false, existsb_exists in Hl. apply Hl. exists NEWLINE. split; [exact I|apply Ascii.eqb_refl]. }
  intros sid line (ls & rest & Ls & I). destruct sid as [|[|sid]].
  - destruct (lines_of_unique _ _ _ _ _ Ls (L 0%nat [B "x add: 3;"; B "x add: 0;"; B "x add: 4;"] eq_refl eq_refl)) as [-> _].
    cbn [In] in I. destruct I as [<-|[<-|[<-|[]]]]; left; [exists (B "3"), 3|exists (B "0"), 0|exists (B "4"), 4].
    all: split; [stmt|]; split; [|lia]. apply (int_plain (B "3")); [repeat constructor; cbn; lia|discriminate]. apply (int_plain (B "0")); [repeat constructor; cbn; lia|discriminate].
    apply (int_plain (B "4")); [repeat constructor; cbn; lia|discriminate].
  - destruct (lines_of_unique _ _ _ _ _ Ls (L 1%nat [B "x get;"; B "x get;"; B "x get;"] eq_refl eq_refl)) as [-> _].
    cbn [In] in I. destruct I as [<-|[<-|[<-|[]]]]; right; leaf.
  - destruct (lines_of_unique _ _ _ _ _ Ls (L (S (S sid)) [] eq_refl eq_refl)) as [-> _]. destruct I.
Qed.
Definition growing_set : context := data_after [B "Set<Integer> create: s;"; B "s add: 1;"].
Example C95_set_ex : reachable insertion_sort [] growing_set /\ lookup growing_set (B "s") = Some (ISet (B "Integer") [OInt 1]) /\
  exists c ss e1 e2 e3, serial insertion_sort [] growing_set (fun _ => fresh []) ([e1] ++ [e2] ++ [e3]) c ss /\
    statement (e_line e1) (B "s") (B "contains?") [B "1"] /\ literal_of (B "Integer") (B "1") (OInt 1) /\ executed e1 (truth true) /\
    removes_nothing (B "s") (e_line e2) /\ statement (e_line e2) (B "s") (B "add:") [B "2"] /\
    statement (e_line e3) (B "s") (B "contains?") [B "+1"] /\ literal_of (B "Integer") (B "+1") (OInt 1) /\ executed e3 (truth true).
Proof.
  split; [apply data_after_reachable|]. split; [vm_compute; reflexivity|].
  destruct (play growing_set [] [(0%nat, B "s contains? 1;"); (1%nat, B "s add: 2;"); (0%nat, B "s contains? +1;")]) as [[c h]|] eqn:E; [|vm_compute in E; discriminate].
  destruct (plays _ _ _ _ E) as (ss & S). vm_compute in E. injection E as <- <-. match type of S with serial _ _ _ _ [?a; ?b; ?d] ?c2 _ => exists c2, ss, a, b, d end.
  split; [exact S|]. clear S. cbn [e_line]. split; [stmt|]. split; [ex_lit|]. split; [left; reflexivity|].
  split; [split; [split; [nostmt|intros ? ? _; nostmt]|intros m args I H; apply parse_iff in H; vm_compute in H; injection H as <- <-; vm_compute in I; intuition discriminate]|].
  split; [stmt|]. split; [stmt|]. split; [ex_lit|left; reflexivity].
Qed.
Print Assumptions C95_a_counter_does_not_go_back.
Print Assumptions C95_a_set_forgets_nothing.
Print Assumptions C95_on_every_schedule.
