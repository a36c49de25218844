(** Property C82: independent lines of different clients may be executed in either order; a shared set loses no element.  Specification: [Spec_Trace]. *)
From Coq Require Import ZArith Reals QArith Sorting.Sorted Sorting.Permutation.
From Verif Require Import Bytes StrUtils Grammar Outcome Parser Num Containers Instance Context Server Platform.
From Verif Require Import Lemmas StringLit Proof_Grammar Proof_Parser Proof_Exec WP Proof_Inv Proof_Literal Proof_Receive Proof_Context Proof_Names Api Proof_Local Proof_Order Proof_Set.
From Verif Require Import Proof_Server Props_State Props_Number Props_Order Props_Set Props_Local Props_Clients Props_Alone Props_Server Props_Linear Props_Coherent Props_Observe Proof_Trace.
From Verif Require Import Spec_Grammar Spec_State Spec_Names Spec_Text Spec_Number Spec_Float Spec_Order Spec_Vector Spec_String Spec_Set Spec_Server Spec_Alone Spec_Local Spec_Trace.
Local Open Scope list_scope.

Theorem C82_independent_lines_commute : forall srt pw c s t l1 l2 c1 c2 s' t' a1 a2, sort_contract srt -> reachable srt pw c -> independent c l1 l2 ->
  runs srt pw c s l1 c1 s' a1 -> runs srt pw c1 t l2 c2 t' a2 ->
  exists d1 d2, runs srt pw c t l2 d1 t' a2 /\ runs srt pw d1 s l1 d2 s' a1 /\ same_data c2 d2.
Proof. exact exchange_independent. Qed.

Lemma serial_one srt pw c ss e h c' ss' : serial srt pw c ss (e :: h) c' ss' ->
  exists c1 s1, processes srt pw c (ss (e_sid e)) (e_line e) c1 s1 (e_outcome e) /\ serial srt pw c1 (fun k => if (k =? e_sid e)%nat then s1 else ss k) h c' ss'.
Proof.
  intros H. change (e :: h) with ([e] ++ h) in H. destruct (serial_split srt pw c ss [e] h c' ss' H) as (c1 & ss1 & A & B).
  apply (serial_snoc_inv srt pw c ss [] e) in A as (c0 & ss0 & s2 & A & P & ->). apply serial_nil_inv in A as [-> ->]. eauto.
Qed.
Lemma serial_cons srt pw c ss sid line o h c1 s1 c' ss' : processes srt pw c (ss sid) line c1 s1 o -> serial srt pw c1 (fun k => if (k =? sid)%nat then s1 else ss k) h c' ss' ->
  serial srt pw c ss ({| e_sid := sid; e_line := line; e_outcome := o |} :: h) c' ss'.
Proof.
  intros P H. change (serial srt pw c ss ([{| e_sid := sid; e_line := line; e_outcome := o |}] ++ h) c' ss').
  apply (serial_app srt pw c ss _ c1 (fun k => if (k =? sid)%nat then s1 else ss k)); [|exact H].
  exact (serial_more srt pw c ss [] c ss sid line c1 s1 o (serial_none _ _ _ _) P).
Qed.
Theorem C82_exchanging_independent_lines : forall srt pw c ss h h' c' ss', sort_contract srt -> reachable srt pw c ->
  serial srt pw c ss h c' ss' -> exchanged srt pw c ss h h' ->
  exists d' st', serial srt pw c ss h' d' st' /\ same_data c' d' /\ forall k, st' k = ss' k.
Proof.
  intros srt pw c ss h h' c' ss' K R H X. revert c' ss' H. induction X as [h|h1 c1 ss1 e1 e2 h2 A N I|h1 h2 h3 X1 IH1 X2 IH2]; intros c' ss' H.
  - exists c', ss'. split; [exact H|]. split; [split; [reflexivity|now split]|reflexivity].
  - destruct (serial_split srt pw c ss h1 _ c' ss' H) as (c1' & ss1' & A' & H1).
    destruct (serial_unique srt pw c ss h1 h1 _ _ _ _ A A') as (_ & <- & E0); [reflexivity|].
    assert (R1 := serial_reach srt pw c ss h1 c1 ss1 R A).
    destruct (serial_one srt pw c1 ss1' e1 _ c' ss' H1) as (c2 & s1 & P1 & H2). destruct (serial_one srt pw c2 _ e2 _ c' ss' H2) as (c3 & s2 & P2 & H3). cbn beta in P2.
    destruct (Nat.eqb_spec (e_sid e2) (e_sid e1)) as [Q|Q]; [destruct N; now symmetry|].
    destruct (processes_exchange srt pw c1 _ _ _ _ c2 c3 s1 s2 _ _ K R1 I P1 P2) as (d2 & d3 & P2' & P1' & E).
    assert (R2 := processes_reach srt pw _ _ _ _ _ _ R1 P1). assert (R3 := processes_reach srt pw _ _ _ _ _ _ R2 P2).
    assert (R2' := processes_reach srt pw _ _ _ _ _ _ R1 P2'). assert (R3' := processes_reach srt pw _ _ _ _ _ _ R2' P1').
    pose (st := fun k => if (k =? e_sid e1)%nat then s1 else if (k =? e_sid e2)%nat then s2 else ss1' k).
    assert (Z : forall k, st k = (fun k => if (k =? e_sid e2)%nat then s2 else (fun k => if (k =? e_sid e1)%nat then s1 else ss1' k) k) k).
    { intros k. cbn beta. unfold st. destruct (Nat.eqb_spec k (e_sid e2)) as [->|]; [|reflexivity]. destruct (Nat.eqb_spec (e_sid e2) (e_sid e1)); [contradiction|reflexivity]. }
    destruct (serial_data srt pw c3 d3 _ st h2 c' ss' K R3 R3' E Z H3) as (d' & st' & H' & E' & S').
    exists d', st'. split; [|now split]. apply (serial_app srt pw c ss h1 c1 ss1'); [exact A'|].
    destruct e1 as [sid1 line1 o1], e2 as [sid2 line2 o2]. cbn [e_sid e_line e_outcome] in *.
    eapply serial_cons; [exact P2'|]. eapply serial_cons; [|exact H']. cbn beta. destruct (Nat.eqb_spec sid1 sid2); [contradiction|exact P1'].
  - destruct (IH1 c' ss' H) as (d1 & st1 & H1 & E1 & S1). destruct (IH2 d1 st1 H1) as (d2 & st2 & H2 & E2 & S2).
    exists d2, st2. split; [exact H2|]. split; [|intros k; now rewrite S2].
    destruct E1 as [L1 [P1 T1]], E2 as [L2 [P2 T2]]. split; [intros m; now rewrite L2|split; congruence].
Qed.

(** ** A shared set loses no element. *)
Lemma added_step srt pw c s line c' s' ans n t v : sort_contract srt -> t <> B "Float" -> reachable srt pw c -> lookup c n = Some (ISet t v) ->
  runs srt pw c s line c' s' ans -> keeps line n -> silent line n [B "remove:"; B "clear"] ->
  exists v', lookup c' n = Some (ISet t v') /\ forall x, In x v' <-> In x v \/ uses_element line n t AddElement x.
Proof.
  intros K N R L X Kp Si.
  destruct (Classical_Prop.classic (exists x, uses_element line n t AddElement x)) as [[x (a & Hs & Hx)]|No].
  - destruct (set_has_history srt pw c n t v K R L) as [S H]. cbn [set_message_of] in Hs.
    destruct (C21_add srt pw n t c S s line a x K N H Hs Hx) as (c1 & X1 & H1). destruct (runs_unique _ _ _ _ _ _ _ _ _ _ _ X X1) as (<- & _ & _).
    destruct (set_history_inv srt pw n t c S K N H) as (_ & v0 & L0 & _ & E0). rewrite L in L0. injection L0 as <-.
    destruct (set_history_inv srt pw n t c' _ K N H1) as (_ & v1 & L1 & _ & E1). exists v1. split; [exact L1|]. intros y. rewrite E1. unfold with_element. rewrite E0.
    split; [intros [Y|Y]; [now left|right; subst y; exists a; now split]|]. intros [Y|(b & Y & Z)]; [now left|right].
    cbn [set_message_of] in Y. destruct (statement_unique _ _ _ _ _ _ _ Hs Y) as (_ & _ & Q). injection Q as <-. exact (literal_unique _ _ _ _ Z Hx).
  - exists v. split; [|intros x; split; [now left|intros [Y|Y]; [exact Y|destruct No; now exists x]]].
    destruct (step_cases srt pw c s line c' s' ans n K R X) as [E|[(m & args & i & Hs & _ & E)|[(T & m & args & i & _ & _ & E & _)|[_ E]]]]; [congruence| |congruence|contradiction].
    destruct (step_variable srt pw c s line n m args _ c' s' ans K R Hs L X) as (E1 & _). rewrite E1. f_equal. rewrite set_message. unfold on.
    destruct (set_stored srt pw c n t v K R L) as [Ho _].
    destruct (set_changes (env_of srt c) t m args v Ho) as [Q|[(a & x & -> & Hx & [->| ->])|[-> ->]]].
    + destruct (set_receive _ t m args v) as [v1 r]. cbn [fst] in *. now subst.
    + destruct No. exists x, a. now split.
    + destruct (Si (B "remove:") [a]); [now left|exact Hs].
    + destruct (Si (B "clear") []); [right; now left|exact Hs].
Qed.
Theorem C82_a_shared_set_loses_nothing : forall srt pw c ss h c' ss' n t v, sort_contract srt -> reachable srt pw c -> t <> B "Float" ->
  lookup c n = Some (ISet t v) -> serial srt pw c ss h c' ss' -> only_added n h ->
  exists v', lookup c' n = Some (ISet t v') /\ forall x, In x v' <-> In x v \/ adds h n t x.
Proof.
  intros srt pw c ss h c' ss' n t v K R N L H. induction H as [|h c1 ss1 sid line c2 s2 o H IH P]; intros F.
  - exists v. split; [exact L|]. intros x. split; [now left|]. intros [Y|(e & [] & _)]. exact Y.
  - apply Forall_app in F as [F Fe]. apply Forall_inv in Fe. cbn [e_line] in Fe. destruct Fe as [Kp Si]. destruct (IH F) as (v1 & L1 & E1).
    assert (R1 := serial_reach _ _ _ _ _ _ _ R H).
    assert (Q : exists v2, lookup c2 n = Some (ISet t v2) /\ forall x, In x v2 <-> In x v1 \/ (o <> Refused /\ uses_element line n t AddElement x)).
    { destruct (processes_cases _ _ _ _ _ _ _ _ P) as [(-> & -> & _)|(ans & X & O)].
      - exists v1. split; [exact L1|]. intros x. split; [now left|]. intros [Y|[Y _]]; [exact Y|now destruct Y].
      - destruct (added_step srt pw c1 _ line c2 _ ans n t v1 K N R1 L1 X Kp Si) as (v2 & L2 & E2). exists v2. split; [exact L2|]. intros x. rewrite E2.
        assert (o <> Refused) by (destruct O as [->| ->]; discriminate). tauto. }
    destruct Q as (v2 & L2 & E2). exists v2. split; [exact L2|]. intros x. rewrite E2, E1. split.
    + intros [[Y|(e & I & A & B)]|[A B]]; [now left|right; exists e; split; [apply in_or_app; now left|now split]|].
      right. exists {| e_sid := sid; e_line := line; e_outcome := o |}. split; [apply in_or_app; right; now left|]. now split.
    + intros [Y|(e & I & A & B)]; [left; now left|]. apply in_app_or in I as [I|[<-|[]]]; [left; right; now exists e|]. right. now split.
Qed.
(** So two servers with the same set agree about it again as soon as the same elements were added to both, whatever else happened, in whatever order. *)
Theorem C82_shared_sets_converge : forall srt pw c d ss st h g c' d' ss' st' n t v, sort_contract srt -> reachable srt pw c -> reachable srt pw d -> t <> B "Float" ->
  lookup c n = Some (ISet t v) -> lookup d n = Some (ISet t v) ->
  serial srt pw c ss h c' ss' -> serial srt pw d st g d' st' -> only_added n h -> only_added n g -> (forall x, adds h n t x <-> adds g n t x) ->
  lookup d' n = lookup c' n.
Proof.
  intros srt pw c d ss st h g c' d' ss' st' n t v K Rc Rd N Lc Ld H G Oh Og E.
  destruct (C82_a_shared_set_loses_nothing srt pw c ss h c' ss' n t v K Rc N Lc H Oh) as (v1 & L1 & E1).
  destruct (C82_a_shared_set_loses_nothing srt pw d st g d' st' n t v K Rd N Ld G Og) as (v2 & L2 & E2).
  assert (R1 := serial_reach _ _ _ _ _ _ _ Rc H). assert (R2 := serial_reach _ _ _ _ _ _ _ Rd G). rewrite L1, L2. do 2 f_equal.
  destruct (set_stored srt pw c' n t v1 K R1 L1) as [_ F1]. destruct (set_stored srt pw d' n t v2 K R2 L2) as [_ F2].
  assert (A1 := C23_never_the_same_element_twice srt pw c' n t v1 K R1 L1). assert (A2 := C23_never_the_same_element_twice srt pw d' n t v2 K R2 L2).
  apply (C21_listing_unique t zero32 (fun x => In x v2)); [exact N|now apply fine_types| |]; (split; [assumption|]); intros x; [tauto|]. rewrite E1, E2, E. tauto.
Qed.

Theorem C82_a_shared_set_under_any_schedule : forall srt pw c0 es n t v, sort_contract srt -> reachable srt pw c0 -> t <> B "Float" ->
  lookup c0 n = Some (ISet t v) -> sv_crash (run srt (start pw c0) es) = None ->
  exists h, explains srt pw c0 es h /\
    (only_added n h -> exists v', lookup (sv_ctx (run srt (start pw c0) es)) n = Some (ISet t v') /\ forall x, In x v' <-> In x v \/ adds h n t x).
Proof.
  intros srt pw c0 es n t v K R N L C. destruct (C35_every_schedule_is_serialisable srt pw c0 es C) as (h & X). exists h. split; [exact X|].
  intros F. destruct X as (ss & S & _). exact (C82_a_shared_set_loses_nothing srt pw c0 _ h _ ss n t v K R N L S F).
Qed.

Definition shared_data : context := data_after [B "Set<Integer> create: s;"; B "s add: 5;"; B "Integer create: x withValue: 7;"; B "Dictionary<String,Integer> create: d;"].
Definition shared_lines : list (nat * bytes) := [(0%nat, B "s add: 1;"); (1%nat, B "s add: 2;"); (0%nat, B "x add: 3;"); (1%nat, B "x subtract: 4;")].
Definition exchanged_lines : list (nat * bytes) := [(1%nat, B "s add: 2;"); (0%nat, B "s add: 1;"); (1%nat, B "x subtract: 4;"); (0%nat, B "x add: 3;")].
Lemma digit_denotes (a : bytes) z : Forall digit a -> a <> [] -> digits_value a = z -> denotes_int a z.
Proof. intros F N <-. now apply int_plain. Qed.
Ltac digits := apply digit_denotes; [repeat constructor; cbn; lia|discriminate|reflexivity].
Example C82_ex : exists c h h' ss, reachable insertion_sort [] shared_data /\ serial insertion_sort [] shared_data (fun _ => fresh []) h c ss /\ only_added (B "s") h /\
  map (fun e => (e_sid e, e_line e)) h = shared_lines /\ map (fun e => (e_sid e, e_line e)) h' = exchanged_lines /\
  exchanged insertion_sort [] shared_data (fun _ => fresh []) h h' /\
  lookup c (B "s") = Some (ISet (B "Integer") [OInt 1; OInt 2; OInt 5]) /\ lookup c (B "x") = Some (IObj (OInt 6)) /\
  independent c (B "d associateValue: 1 withKey: ""a"";") (B "d getValueForKey: ""b"";") /\ independent c (B "x get;") (B "x get;").
Proof.
  destruct (play shared_data [] shared_lines) as [[c h]|] eqn:E; [|vm_compute in E; discriminate E].
  destruct (plays _ _ _ _ E) as (ss & S). exists c, h.
  assert (R : reachable insertion_sort [] shared_data) by apply data_after_reachable.
  pose (h' := match h with [e1; e2; e3; e4] => [e2; e1; e4; e3] | _ => [] end). exists h', ss. split; [exact R|]. split; [exact S|].
  assert (Eh : h = [{| e_sid := 0; e_line := B "s add: 1;"; e_outcome := Answered (B "null") |}; {| e_sid := 1; e_line := B "s add: 2;"; e_outcome := Answered (B "null") |};
                    {| e_sid := 0; e_line := B "x add: 3;"; e_outcome := Answered (B "null") |}; {| e_sid := 1; e_line := B "x subtract: 4;"; e_outcome := Answered (B "null") |}]).
  { vm_compute in E. inversion E; subst. reflexivity. }
  assert (Lc : lookup c (B "s") = Some (ISet (B "Integer") [OInt 1; OInt 2; OInt 5]) /\ lookup c (B "x") = Some (IObj (OInt 6)) /\ lookup c (B "d") = Some (IDict (B "String") (B "Integer") [])).
  { vm_compute in E. inversion E; subst. split; [vm_compute; reflexivity|]. split; vm_compute; reflexivity. }
  clear E. subst h. unfold h'. clear h'.
  assert (V : variable (B "x")) by (apply is_variable_iff; reflexivity).
  split; [repeat apply Forall_cons; try apply Forall_nil; cbn [e_line]; leaf|]. split; [reflexivity|]. split; [reflexivity|]. split; [|split; [apply Lc|split; [apply Lc|split]]].
  - destruct (serial_split insertion_sort [] shared_data (fun _ => fresh []) [_; _] [_; _] _ _ S) as (c2 & ss2 & S2 & _).
    assert (F : forall z, (0 <= z <= 10)%Z -> fits z) by (intros z Hz; unfold fits; lia).
    eapply exchanged_twice.
    + apply (exchanged_neighbours insertion_sort [] shared_data (fun _ => fresh []) [] shared_data (fun _ => fresh [])); [constructor|discriminate|].
      eapply (independent_elements _ _ _ (B "s") (B "Integer") [OInt 5] AddElement AddElement (OInt 1) (OInt 2)); [vm_compute; reflexivity|discriminate| | |now right].
      * exists (B "1"). split; [stmt|]. ex_lit.
      * exists (B "2"). split; [stmt|]. ex_lit.
    + apply (exchanged_neighbours insertion_sort [] shared_data (fun _ => fresh [])
        [{| e_sid := 1; e_line := B "s add: 2;"; e_outcome := Answered (B "null") |}; {| e_sid := 0; e_line := B "s add: 1;"; e_outcome := Answered (B "null") |}]
        (data_after [B "Set<Integer> create: s;"; B "s add: 5;"; B "Integer create: x withValue: 7;"; B "Dictionary<String,Integer> create: d;"; B "s add: 2;"; B "s add: 1;"])
        (fun k => if (k =? 0)%nat then fresh [] else if (k =? 1)%nat then fresh [] else fresh [])); [|discriminate|].
      * eapply (serial_more _ _ _ _ [_] _ (fun k => if (k =? 1)%nat then fresh [] else fresh []) 0%nat); [eapply (serial_more _ _ _ _ [] _ _ 1%nat); [constructor|]|].
        -- constructor; [left; reflexivity|unfold runs; vm_compute; reflexivity|reflexivity].
        -- constructor; [left; reflexivity|unfold runs; vm_compute; reflexivity|reflexivity].
      * eapply (independent_counts _ _ _ (B "x") 7 3 (-4)); [vm_compute; reflexivity| | |apply F; lia].
        -- eapply (counts_add _ _ (B "3")); [stmt|digits|apply F; lia].
        -- apply (counts_subtract _ _ (B "4") 4); [stmt|digits|apply F; lia].
  - eapply (independent_keys _ _ _ (B "d") (B "String") (B "Integer") [] (Associate (OInt 1)) GetValue (OStr (B "a")) (OStr (B "b"))); [apply Lc|discriminate| | |left; discriminate].
    + eapply uses_associate; [stmt|ex_lit|ex_lit].
    + eapply uses_getValue; [stmt|ex_lit].
  - apply (independent_reads _ _ _ (B "x")); exists (B "get"), []; (split; [stmt|]); split; try exact V; exact get_changes_nothing.
Qed.
