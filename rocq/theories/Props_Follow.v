(** C94: a vector is a log that readers can follow. *)
From Coq Require Import String List Ascii ZArith Lia.
From Verif Require Import Bytes StrUtils Outcome Num Instance Context Server Platform.
From Verif Require Import Spec_Grammar Spec_State Spec_Names Spec_Text Spec_Number Spec_Vector Spec_String Spec_Server Spec_Clients Spec_Secret Spec_Literal Spec_Follow.
From Verif Require Import Proof_Parser Proof_Literal Proof_Names Proof_Number Proof_Vector Proof_Exec Proof_Server Props_State Props_Vector Props_Server Props_Clients Props_Linear Props_Trace Props_Observe Props_Publish.
From Verif Require Import Spec_Set Spec_Literal Spec_Clients Spec_Follow.
Import ListNotations.
Open Scope list_scope.

Lemma adds_runs srt pw c s line n t v x c' s' ans : sort_contract srt -> reachable srt pw c -> lookup c n = Some (IVector t v) -> adds n t line x ->
  runs srt pw c s line c' s' ans -> ans = B "null" /\ lookup c' n = Some (IVector t (v ++ [x])).
Proof.
  intros K R L (a & Hs & Hx) X. destruct (C18_effect srt pw c s line n _ _ t v _ _ K R Hs L (eff_pushBack _ _ a x v Hx)) as (c2 & X2 & L2 & _).
  destruct (runs_unique _ _ _ _ _ _ _ _ _ _ _ X X2) as (-> & _ & ->). auto.
Qed.
(** What is in the vector is what was there and what was added since. *)
Theorem C94_contents : forall srt pw c ss h c' ss' n t v, sort_contract srt -> reachable srt pw c -> lookup c n = Some (IVector t v) ->
  serial srt pw c ss h c' ss' -> (forall e, In e h -> only_adds n (e_line e)) ->
  exists news, added_in n t h news /\ lookup c' n = Some (IVector t (v ++ news)).
Proof.
  intros srt pw c ss h c' ss' n t v K R L H. induction H as [|h c1 ss1 sid line c2 s2 o H IH P]; intros F.
  - exists []. split; [constructor|now rewrite app_nil_r].
  - destruct IH as (news & A & L1); [intros e He; apply F, in_or_app; now left|].
    assert (R1 := serial_reach _ _ _ _ _ _ _ R H). specialize (F _ ltac:(apply in_or_app; right; now left)). cbn [e_line] in F.
    destruct (processes_cases _ _ _ _ _ _ _ _ P) as [(-> & -> & _)|(ans & X & O)].
    { exists news. split; auto. apply added_nothing; [exact A|]. intros x Q. exfalso. apply Q. reflexivity. }
    destruct F as [(a & Hs)|Lv].
    + destruct (push_step srt pw n t K _ _ _ _ _ _ _ _ R1 L1 Hs X) as [(x & Hx & -> & L')|[Er L']].
      * exists (news ++ [x]). rewrite app_assoc. split; auto. apply added_one; auto; [|exists a; auto]. cbn [e_outcome]. destruct O as [-> | ->]; discriminate.
      * exists news. split; auto. apply added_nothing; auto. intros x _ Ad. cbn [e_line] in Ad.
        destruct (adds_runs _ _ _ _ _ _ _ _ _ _ _ _ K R1 L1 Ad X) as [-> _]. exact (Props_Clients.null_no_error Er).
    + exists news. split; [|rewrite <- L1; eapply leaves_lookup; eauto; unfold live; congruence].
      apply added_nothing; auto. intros x _ (a & Hs & _). destruct Lv as [_ Si]. cbn [e_line] in Hs. refine (Si (B "pushBack:") [a] _ Hs). cbn [In mutators]. tauto.
Qed.
(** A reader that has seen the first [k] elements ([size] was answered with [k]) and later asks for those from index [k] on gets exactly those added in between. *)
Theorem C94_following : forall srt pw c ss h1 e1 h2 e2 c' ss' n t v ans1 k a ans2, sort_contract srt -> reachable srt pw c -> lookup c n = Some (IVector t v) ->
  serial srt pw c ss (h1 ++ [e1] ++ h2 ++ [e2]) c' ss' -> (forall e, In e (h1 ++ h2) -> only_adds n (e_line e)) ->
  statement (e_line e1) n (B "size") [] -> executed e1 ans1 -> prints_int k ans1 ->
  statement (e_line e2) n (B "sliceFromIndex:") [a] -> executed e2 ans2 -> index_of a k ->
  exists news, added_in n t h2 news /\ shows_list (float_precision c') news ans2.
Proof.
  intros srt pw c ss h1 e1 h2 e2 c' ss' n t v ans1 k a ans2 K R L H F Hs1 X1 P1 Hs2 X2 I.
  destruct (serial_split _ _ _ _ _ _ _ _ H) as (c1 & ss1 & S1 & H2). destruct (serial_split _ _ _ _ _ _ _ _ H2) as (c2 & ss2 & S2 & H3).
  destruct (serial_split _ _ _ _ _ _ _ _ H3) as (c3 & ss3 & S3 & S4).
  destruct (C94_contents _ _ _ _ _ _ _ _ _ _ K R L S1 ltac:(intros e He; apply F, in_or_app; now left)) as (n1 & A1 & L1). assert (R1 := serial_reach _ _ _ _ _ _ _ R S1).
  assert (R2 := serial_reach _ _ _ _ _ _ _ R1 S2). assert (R3 := serial_reach _ _ _ _ _ _ _ R2 S3).
  assert (E1 : k = size (v ++ n1) /\ lookup c2 n = lookup c1 n).
  { change [e1] with ([] ++ [e1]) in S2. apply serial_snoc_inv in S2 as (cx & sx & s2 & Sx & P & _). apply serial_nil_inv in Sx as [-> ->].
    destruct (processes_cases _ _ _ _ _ _ _ _ P) as [(Q & _)|(ans & X & O)]; [destruct (refused_not_executed _ _ Q X1)|].
    assert (ans = ans1) by (eapply executed_answer; [exact O|exact X1]). subst ans.
    assert (W := proj2 (prints_int_iff (size (v ++ n1)) _) eq_refl). set (w := Num.to_string (size (v ++ n1))) in W.
    destruct (C18_effect _ _ _ (Some (ss1 (e_sid e1))) _ _ _ _ _ _ _ _ K R1 Hs1 L1 (eff_size _ _ _ w W)) as (cy & Y & Ly & _).
    destruct (runs_unique _ _ _ _ _ _ _ _ _ _ _ X Y) as (-> & _ & ->). split; [eapply prints_int_inj; eauto|congruence]. }
  destruct E1 as [-> E2]. rewrite L1 in E2.
  destruct (C94_contents _ _ _ _ _ _ _ _ _ _ K R2 E2 S3 ltac:(intros e He; apply F, in_or_app; now right)) as (news & A & L3).
  exists news. split; auto. change [e2] with ([] ++ [e2]) in S4. apply serial_snoc_inv in S4 as (cx & sx & s2 & Sx & P & _). apply serial_nil_inv in Sx as [-> ->].
  destruct (processes_cases _ _ _ _ _ _ _ _ P) as [(Q & _)|(ans & X & O)]; [destruct (refused_not_executed _ _ Q X2)|].
  assert (ans = ans2) by (eapply executed_answer; [exact O|exact X2]). subst ans.
  assert (W := proj2 (shows_list_iff (env_of srt c3) news _) eq_refl). set (w := vector_representation (env_of srt c3) news) in W. cbn [e_precision env_of] in W.
  destruct (C18_effect _ _ _ (Some (ss3 (e_sid e2))) _ _ _ _ _ _ _ _ K R3 Hs2 L3 (eff_slice _ _ a (v ++ n1) news w I W)) as (cy & Y & _ & _ & Se).
  destruct (runs_unique _ _ _ _ _ _ _ _ _ _ _ X Y) as (-> & _ & ->). replace (float_precision cy) with (float_precision c3); auto. symmetry. apply Se.
Qed.
(** On every schedule. *)
Theorem C94_on_every_schedule : forall srt pw c0 es n t v, sort_contract srt -> reachable srt pw c0 -> sv_crash (run srt (start pw c0) es) = None ->
  lookup c0 n = Some (IVector t v) -> (forall sid line, complete_line (arrived es sid) line -> only_adds n line) ->
  exists h, explains srt pw c0 es h /\
    forall h1 e1 h2 e2 h3 ans1 k a ans2, h = h1 ++ [e1] ++ h2 ++ [e2] ++ h3 ->
      statement (e_line e1) n (B "size") [] -> executed e1 ans1 -> prints_int k ans1 ->
      statement (e_line e2) n (B "sliceFromIndex:") [a] -> executed e2 ans2 -> index_of a k ->
      exists news p, added_in n t h2 news /\ shows_list p news ans2.
Proof.
  intros srt pw c0 es n t v K R C L O. destruct (C35_every_schedule_is_serialisable srt pw c0 es C) as (h & X). exists h. split; [exact X|].
  intros h1 e1 h2 e2 h3 ans1 k a ans2 E Hs1 X1 P1 Hs2 X2 I.
  assert (F : forall e, In e h -> only_adds n (e_line e)).
  { intros e He. destruct (lines_of_exists (arrived es (e_sid e))) as (ls & rest & Ls). destruct (first_lines _ _ _ _ _ _ _ _ X Ls) as (more & E2). apply (O (e_sid e)).
    exists ls, rest. split; auto. rewrite E2. apply in_or_app. left. unfold lines_in. apply in_map, filter_In. split; auto. apply Nat.eqb_refl. }
  destruct X as (ss & S & _). rewrite E in S. replace (h1 ++ [e1] ++ h2 ++ [e2] ++ h3) with ((h1 ++ [e1] ++ h2 ++ [e2]) ++ h3) in S by (rewrite <- !app_assoc; reflexivity).
  destruct (serial_prefix _ _ _ _ _ _ _ _ S) as (c1 & ss1 & S1).
  destruct (C94_following srt pw c0 _ h1 e1 h2 e2 c1 ss1 n t v ans1 k a ans2 K R L S1) as (news & A & Sh); auto; [|eauto].
  intros e He. apply F. rewrite E. apply in_app_or in He as [He|He]; [apply in_or_app; now left|]. apply in_or_app. right. apply in_or_app. right. apply in_or_app. now left.
Qed.
(** The values added in a history are determined by it, and those of two histories, one after the other, come one after the other: a reader that
    goes on from where it stopped misses nothing and reads nothing twice. *)
Theorem C94_one_after_the_other : forall n t h1 h2 news1 news2 news, added_in n t h1 news1 -> added_in n t h2 news2 -> added_in n t (h1 ++ h2) news -> news = news1 ++ news2.
Proof.
  assert (U : forall n t h a, added_in n t h a -> forall b, added_in n t h b -> a = b).
  { intros n t h a A. assert (Un : forall line x y, adds n t line x -> adds n t line y -> x = y).
    { intros line x y (p & Sp & Lp) (q & Sq & Lq). destruct (statement_unique _ _ _ _ _ _ _ Sp Sq) as (_ & _ & Q). injection Q as ->. exact (literal_unique _ _ _ _ Lp Lq). }
    induction A as [|h a e x A IH N Ad|h a e A IH N]; intros b B1.
    - inversion B1 as [Q1 Q2|g a' e' x' A' N' Ad' Q|g a' e' A' N' Q]; auto; destruct g; discriminate Q.
    - inversion B1 as [Q|g a' e' x' A' N' Ad' Q|g a' e' A' N' Q]; [destruct h; discriminate Q|apply app_inj_tail in Q as [-> ->]..].
      + rewrite (IH _ A'), (Un _ _ _ Ad Ad'). reflexivity.
      + destruct (N' x N Ad).
    - inversion B1 as [Q|g a' e' x' A' N' Ad' Q|g a' e' A' N' Q]; [destruct h; discriminate Q|apply app_inj_tail in Q as [-> ->]..].
      + destruct (N x' N' Ad').
      + exact (IH _ A'). }
  intros n t h1 h2 n1 n2 m A1 A2 A. symmetry. revert A. apply U. induction A2 as [|h a e x A2 IH N Ad|h a e A2 IH N]; [now rewrite !app_nil_r| |].
  - rewrite !app_assoc. apply added_one; auto.
  - rewrite app_assoc. apply added_nothing; auto.
Qed.

(** Clients 0 and 1 write, client 2 follows. *)
Definition log_data : context := data_after [B "Vector<Integer> create: log;"].
Definition following : list event :=
  [Accept; Accept; Accept] ++ talk 0 (B "log pushBack: 1;") ++ talk 2 (B "log size;") ++ talk 1 (B "log pushBack: 2;") ++ talk 1 (B "log pushBack: foo;") ++ talk 0 (B "log pushBack: 3;") ++
  talk 2 (B "log sliceFromIndex: 1;").
Example C94_ex : let sv := run insertion_sort (start [] log_data) following in
  reachable insertion_sort [] log_data /\ sv_crash sv = None /\ lookup log_data (B "log") = Some (IVector (B "Integer") []) /\
  (forall sid line, complete_line (arrived following sid) line -> only_adds (B "log") line) /\
  map c_sent (sv_conns sv) = [flat_map with_newline [B "null"; B "null"]; flat_map with_newline [B "null"; ERR_ARGUMENT]; flat_map with_newline [B "1"; B "[2,3]"]].
Proof.
  cbv zeta. split; [apply data_after_reachable|]. split; [vm_compute; reflexivity|]. split; [vm_compute; reflexivity|]. split; [|vm_compute; reflexivity].
  assert (L : forall k ls, arrived following k = flat_map with_newline ls -> forallb (fun l => negb (existsb (Ascii.eqb NEWLINE) l)) ls = true -> lines_of (arrived following k) ls []).
  { intros k ls E F. split; [now rewrite app_nil_r|]. split; [|intros []]. rewrite forallb_forall in F. apply Forall_forall. intros l Hl I. apply F in Hl.
    apply Bool.negb_true_iff in Hl. rewrite <- Bool.not_true_iff_false, existsb_exists in Hl. apply Hl. exists NEWLINE. split; [exact I|apply Ascii.eqb_refl]. }
  intros sid line (ls & rest & Ls & I). destruct sid as [|[|[|sid]]].
  - destruct (lines_of_unique _ _ _ _ _ Ls (L 0%nat [B "log pushBack: 1;"; B "log pushBack: 3;"] eq_refl eq_refl)) as [-> _].
    cbn [In] in I. destruct I as [<-|[<-|[]]]; left; [exists (B "1")|exists (B "3")]; stmt.
  - destruct (lines_of_unique _ _ _ _ _ Ls (L 1%nat [B "log pushBack: 2;"; B "log pushBack: foo;"] eq_refl eq_refl)) as [-> _].
    cbn [In] in I. destruct I as [<-|[<-|[]]]; left; [exists (B "2")|exists (B "foo")]; stmt.
  - destruct (lines_of_unique _ _ _ _ _ Ls (L 2%nat [B "log size;"; B "log sliceFromIndex: 1;"] eq_refl eq_refl)) as [-> _].
    cbn [In] in I. destruct I as [<-|[<-|[]]]; right; leaf.
  - destruct (lines_of_unique _ _ _ _ _ Ls (L (S (S (S sid))) [] eq_refl eq_refl)) as [-> _]. destruct I.
Qed.
Print Assumptions C94_contents.
Print Assumptions C94_following.
Print Assumptions C94_on_every_schedule.
Print Assumptions C94_one_after_the_other.
