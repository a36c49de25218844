(** C92: a counter is a barrier. *)
From Coq Require Import String List Ascii ZArith Lia.
From Verif Require Import Bytes StrUtils Outcome Num Instance Context Server Platform.
From Verif Require Import Spec_Grammar Spec_State Spec_Names Spec_Text Spec_Number Spec_Literal Spec_Order Spec_Set Spec_Object Spec_Server Spec_Clients Spec_Possible Spec_Secret.
From Verif Require Import Proof_Parser Proof_Exec Proof_Literal Proof_Names Proof_Context Proof_Number Proof_Set Proof_Server.
From Verif Require Import Props_State Props_Number Props_Object Props_Set Props_Server Props_Clients Props_Linear Props_Trace Props_LastWrite Props_Observe Props_Publish.
From Verif Require Import Spec_Set Spec_Clients Spec_Barrier.
Import ListNotations.
Open Scope list_scope.

Section Barrier.
Context (before : nat -> list bytes) (arrival : nat -> bytes) (after : nat -> list bytes).
Definition arrived_yet (h : list entry) (p : nat) : nat := if (length (before p) <? length (lines_in p h))%nat then 1 else 0.
Definition arrivals (ps : list nat) (h : list entry) : nat := list_sum (map (arrived_yet h) ps).
End Barrier.
Lemma sum_change (f g : nat -> nat) p ps : NoDup ps -> (forall q, q <> p -> g q = f q) -> In p ps -> (list_sum (map g ps) + f p = list_sum (map f ps) + g p)%nat.
Proof.
  intros N E. induction N as [|q ps Nq N IH]; intros I; [destruct I|]. cbn [map list_sum fold_right]. change (fold_right Nat.add 0%nat) with list_sum. destruct I as [->|I].
  - replace (map g ps) with (map f ps); [lia|]. apply map_ext_in. intros q Hq. symmetry. apply E. intros ->. contradiction.
  - specialize (IH I). rewrite (E q); [lia|]. intros ->. contradiction.
Qed.
Lemma sum_all (f : nat -> nat) ps : (forall p, f p <= 1)%nat -> (list_sum (map f ps) <= length ps)%nat /\ (list_sum (map f ps) = length ps -> forall p, In p ps -> f p = 1)%nat.
Proof.
  intros L. induction ps as [|q ps [IH1 IH2]]; [split; [cbn; lia|intros _ p []]|]. cbn [map list_sum fold_right length]. change (fold_right Nat.add 0%nat) with list_sum. assert (Lq := L q). split; [lia|].
  intros E p [->|I]; [lia|]. apply IH2; auto. lia.
Qed.
Lemma arrived_le before h p : (arrived_yet before h p <= 1)%nat.
Proof. unfold arrived_yet. destruct (_ <? _)%nat; auto. Qed.
Lemma lines_in_snoc sid h e : lines_in sid (h ++ [e]) = if (e_sid e =? sid)%nat then lines_in sid h ++ [e_line e] else lines_in sid h.
Proof. rewrite lines_in_app. unfold lines_in at 2, entries_of. cbn [filter]. destruct (e_sid e =? sid)%nat; cbn [map]; [reflexivity|apply app_nil_r]. Qed.
(** The counter counts those who have arrived. *)
Lemma counts_arrivals srt pw c ss h c' ss' b before arrival after ps : sort_contract srt -> reachable srt pw c -> lookup c b = Some (IObj (OInt 0)) ->
  NoDup ps -> (Z.of_nat (length ps) <= 2147483647)%Z -> serial srt pw c ss h c' ss' ->
  (forall p, In p ps -> takes_part b (before p) (arrival p) (after p) /\ exists rest, before p ++ arrival p :: after p = lines_in p h ++ rest) ->
  (forall g, In g h -> (~ In (e_sid g) ps -> leaves (e_line g) b) /\ (In (e_sid g) ps -> e_outcome g <> Refused)) ->
  lookup c' b = Some (IObj (OInt (Z.of_nat (arrivals before ps h)))).
Proof.
  intros K R L ND Sz H. induction H as [|h c1 ss1 sid line c2 s2 o H IH P]; intros F G.
  - rewrite L. do 3 f_equal. unfold arrivals. assert (E : map (arrived_yet before []) ps = map (fun _ => 0%nat) ps) by (apply map_ext; intros p; unfold arrived_yet; reflexivity).
    rewrite E. clear. induction ps; auto.
  - set (e := {| e_sid := sid; e_line := line; e_outcome := o |}) in *.
    assert (IH' : lookup c1 b = Some (IObj (OInt (Z.of_nat (arrivals before ps h))))).
    { apply IH; [|intros g Hg; apply G, in_or_app; now left]. intros p Hp. destruct (F p Hp) as [T (rest & E)]. split; auto. rewrite lines_in_snoc in E.
      destruct (e_sid e =? p)%nat; [|eauto]. rewrite <- app_assoc in E. eauto. }
    clear IH. assert (R1 := serial_reach _ _ _ _ _ _ _ R H). destruct (G e ltac:(apply in_or_app; right; now left)) as [G1 G2]. cbn [e_sid e_line e_outcome] in G1, G2.
    assert (Lv : leaves line b -> lookup c2 b = lookup c1 b).
    { intros Y. destruct (processes_cases _ _ _ _ _ _ _ _ P) as [(_ & -> & _)|(ans & X & _)]; auto. eapply leaves_lookup; eauto. unfold live. congruence. }
    assert (Oth : forall q, q <> sid -> arrived_yet before (h ++ [e]) q = arrived_yet before h q).
    { intros q Nq. unfold arrived_yet. rewrite lines_in_snoc. replace (e_sid e =? q)%nat with false; auto. symmetry. apply Nat.eqb_neq. cbn. auto. }
    destruct (in_dec Nat.eq_dec sid ps) as [I|NI].
    + destruct (F sid I) as [[Ar Le] (rest & E)]. rewrite lines_in_snoc in E. cbn [e_sid e_line] in E. rewrite Nat.eqb_refl, <- app_assoc in E.
      assert (Sm := sum_change (arrived_yet before h) (arrived_yet before (h ++ [e])) sid ps ND Oth I). fold (arrivals before ps h) in Sm. fold (arrivals before ps (h ++ [e])) in Sm.
      assert (N : nth_error (before sid ++ arrival sid :: after sid) (length (lines_in sid h)) = Some line) by (rewrite E, nth_error_app2, Nat.sub_diag by lia; reflexivity).
      assert (Ay : arrived_yet before (h ++ [e]) sid = if (length (before sid) <? S (length (lines_in sid h)))%nat then 1%nat else 0%nat).
      { unfold arrived_yet. rewrite lines_in_snoc. cbn [e_sid e_line]. rewrite Nat.eqb_refl, app_length. cbn [length]. now rewrite Nat.add_1_r. }
      assert (Ay0 : arrived_yet before h sid = if (length (before sid) <? length (lines_in sid h))%nat then 1%nat else 0%nat) by reflexivity.
      destruct (Nat.lt_trichotomy (length (lines_in sid h)) (length (before sid))) as [Lt|[Eq|Gt]].
      * rewrite nth_error_app1 in N by auto. rewrite Lv by (apply Le, in_or_app; left; eapply nth_error_In; eauto).
        replace (arrivals before ps (h ++ [e])) with (arrivals before ps h); auto. rewrite Ay, Ay0 in Sm.
        destruct (Nat.ltb_spec (length (before sid)) (S (length (lines_in sid h)))); destruct (Nat.ltb_spec (length (before sid)) (length (lines_in sid h))); lia.
      * rewrite Eq, nth_error_app2, Nat.sub_diag in N by lia. cbn in N. injection N as N.
        assert (Sum : arrivals before ps (h ++ [e]) = S (arrivals before ps h)).
        { rewrite Ay, Ay0 in Sm. destruct (Nat.ltb_spec (length (before sid)) (S (length (lines_in sid h)))); destruct (Nat.ltb_spec (length (before sid)) (length (lines_in sid h))); lia. }
        assert (Bd : (arrivals before ps (h ++ [e]) <= length ps)%nat) by exact (proj1 (sum_all (arrived_yet before (h ++ [e])) ps (arrived_le before (h ++ [e])))).
        rewrite N in Ar. destruct Ar as (a & Hs & Ha).
        destruct (processes_cases _ _ _ _ _ _ _ _ P) as [(Q & _)|(ans & X & _)]; [destruct (G2 I Q)|].
        assert (Bc : becomes srt pw c1 (Some (ss1 sid)) line b (B "null") (IObj (OInt (Z.of_nat (arrivals before ps h) + 1)))).
        { apply (C09_exact_arithmetic srt pw c1 (Some (ss1 sid)) line b (Z.of_nat (arrivals before ps h)) Spec_Float.Add a 1 _ K R1 Hs IH' Ha); unfold fits; try lia. reflexivity. }
        destruct Bc as (c3 & X3 & L3 & _). destruct (runs_unique _ _ _ _ _ _ _ _ _ _ _ X X3) as (-> & _ & _). rewrite L3, Sum. do 3 f_equal. lia.
      * rewrite nth_error_app2 in N by lia. destruct (length (lines_in sid h) - length (before sid))%nat as [|k] eqn:Ek; [lia|]. cbn in N.
        rewrite Lv by (apply Le, in_or_app; right; eapply nth_error_In; eauto).
        replace (arrivals before ps (h ++ [e])) with (arrivals before ps h); auto. rewrite Ay, Ay0 in Sm.
        destruct (Nat.ltb_spec (length (before sid)) (S (length (lines_in sid h)))); destruct (Nat.ltb_spec (length (before sid)) (length (lines_in sid h))); lia.
    + rewrite (Lv (G1 NI)), IH'. do 4 f_equal. unfold arrivals. f_equal. apply map_ext_in. intros q Hq. symmetry. apply Oth. intros ->. contradiction.
Qed.
(** Whoever reads the number of participants from the counter knows that all of them have arrived: everything that they sent before has been executed. *)
Theorem C92_barrier : forall srt pw c ss h e c' ss' b before arrival after ps args ans, sort_contract srt -> reachable srt pw c -> lookup c b = Some (IObj (OInt 0)) ->
  NoDup ps -> (Z.of_nat (length ps) <= 2147483647)%Z -> serial srt pw c ss (h ++ [e]) c' ss' ->
  (forall p, In p ps -> takes_part b (before p) (arrival p) (after p) /\ exists rest, before p ++ arrival p :: after p = lines_in p h ++ rest) ->
  (forall g, In g h -> (~ In (e_sid g) ps -> leaves (e_line g) b) /\ (In (e_sid g) ps -> e_outcome g <> Refused)) ->
  statement (e_line e) b (B "get") args -> executed e ans -> prints_int (Z.of_nat (length ps)) ans ->
  forall p, In p ps -> exists more, lines_in p h = before p ++ arrival p :: more.
Proof.
  intros srt pw c ss h e c' ss' b before arrival after ps args ans K R L ND Sz H F G Hs X Pr p Hp.
  apply serial_snoc_inv in H as (c1 & ss1 & s2 & H & P & _).
  assert (Y := counts_arrivals srt pw c ss h c1 ss1 b before arrival after ps K R L ND Sz H F G).
  assert (Hs1 : serial srt pw c1 ss1 ([] ++ [e]) c' (fun k => if (k =? e_sid e)%nat then s2 else ss1 k)).
  { destruct e as [sid line o]. exact (serial_more srt pw c1 ss1 [] c1 ss1 sid line c' s2 o (serial_none _ _ _ _) P). }
  destruct (C86_reading_an_object srt pw c1 ss1 [] e c' _ b (B "Integer") _ args K (serial_reach _ _ _ _ _ _ _ R H) Y eq_refl Hs1 ltac:(constructor) Hs) as (a & cx & sx & Xa & _ & Sh).
  { intros Q. exact (refused_not_executed _ _ Q X). }
  assert (a = ans) by (exact (executed_answer _ _ _ Xa X)). subst a.
  assert (Z : shows (float_precision cx) (OInt (Z.of_nat (arrivals before ps h))) ans) by (apply Sh; right; split; auto; intros ? ? []).
  assert (Q : Z.of_nat (arrivals before ps h) = Z.of_nat (length ps)) by (inversion Z; subst; eapply prints_int_inj; eauto).
  apply Nat2Z.inj in Q. assert (Al := proj2 (sum_all (arrived_yet before h) ps (arrived_le before h)) Q p Hp).
  unfold arrived_yet in Al. destruct (Nat.ltb_spec (length (before p)) (length (lines_in p h))) as [Lt|]; [|discriminate Al].
  destruct (F p Hp) as [_ (rest & E)]. clear - Lt E. revert Lt E. generalize (lines_in p h) (before p) (arrival p) (after p). intros l bf ar af. revert l.
  induction bf as [|x bf IH]; intros l Lt E; destruct l as [|y l]; cbn [app length] in *; try lia.
  - injection E as <- _. exists l. reflexivity.
  - injection E as <- E. destruct (IH l ltac:(lia) E) as (more & ->). exists more. reflexivity.
Qed.
(** On every schedule. *)
Theorem C92_on_every_schedule : forall srt c0 es b before arrival after rest ps, sort_contract srt -> reachable srt [] c0 -> sv_crash (run srt (start [] c0) es) = None ->
  lookup c0 b = Some (IObj (OInt 0)) -> NoDup ps -> (Z.of_nat (length ps) <= 2147483647)%Z ->
  (forall p, In p ps -> takes_part b (before p) (arrival p) (after p) /\ lines_of (arrived es p) (before p ++ arrival p :: after p) (rest p)) ->
  (forall sid line, ~ In sid ps -> complete_line (arrived es sid) line -> leaves line b) ->
  exists h, explains srt [] c0 es h /\
    forall h1 e h2 args ans, h = h1 ++ e :: h2 -> statement (e_line e) b (B "get") args -> executed e ans -> prints_int (Z.of_nat (length ps)) ans ->
      forall p, In p ps -> exists more, lines_in p h1 = before p ++ arrival p :: more.
Proof.
  intros srt c0 es b before arrival after rest ps K R C L ND Sz F O. destruct (C35_every_schedule_is_serialisable srt [] c0 es C) as (h & X). exists h. split; [exact X|].
  intros h1 e h2 args ans E Hs Xe Pr p Hp. assert (X2 := X). destruct X2 as (ss & S & _ & _).
  destruct (nobody_refused srt [] c0 (fun _ => fresh []) h _ ss (fun k => eq_refl) S) as [_ NR].
  replace (h1 ++ e :: h2) with ((h1 ++ [e]) ++ h2) in E by (rewrite <- app_assoc; reflexivity). rewrite E in S. destruct (serial_prefix _ _ _ _ _ _ _ _ S) as (c1 & ss1 & S1).
  apply (C92_barrier srt [] c0 (fun _ => fresh []) h1 e c1 ss1 b before arrival after ps args ans K R L ND Sz S1); auto.
  - intros q Hq. destruct (F q Hq) as [T Ls]. split; auto. destruct (first_lines _ _ _ _ _ _ _ _ X Ls) as (more & ->). rewrite E, !lines_in_app, <- !app_assoc. eauto.
  - intros g Hg. assert (Ig : In g h) by (rewrite E; apply in_or_app; left; apply in_or_app; now left). split; [|intros _; exact (NR g Ig)].
    intros Ng. apply (O (e_sid g)); auto. destruct (lines_of_exists (arrived es (e_sid g))) as (l2 & r2 & L2). destruct (first_lines _ _ _ _ _ _ _ _ X L2) as (more & E2).
    exists l2, r2. split; auto. rewrite E2. apply in_or_app. left. unfold lines_in. apply in_map, filter_In. split; auto. apply Nat.eqb_refl.
Qed.

(** Three clients: 0 and 1 take part, 2 watches. *)
Definition barrier_data : context := data_after [B "Integer create: n withValue: 0;"; B "Integer create: x withValue: 0;"; B "Integer create: y withValue: 0;"].
Definition at_the_barrier : list event :=
  [Accept; Accept; Accept] ++ talk 2 (B "n get;") ++ talk 0 (B "x set: 7;") ++ talk 0 (B "n add: 1;") ++ talk 2 (B "n get;") ++ talk 0 (B "x get;") ++
  talk 1 (B "y set: 8;") ++ talk 1 (B "n add: 1;") ++ talk 2 (B "n get;") ++ talk 2 (B "x get;") ++ talk 2 (B "y get;").
Definition ex_before (p : nat) : list bytes := match p with 0%nat => [B "x set: 7;"] | _ => [B "y set: 8;"] end.
Definition ex_arrival (_ : nat) : bytes := B "n add: 1;".
Definition ex_after (p : nat) : list bytes := match p with 0%nat => [B "x get;"] | _ => [] end.
Example C92_ex : let sv := run insertion_sort (start [] barrier_data) at_the_barrier in
  reachable insertion_sort [] barrier_data /\ sv_crash sv = None /\ lookup barrier_data (B "n") = Some (IObj (OInt 0)) /\ NoDup [0%nat; 1%nat] /\
  (forall p, In p [0%nat; 1%nat] -> takes_part (B "n") (ex_before p) (ex_arrival p) (ex_after p) /\ lines_of (arrived at_the_barrier p) (ex_before p ++ ex_arrival p :: ex_after p) []) /\
  (forall sid line, ~ In sid [0%nat; 1%nat] -> complete_line (arrived at_the_barrier sid) line -> leaves line (B "n")) /\
  map c_sent (sv_conns sv) = [flat_map with_newline [B "null"; B "null"; B "7"]; flat_map with_newline [B "null"; B "null"];
                              flat_map with_newline [B "0"; B "1"; B "2"; B "7"; B "8"]].
Proof.
  cbv zeta. split; [apply data_after_reachable|]. split; [vm_compute; reflexivity|]. split; [vm_compute; reflexivity|].
  split; [constructor; [intros [Q|[]]; discriminate Q|constructor; [intros []|constructor]]|].
  assert (L : forall k ls, arrived at_the_barrier k = flat_map with_newline ls -> forallb (fun l => negb (existsb (Ascii.eqb NEWLINE) l)) ls = true -> lines_of (arrived at_the_barrier k) ls []).
  { intros k ls E F. split; [now rewrite app_nil_r|]. split; [|intros []]. rewrite forallb_forall in F. apply Forall_forall. intros l Hl I. apply F in Hl.
    apply Bool.negb_true_iff in Hl. rewrite <- Bool.not_true_iff_false, existsb_exists in Hl. apply Hl. exists NEWLINE. split; [exact I|apply Ascii.eqb_refl]. }
  split; [|split; [|vm_compute; reflexivity]].
  - intros p [<-|[<-|[]]]; (split; [|apply L; vm_compute; reflexivity]); (split; [exists (B "1"); split; [stmt|apply (int_plain (B "1")); [repeat constructor; cbn; lia|discriminate]]|]).
    + intros line [<-|[<-|[]]]; leaf.
    + intros line [<-|[]]; leaf.
  - intros sid line Ns (ls & rest & Ls & I). destruct sid as [|[|[|sid]]]; [destruct Ns; now left|destruct Ns; right; now left| |].
    + destruct (lines_of_unique _ _ _ _ _ Ls (L 2%nat [B "n get;"; B "n get;"; B "n get;"; B "x get;"; B "y get;"] eq_refl eq_refl)) as [-> _].
      cbn [In] in I. destruct I as [<-|[<-|[<-|[<-|[<-|[]]]]]]; leaf.
    + destruct (lines_of_unique _ _ _ _ _ Ls (L (S (S (S sid))) [] eq_refl eq_refl)) as [-> _]. destruct I.
Qed.
Print Assumptions C92_barrier.
Print Assumptions C92_on_every_schedule.
