(** C89: a server that does not fail. *)
From Coq Require Import String List Ascii ZArith Lia Sorting.Sorted Classical.
From Verif Require Import Bytes StrUtils Outcome Num Instance Context Server Platform.
From Verif Require Import Spec_Grammar Spec_State Spec_Names Spec_Text Spec_Number Spec_Float Spec_Literal Spec_Order Spec_Vector Spec_String Spec_Set Spec_Object Spec_Server.
From Verif Require Import Proof_Grammar Proof_Parser Proof_Exec Proof_Literal Proof_Names Proof_Context Proof_Set Proof_Server Proof_Number Proof_Order Proof_Length Proof_Small.
From Verif Require Import Props_State Props_Set Props_Server Props_Order Props_Clients Props_Whole Props_Observe Props_Safe Props_Length.
From Verif Require Import Props_Undefined Spec_Number Spec_Whole Spec_Secret Spec_Safe Spec_Length Spec_Small.
Import ListNotations.
Open Scope list_scope.

Definition LIMIT : nat := 65536.
Lemma limit_facts : (LONGEST_ERROR < LIMIT)%nat /\ (2 + 10922 * 6 < LIMIT)%nat /\ (41 + Z.to_nat 65000 < LIMIT)%nat.
Proof. unfold LIMIT. repeat split; apply Nat.ltb_lt; vm_compute; reflexivity. Qed.
(** On small data every answer is short. *)
Theorem C89_answers_of_small_data : forall srt pw c s line c' s' ans, sort_contract srt -> reachable srt pw c -> small c ->
  runs srt pw c s line c' s' ans -> (length ans < 65536)%nat.
Proof.
  intros srt pw c s line c' s' ans K R [SV SL SN SP] X. change 65536%nat with LIMIT in *. destruct limit_facts as (F1 & F2 & F3). generalize dependent LIMIT. intros LIMIT SV SN F1 F2 F3.
  destruct (Nat.lt_ge_cases (length ans) LIMIT) as [L|L]; auto. exfalso.
  destruct (C87_where_long_answers_come_from srt pw c s line c' s' ans LIMIT K R X (conj F1 L)) as (a & m & args & St & [H|[H|[H|H]]]).
  - destruct H as (i & g & Hl & T & G). specialize (SV _ _ _ Hl T). lia.
  - destruct H as (t & v & z & -> & Hl & P & G). specialize (SL _ _ _ Hl).
    assert (ZL : (size v <= 10922)%Z) by (unfold size; apply Nat2Z.inj_le in SL; replace (Z.of_nat 10922) with 10922%Z in SL by (vm_compute; reflexivity); exact SL).
    assert (Z : (length z <= 5)%nat).
    { destruct P as [[_ P]|[P _]]; [|unfold size in P; lia]. change 5%nat with (length (B "10922")). apply (numeral_length (size v) z 10922 (B "10922") P); [|exact ZL].
      split; [repeat constructor; cbn; lia|]. split; [discriminate|]. split; [reflexivity|]. right. intros r E. discriminate E. }
    assert (Y : (length v * (length z + 1) <= 10922 * 6)%nat) by (apply Nat.mul_le_mono; [exact SL|lia]). remember (10922 * 6)%nat as q. lia.
  - destruct H as (names & _ & _ & I & W & G). specialize (SN _ I W). lia.
  - destruct H as [-> H]. assert (NE : ~ error_answer ans) by (intros E; assert (Z := error_length _ E); lia).
    assert (F := C66_every_success_is_an_effect _ _ _ _ _ _ _ _ _ _ _ K R St X NE).
    assert (NV : forall i, lookup c (B "Context") <> Some i).
    { intros i Hl. assert (V := live_variable srt pw c (B "Context") K R ltac:(unfold live; congruence)). apply is_variable_iff in V; vm_compute in V; discriminate V. }
    assert (L5 : (52 <= LONGEST_ERROR)%nat) by (apply Nat.leb_le; vm_compute; reflexivity).
    inversion F; subst; try (change (length (B "null")) with 4%nat in L; lia); try (eapply NV; eassumption); try (destruct H as [H|[H|[]]]; discriminate H).
    + match goal with Q : prints_int _ ans |- _ => assert (Y := integer_length _ _ Q ltac:(lia)) end. lia.
    + match goal with Q : prints_float _ _ ans |- _ => assert (Y := float_length _ _ _ (reachable_tolerance _ _ _ K R) Q) end.
      unfold places in Y. destruct (Z.ltb_spec (float_precision c) 0); [lia|]. assert (Z.to_nat (float_precision c) <= Z.to_nat 65000)%nat by (apply Z2Nat.inj_le; lia). remember (Z.to_nat 65000) as q. lia.
Qed.

(** The length of what get answers. *)
Lemma escapes_length v : (length (with_escapes v) <= 2 * length v)%nat.
Proof. unfold with_escapes. induction v as [|x v IH]; cbn [flat_map length]; [lia|]. rewrite app_length. destruct (ascii_dec x QUOTE); cbn [length]; lia. Qed.
Lemma room_enough p x t : (match x with OInt z => fits z | OFloat f => single_precision f | _ => True end) -> shows p x t -> (length t <= room p x)%nat.
Proof.
  intros H S. destruct S as [b|ch|z t P|f t P|v]; cbn [room].
  - apply truth_length.
  - cbn [length]. lia.
  - apply (integer_length z t P). unfold fits in H. lia.
  - exact (float_length _ _ _ H P).
  - unfold printed_string. rewrite !app_length. assert (E := escapes_length v). cbn [length]. lia.
Qed.
Lemma writable_room t x : has_type t x -> Spec_Storable.writable x -> match x with OInt z => fits z | OFloat f => single_precision f | _ => True end.
Proof. intros T W. destruct x as [b|ch|z|f|v]; auto. exact (proj1 W). Qed.
Lemma rooms p v texts : Forall (fun x => match x with OInt z => fits z | OFloat f => single_precision f | _ => True end) v -> Forall2 (shows p) v texts ->
  (length (joined texts) <= list_sum (map (fun x => 1 + room p x)%nat v))%nat.
Proof.
  intros F H. enough (lens texts + length texts <= list_sum (map (fun x => 1 + room p x)%nat v))%nat by (destruct (len_joined texts) as [E| ->]; [lia|cbn; lia]).
  induction H as [|x t v texts Hx H IH]; [cbn; lia|]. apply Forall_cons_iff in F as [F1 F2]. specialize (IH F2). assert (Q := room_enough p x t F1 Hx).
  cbn [lens length map list_sum fold_right]. change (fold_right Nat.add 0%nat) with list_sum. lia.
Qed.
Lemma storable_room p i g : Spec_Storable.storable i -> variable_text p i g -> (length g <= variable_room p i)%nat.
Proof.
  destruct i as [x|t v|t v|kt vt d]; cbn [Spec_Storable.storable variable_text variable_room].
  - intros H. apply room_enough. destruct x as [b|ch|z|f|v]; auto.
  - intros [_ F] (T & H & ->). rewrite len_listing. enough (length (joined T) <= list_sum (map (fun x => 1 + room p x)%nat v))%nat by lia. apply rooms; auto.
    eapply Forall_impl; [|exact F]. intros x [A1 A2]. exact (writable_room t x A1 A2).
  - intros (_ & F & _) (T & H & ->). unfold braces. rewrite !app_length. change (length (B "{")) with 1%nat. change (length (B "}")) with 1%nat.
    enough (length (joined T) <= list_sum (map (fun x => 1 + room p x)%nat v))%nat by lia. apply rooms; auto.
    eapply Forall_impl; [|exact F]. intros x [A1 A2]. exact (writable_room t x A1 A2).
  - intros (_ & _ & F & _) (T & H & ->). rewrite !app_length. change (length (B "(")) with 1%nat. change (length (B ")")) with 1%nat.
    enough (lens (map pair_text T) + length (map pair_text T) <= list_sum (map (fun q => 4 + room p (fst q) + room p (snd q))%nat d))%nat by (destruct (len_joined (map pair_text T)) as [E|E]; [lia|rewrite E; cbn; lia]).
    induction H as [|[k v] [tk tv] d T [H1 H2] H IH]; [cbn; lia|]. apply Forall_cons_iff in F as [[[F1 F2] [F3 F4]] F]. specialize (IH F). cbn [fst snd] in *.
    assert (Q1 := room_enough p k tk (writable_room kt k F1 F2) H1). assert (Q2 := room_enough p v tv (writable_room vt v F3 F4) H2).
    cbn [lens length map list_sum fold_right pair_text fst snd] in *. change (fold_right Nat.add 0%nat) with list_sum. unfold pair_text at 1. cbn [fst snd]. rewrite !app_length.
    change (length (B "(")) with 1%nat. change (length (B ",")) with 1%nat. change (length (B ")")) with 1%nat. lia.
Qed.
Theorem C89_the_length_of_a_variable : forall srt pw c s line n i c' s' g, sort_contract srt -> reachable_by_lines srt pw c -> lookup c n = Some i ->
  statement line n (B "get") [] -> runs srt pw c s line c' s' g -> (length g <= variable_room (float_precision c) i)%nat.
Proof.
  intros srt pw c s line n i c' s' g K R L St X. apply storable_room.
  - exact (Props_Storable.C57_only_storable_values srt pw c n i K R L).
  - exact (C87_get_shows_the_variable _ _ _ _ _ _ _ _ _ _ K (by_lines_reachable _ _ _ R) L St X).
Qed.

(** Cautious clients (C83) do not bring the server down as long as the data stay small. *)
Theorem C89_a_server_that_does_not_fail : forall srt pw pol A c0 es, sort_contract srt -> reachable srt pw c0 -> tame pol A c0 ->
  (forall sid line, complete_line (arrived es sid) line -> cautious pol A line) -> roomy es ->
  (forall es1 es2, es = es1 ++ es2 -> sv_crash (run srt (start pw c0) es1) = None -> small (sv_ctx (run srt (start pw c0) es1))) ->
  sv_crash (run srt (start pw c0) es) = None.
Proof.
  intros srt pw pol A c0 es K R T C Ro S.
  destruct (C83_cautious_clients_do_no_harm srt pw pol A c0 es K R T C) as [[H _]|(_ & es1 & sid & k & es2 & cn & line & c' & s' & o & a & E & Cr & _ & Hn & _ & P & An & L)]; [exact H|]. exfalso.
  assert (R1 : reachable srt pw (sv_ctx (run srt (start pw c0) es1))) by (exact (run_reaches srt pw c0 es1 K R Cr)).
  assert (Hk : (65536 <= k)%nat) by (apply (Ro sid k); rewrite E; apply in_elt).
  assert (Sh : (length a < 65536)%nat).
  { destruct P as [A1 N1|c' s' ans A1 X C1|c' s' ans A1 X C1]; cbn [answer_to] in An; try discriminate An; injection An as <-.
    - apply Nat.ltb_lt. vm_compute. reflexivity.
    - exact (C89_answers_of_small_data _ _ _ _ _ _ _ _ K R1 (S es1 _ E Cr) X). }
  destruct L as [L|L]; [exact (Nat.lt_irrefl _ (Nat.lt_le_trans _ _ _ Sh (Nat.le_trans _ _ _ Hk L)))|exact (Nat.lt_irrefl _ (Nat.lt_le_trans _ _ _ Sh L))].
Qed.

(** A client reads an Integer; small data; and what a vector of Integers takes. *)
Definition one_reading : list event := [Accept; Arrive 0 (with_newline (B "x get;")); ReadSome 0 1000; Handle 0 65536; WriteDone 0].
Lemma small_one c : instances c = instances one_integer -> float_precision c = 3%Z -> small c.
Proof.
  intros E P. assert (L : forall n i, lookup c n = Some i -> n = B "x" /\ i = IObj (OInt 5)).
  { intros n i H. unfold lookup in H. rewrite E in H. unfold one_integer, set_instances in H. cbn [instances assoc] in H. destruct (bytes_dec (B "x") n) as [<-|N]; [|discriminate H].
    injection H as <-. auto. }
  constructor.
  - intros n i g H T. destruct (L n i H) as [-> ->]. cbn [variable_text] in T. inversion T; subst.
    match goal with Q : prints_int _ g |- _ => assert (Y := integer_length _ _ Q ltac:(lia)) end. apply (Nat.le_lt_trans _ _ _ Y). apply Nat.ltb_lt. vm_compute. reflexivity.
  - intros n t v H. destruct (L n _ H) as [_ Q]. discriminate Q.
  - intros names I W. assert (Y : (length (listing names) <= length (listing [B "x"]))%nat).
    { apply part_of_names; [now apply increasing_NoDup|]. intros n Hn. apply W in Hn. unfold live in Hn. destruct (lookup c n) as [j|] eqn:Q; [|congruence]. destruct (L n j Q) as [-> _]. now left. }
    apply (Nat.le_lt_trans _ _ _ Y). apply Nat.ltb_lt. vm_compute. reflexivity.
  - rewrite P. split; [discriminate|discriminate].
Qed.
Example C89_ex :
  reachable insertion_sort [] one_integer /\ tame NoFloatContainers (fun _ => False) one_integer /\
  (forall sid line, complete_line (arrived one_reading sid) line -> cautious NoFloatContainers (fun _ => False) line) /\ roomy one_reading /\
  (forall es1 es2, one_reading = es1 ++ es2 -> small (sv_ctx (run insertion_sort (start [] one_integer) es1))) /\
  (variable_room 3 (IVector (B "Integer") (repeat (OInt 7) 100)) = 1202)%nat.
Proof.
  split; [exact one_integer_reachable|]. split; [split; [intros n z _ []|]|].
  - intros n i H. unfold lookup, one_integer, set_instances in H. cbn [instances assoc] in H. destruct (bytes_dec (B "x") n) as [<-|N]; [injection H as <-; exact I|discriminate H].
  - split; [|split; [|split; [|vm_compute; reflexivity]]].
    + intros sid line (ls & rest & L & Hi).
      assert (L2 : lines_of (arrived one_reading sid) (if (sid =? 0)%nat then [B "x get;"] else []) []).
      { destruct sid as [|sid]; (split; [vm_compute; reflexivity|]; split; [|intros []]; repeat constructor; vm_compute; intuition discriminate). }
      destruct (lines_of_unique _ _ _ _ _ L L2) as [-> _]. destruct (sid =? 0)%nat; [|destruct Hi]. destruct Hi as [<-|[]].
      assert (M : mild NoFloatContainers (fun _ => False) (fun _ => False) (B "x get;")).
      { eapply (mild_of _ _ _ _ (B "x") (B "get") []); [stmt|vm_compute; reflexivity| | |vm_compute; reflexivity].
        - intros X. cbn in X. repeat destruct X as [X|X]; try discriminate X. destruct X.
        - intros X. discriminate X. }
      intros a m args Hs. destruct (M a m args Hs) as (M1 & M2 & M3 & M4). repeat (split; auto). intros X Y. destruct (M2 X Y) as [[]|[]].
    + intros sid k Hin. repeat destruct Hin as [Hin|Hin]; try discriminate Hin; [injection Hin as _ <-; apply Nat.le_refl|destruct Hin].
    + intros es1 es2 E. assert (Q : es1 = firstn (length es1) one_reading) by (rewrite E, firstn_app, Nat.sub_diag, firstn_all; cbn [firstn]; now rewrite app_nil_r).
      assert (Le : (length es1 <= 5)%nat) by (change 5%nat with (length one_reading); rewrite E, app_length; lia).
      rewrite Q. clear Q E. destruct (length es1) as [|[|[|[|[|[|k]]]]]]; try lia; apply small_one; vm_compute; reflexivity.
Qed.
