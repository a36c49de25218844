(** C83: cautious clients never make the server have undefined behaviour. *)
From Coq Require Import String List Ascii ZArith Reals Lia.
From Coq Require Import Floats.SpecFloat.
From Verif Require Import Bytes StrUtils Outcome Num Instance Context Server Platform.
From Verif Require Import Spec_Grammar Spec_State Spec_Names Spec_Text Spec_Number Spec_Float Spec_Literal Spec_Order Spec_Vector Spec_String Spec_Set Spec_Server Spec_Undefined Spec_Alone Spec_Secret Spec_Clients Spec_Trace Spec_Safe.
From Verif Require Import Proof_Parser Proof_Exec Proof_Literal Proof_Number Proof_Names Proof_Context Proof_Set Proof_Server.
From Verif Require Import Props_State Props_Order Props_Set Props_Server Props_Clients Props_Undefined Props_Alone Props_Secret Proof_Trace.
Import ListNotations.
Open Scope list_scope.

Lemma reads_texts i m args l : reads_value i m args l -> forall t a, In (t, a) l -> In a args.
Proof.
  intros H t a I. inversion H; subst; clear H; cbn in I |- *;
    repeat match goal with H : _ \/ _ |- _ => destruct H | H : (_, _) = (_, _) |- _ => injection H as <- <- | H : False |- _ => destruct H end; subst; tauto.
Qed.
(** The only undefined behaviour left is that of counters. *)
Definition mild (pol : policy) (A K : bytes -> Prop) (line : bytes) : Prop := forall a m args, statement line a m args ->
    (forall x, In x args -> ~ out_of_range x) /\ (In m arithmetic_messages -> variable a -> A a \/ K a) /\
    (a = B "Integer" -> forall n rest, args = n :: rest -> ~ A n) /\ follows pol a m.
Lemma tame_undefined srt pw pol A K0 c line a m args : sort_contract srt -> reachable srt pw c -> tame pol A c -> mild pol A K0 line -> statement line a m args ->
  undefined_statement c a m args -> K0 a /\ exists z, lookup c a = Some (IObj (OInt z)) /\ undefined_message (tolerance c) (IObj (OInt z)) m args /\ In m arithmetic_messages.
Proof.
  intros H1 H2 [TI T] K Hs U. destruct (K _ _ _ Hs) as (K1 & K2 & K3 & K4). destruct U as [m n a _ _ O|a O|n i m args L U].
  - exfalso. apply (K1 a); cbn; auto.
  - exfalso. apply (K1 a); cbn; auto.
  - assert (V : variable n) by (apply (ctx_good_lookup false c n i (reachable_good srt pw c H1 H2) L)).
    assert (P : forall t x l, object_type t -> t <> B "Float" -> (exists a, literal_of t a x) -> Forall (fine t) l -> strictly_increasing zero32 l -> usable (tolerance c) x l).
    { intros t x l Ho Nt (a & Hx) F S. destruct (reads_sound _ _ _ Ho Hx) as (X1 & X2 & _). split.
      - apply weak_order_plain with t; auto. constructor; auto. now apply fine_types.
      - apply (increasing_plain zero32 _ t); auto. now apply fine_types. }
    assert (U0 := U). inversion U; subst; clear U.
    + exfalso. destruct H0 as (b & x & e & -> & O & _). apply (K1 x); auto. eapply reads_texts; eauto. apply in_or_app. right. left. reflexivity.
    + exfalso. apply (K1 a); cbn; auto. left. eauto.
    + assert (M : In (message_of o) arithmetic_messages) by (unfold arithmetic_messages; destruct o; cbn; auto). destruct (K2 M V) as [X|X]; [destruct (TI _ _ L X)|]. split; auto. eauto.
    + assert (M : In (message_of o) arithmetic_messages) by (unfold arithmetic_messages; destruct o; cbn; auto). destruct (K2 M V) as [X|X]; [destruct (TI _ _ L X)|]. split; auto. eauto.
    + exfalso. destruct (vector_good _ _ _ _ _ _ H1 H2 L) as (Ho & Ht & Hso & Hf). match goal with X : ~ weak_order _ _ |- _ => apply X end. destruct pol.
      * apply weak_order_plain with t; auto. exact (T _ _ L).
      * destruct T. now apply weak_order_zero with t.
    + exfalso. destruct (set_stored _ _ _ _ _ _ H1 H2 L) as [Ho F]. match goal with X : ~ usable _ _ _ |- _ => apply X end. destruct pol.
      * assert (Tn := T _ _ L). eapply P; eauto. eapply C23_never_the_same_element_twice; eauto.
      * destruct T. eapply C23_usable_at_zero; eauto.
    + exfalso. destruct (dict_stored _ _ _ _ _ _ _ H1 H2 L) as (Ho & _ & F & _). match goal with X : ~ usable _ _ _ |- _ => apply X end. destruct pol.
      * assert (Tn := T _ _ L). eapply P; eauto. eapply C23_never_the_same_key_twice; eauto.
      * destruct T. eapply C23_keys_usable_at_zero; eauto.
    + exfalso. destruct (dict_stored _ _ _ _ _ _ _ H1 H2 L) as (Ho & _ & F & _). match goal with X : ~ usable _ _ _ |- _ => apply X end. destruct pol.
      * assert (Tn := T _ _ L). eapply P; eauto. eapply C23_never_the_same_key_twice; eauto.
      * destruct T. eapply C23_keys_usable_at_zero; eauto.
Qed.
Lemma cautious_mild pol A line : cautious pol A line -> mild pol A (fun _ => False) line.
Proof. intros K a m args Hs. destruct (K a m args Hs) as (K1 & K2 & K3 & K4). repeat (split; auto). Qed.
Lemma tame_defined srt pw pol A c line a m args : sort_contract srt -> reachable srt pw c -> tame pol A c -> cautious pol A line -> statement line a m args ->
  ~ undefined_statement c a m args.
Proof. intros H1 H2 T K Hs U. destruct (tame_undefined srt pw pol A _ c line a m args H1 H2 T (cautious_mild _ _ _ K) Hs U) as [[] _]. Qed.

Lemma int_class E i m args z : fst (receive E i m args) = IObj (OInt z) -> exists z0, i = IObj (OInt z0).
Proof. destruct i as [[]|t0 v0|t0 v0|k0 v0 d0]; cbn [receive on fst]; intros H; try discriminate H. eauto. Qed.
Lemma vec_class E i m args t v : fst (receive E i m args) = IVector t v -> exists v0, i = IVector t v0.
Proof. destruct i as [[]|t0 v0|t0 v0|k0 v0 d0]; cbn [receive on fst]; intros H; try discriminate H. injection H as -> _. eauto. Qed.

(** A server starts with tame data; *)
Theorem C83_a_fresh_server_is_tame : forall pol A opened precision tol is_quiet,
  (pol = ToleranceZero -> finite tol /\ value tol = 0%R) -> tame pol A (new_context opened precision tol is_quiet).
Proof.
  intros pol A o p t q Z. split; [intros n i L; discriminate L|]. destruct pol; [intros n i L; discriminate L|]. destruct (Z eq_refl). now split.
Qed.
Lemma stays_tame srt pw pol A K0 c s line c' s' ans : sort_contract srt -> reachable srt pw c ->
  tame pol A c -> mild pol A K0 line -> runs srt pw c s line c' s' ans -> tame pol A c'.
Proof.
  intros H1 H2 [TI T] K R. split.
  - intros n z L. destruct (step_cases srt pw c s line c' s' ans n H1 H2 R) as [E|[(m & args & j & Hs & Hm & Hj)|[(t & m & args & j & Hs & C & _ & Lj)|[E _]]]].
    + apply (TI n z). congruence.
    + destruct (step_variable srt pw c s line n _ _ _ c' s' ans H1 H2 Hs Hj R) as (E & _). rewrite L in E. injection E as E. symmetry in E.
      apply int_class in E as [z0 ->]. exact (TI _ _ Hj).
    + rewrite L in Lj. injection Lj as <-. destruct (K _ _ _ Hs) as (_ & _ & K3 & _). inversion C; subst; clear C;
        try (apply (K3 (literal_typed _ _ _ ltac:(eassumption)) n [l] eq_refl)).
    + congruence.
  - destruct pol.
    + intros n i L. destruct (step_cases srt pw c s line c' s' ans n H1 H2 R) as [E|[(m & args & j & Hs & Hm & Hj)|[(t & m & args & j & Hs & C & _ & Lj)|[E _]]]].
      * apply (T n i). congruence.
      * destruct (step_variable srt pw c s line n _ _ _ c' s' ans H1 H2 Hs Hj R) as (E & _). rewrite L in E. injection E as E. symmetry in E. assert (Tn := T n j Hj).
        destruct i as [[]|t0 v0|t0 v0|k0 v0 d0]; auto.
        -- apply vec_class in E as [v1 ->]. exact Tn.
        -- apply set_class in E as [v1 ->]. exact Tn.
        -- apply dict_class in E as [v1 ->]. exact Tn.
      * rewrite L in Lj. injection Lj as <-. destruct (K _ _ _ Hs) as (_ & _ & _ & K4). cbn [follows] in K4. unfold float_container in K4. inversion C; subst; clear C; auto.
        -- intros ->. tauto.
        -- intros ->. tauto.
        -- intros ->. apply K4. eauto.
      * congruence.
    + destruct (Props_Float.step_settings srt pw c s line c' s' ans H1 H2 R) as [_ E]. rewrite E; auto. intros args Hs. destruct (K _ _ _ Hs) as (_ & _ & _ & K4). apply K4. now split.
Qed.
(** cautious clients keep them tame; *)
Theorem C83_the_data_stay_tame : forall srt pw pol A c s line c' s' ans, sort_contract srt -> reachable srt pw c ->
  tame pol A c -> cautious pol A line -> runs srt pw c s line c' s' ans -> tame pol A c'.
Proof. intros srt pw pol A c s line c' s' ans H1 H2 T K R. eapply stays_tame; eauto using cautious_mild. Qed.
(** and their lines are always answered. *)
Theorem C83_cautious_lines_are_safe : forall srt pw pol A c s line, sort_contract srt -> reachable srt pw c -> tame pol A c -> cautious pol A line ->
  ~ (exists u, undefined_behaviour srt pw c (Some s) line u) /\
  exists c' s' ans, runs srt pw c (Some s) line c' (Some s') ans.
Proof.
  intros srt pw pol A c s line H1 H2 T K.
  assert (N : ~ exists u, undefined_behaviour srt pw c (Some s) line u).
  { intros U. apply (C69_undefined_iff srt pw c s line H1 H2) in U as (a & m & args & Hs & U). exact (tame_defined srt pw pol A c line a m args H1 H2 T K Hs U). }
  split; auto. destruct (statement_dec line) as [(a & m & args & Hs)|Hn].
  - destruct (C69_three_outcomes srt pw c s line a m args H1 H2 Hs) as [(U & _)|(_ & c' & s' & ans & R & _)]; [|eauto].
    destruct (tame_defined srt pw pol A c line a m args H1 H2 T K Hs U).
  - unfold runs, execute, run_statement, bind, lift. rewrite parse_not_statement by auto. cbn. eauto.
Qed.

Lemma tame_processes srt pw pol A c s line c' s' o : sort_contract srt -> reachable srt pw c -> tame pol A c -> cautious pol A line -> processes srt pw c s line c' s' o -> tame pol A c'.
Proof. intros H1 H2 T K [|c2 s2 ans _ R _|c2 s2 ans _ R _]; auto; eapply C83_the_data_stay_tame; eauto. Qed.
Lemma tame_serial srt pw pol A c ss h c' ss' : sort_contract srt -> reachable srt pw c -> tame pol A c -> Forall (fun e => cautious pol A (e_line e)) h ->
  serial srt pw c ss h c' ss' -> tame pol A c'.
Proof.
  intros H1 H2 T F S. induction S as [|h c1 ss1 sid line c2 s2 o S IH P]; auto. apply Forall_app in F as [F1 F2].
  inversion F2; subst. eapply tame_processes; [exact H1|eapply serial_reach; eauto|eapply IH; eauto|eassumption|exact P].
Qed.
(** For any number of them, by any number of clients, in any order and on any schedule of the threads, cutting of the bytes included: the data stay tame,
    and the only thing that can stop the server is an answer that is not written in time or too long (C40, C69). *)
Theorem C83_cautious_clients_do_no_harm : forall srt pw pol A c0 es, sort_contract srt -> reachable srt pw c0 -> tame pol A c0 ->
  (forall sid line, complete_line (arrived es sid) line -> cautious pol A line) ->
  let sv := run srt (start pw c0) es in
  (sv_crash sv = None /\ tame pol A (sv_ctx sv)) \/
  (sv_crash sv = Some DanglingBuffer /\
    exists es1 sid k es2 cn line c' s' o a, es = es1 ++ Handle sid k :: es2 /\ let sv1 := run srt (start pw c0) es1 in
      sv_crash sv1 = None /\ tame pol A (sv_ctx sv1) /\ nth_error (sv_conns sv1) sid = Some cn /\ next_line cn line /\
      processes srt pw (sv_ctx sv1) (c_session cn) line c' s' o /\ answer_to o = [a] /\ (k <= length a \/ 65536 <= length a)%nat).
Proof.
  intros srt pw pol A c0 es H1 H2 T K. cbv zeta.
  assert (G : forall es1, sv_crash (run srt (start pw c0) es1) = None -> (forall sid line, complete_line (arrived es1 sid) line -> cautious pol A line) ->
    tame pol A (sv_ctx (run srt (start pw c0) es1)) /\ reachable srt pw (sv_ctx (run srt (start pw c0) es1)) /\
    forall sid cn line, nth_error (sv_conns (run srt (start pw c0) es1)) sid = Some cn -> next_line cn line -> cautious pol A line).
  { intros es1 C K1. destruct (inv_exists srt pw c0 es1 C) as (h & ss & I). split; [|split].
    - eapply tame_serial; [exact H1|exact H2|exact T| |exact (i_serial _ _ _ _ _ _ _ I)]. apply Forall_forall. intros e He. apply (K1 (e_sid e)).
      assert (Hk := i_who _ _ _ _ _ _ _ I e He). destruct (nth_error (sv_conns (run srt (start pw c0) es1)) (e_sid e)) as [cn|] eqn:En.
      2:{ apply nth_error_None in En. lia. }
      destruct (i_conn _ _ _ _ _ _ _ I _ _ En) as [_ CI]. rewrite (ci_in _ _ _ _ CI). apply complete_more.
      exists (lines_in (e_sid e) h), []. split.
      + split; [now rewrite app_nil_r|]. split; [apply (ci_lines _ _ _ _ CI)|intros []].
      + apply in_map, filter_In. split; auto. apply Nat.eqb_refl.
    - eapply serial_reach; eauto. exact (i_serial _ _ _ _ _ _ _ I).
    - intros sid cn line Hn (rest & E & N). apply (K1 sid). destruct (i_conn _ _ _ _ _ _ _ I _ _ Hn) as [_ CI]. rewrite (ci_in _ _ _ _ CI).
      apply next_complete; auto; [|apply (ci_lines _ _ _ _ CI)]. exists (rest ++ c_socket cn). rewrite E, <- app_assoc. reflexivity. }
  destruct (sv_crash (run srt (start pw c0) es)) as [u|] eqn:C.
  - right. destruct (C69_every_crash srt pw c0 es u H1 H2 C) as (es1 & sid & k & es2 & cn & line & E & C1 & Hn & Nl & X). cbv zeta in *.
    assert (K1 : forall sid line, complete_line (arrived es1 sid) line -> cautious pol A line).
    { intros sd l Hl. apply (K sd). rewrite E. unfold arrived. rewrite arrives_app. apply complete_more. exact Hl. }
    destruct (G es1 C1 K1) as (T1 & R1 & N1). destruct X as [(_ & a & m & args & Hs & U)|(-> & c' & s' & o & a & P & Ea & La)].
    + destruct (tame_defined srt pw pol A _ line a m args H1 R1 T1 (N1 _ _ _ Hn Nl) Hs U).
    + split; auto. exists es1, sid, k, es2, cn, line, c', s', o, a. repeat (split; auto).
  - left. split; auto. apply G; auto.
Qed.

(** ** Counters *)
Lemma sum_app l k : sum (l ++ k) = (sum l + sum k)%Z.
Proof. induction l as [|a l IH]; cbn [app sum fold_right]; [reflexivity|]. fold (sum (l ++ k)) (sum l). lia. Qed.
Lemma sum_nonneg (w : bytes -> Z) : (forall l, 0 <= w l)%Z -> forall ls, (0 <= sum (map w ls))%Z.
Proof. intros W ls. induction ls as [|a l IH]; cbn; [lia|]. fold (sum (map w l)). specialize (W a). lia. Qed.
Lemma sum_plus (f g : nat -> Z) l : sum (map (fun x => (f x + g x)%Z) l) = (sum (map f l) + sum (map g l))%Z.
Proof. induction l as [|a l IH]; cbn; [reflexivity|]. fold (sum (map (fun x => (f x + g x)%Z) l)) (sum (map f l)) (sum (map g l)). lia. Qed.
Lemma sum_zero (l : list nat) : sum (map (fun _ => 0%Z) l) = 0%Z.
Proof. induction l as [|a l IH]; cbn; [reflexivity|exact IH]. Qed.
Lemma sum_one j x : forall n i, (i <= j < i + n)%nat -> sum (map (fun k => if (j =? k)%nat then x else 0%Z) (seq i n)) = x.
Proof.
  induction n as [|n IH]; intros i H; [lia|]. cbn [seq map sum fold_right]. fold (sum (map (fun k => if (j =? k)%nat then x else 0%Z) (seq (S i) n))).
  destruct (Nat.eqb_spec j i) as [->|N].
  - replace (sum _) with 0%Z; [lia|]. transitivity (sum (map (fun _ => 0%Z) (seq (S i) n))); [symmetry; apply sum_zero|]. f_equal. apply map_ext_in. intros k Hk. apply in_seq in Hk. destruct (Nat.eqb_spec i k); [lia|reflexivity].
  - rewrite IH by lia. lia.
Qed.
Lemma sum_by_session (w : bytes -> Z) N h : (forall e, In e h -> e_sid e < N)%nat ->
  sum (map w (map e_line h)) = sum (map (fun sid => sum (map w (lines_in sid h))) (seq 0 N)).
Proof.
  induction h as [|e h IH]; intros H.
  - symmetry. apply sum_zero.
  - cbn [map sum fold_right]. fold (sum (map w (map e_line h))). rewrite IH by (intros; apply H; now right).
    rewrite <- (sum_one (e_sid e) (w (e_line e)) N 0) at 1 by (split; [lia|apply H; now left]). rewrite <- sum_plus. f_equal. apply map_ext. intros sid.
    unfold lines_in, entries_of. cbn [filter]. destruct (e_sid e =? sid)%nat; cbn; [reflexivity|lia].
Qed.
Lemma sum_le (f g : nat -> Z) l : (forall x, In x l -> f x <= g x)%Z -> (sum (map f l) <= sum (map g l))%Z.
Proof. induction l as [|a l IH]; cbn; intros H; [lia|]. fold (sum (map f l)) (sum (map g l)). assert (X := H a (or_introl eq_refl)). assert (Y := IH (fun x Hx => H x (or_intror Hx))). lia. Qed.
Lemma sum_flat (w : bytes -> Z) (ls : nat -> list bytes) l : sum (map w (flat_map ls l)) = sum (map (fun sid => sum (map w (ls sid))) l).
Proof. induction l as [|a l IH]; cbn [flat_map map sum fold_right]; [reflexivity|]. fold (sum (map (fun sid => sum (map w (ls sid))) l)). rewrite map_app, sum_app, IH. reflexivity. Qed.

(** What has been processed of a counter. *)
Definition near (c : context) (k : bytes) (z b : Z) : Prop := exists v, lookup c k = Some (IObj (OInt v)) /\ (Z.abs (v - z) <= b)%Z.
Lemma careful_mild pol A K line : careful pol A K line -> mild pol A K line.
Proof. intros [H _]. exact H. Qed.
Lemma near_step srt pw pol A K c s line c' s' o k z b w : sort_contract srt -> reachable srt pw c -> careful pol A K line -> K k -> processes srt pw c s line c' s' o ->
  near c k z b -> (forall d, counts line k d -> Z.abs d <= w)%Z -> (0 <= w)%Z -> near c' k z (b + w).
Proof.
  intros H1 H2 Ca Kk P (v & L & Bv) Hw W0. destruct (processes_cases _ _ _ _ _ _ _ _ P) as [(-> & -> & _)|(ans & R & O)].
  { exists v. split; auto. lia. }
  destruct (proj2 Ca k Kk) as [(d & D)|Lv].
  - assert (F := counts_fit _ _ _ _ _ _ _ _ _ _ _ H1 H2 L D R). destruct (counts_effect srt pw c (Some s) line k v d H1 H2 L D F) as (c1 & R1 & L1 & _).
    destruct (runs_unique _ _ _ _ _ _ _ _ _ _ _ R R1) as (-> & _ & _). exists (v + d)%Z. split; auto. specialize (Hw d D). lia.
  - exists v. split; [|lia]. rewrite <- L. eapply leaves_lookup; eauto. unfold live. congruence.
Qed.
Lemma near_serial srt pw pol A K c ss h c' ss' k z w : sort_contract srt -> reachable srt pw c -> Forall (fun e => careful pol A K (e_line e)) h -> K k ->
  lookup c k = Some (IObj (OInt z)) -> Forall (fun e => forall d, counts (e_line e) k d -> Z.abs d <= w (e_line e))%Z h -> (forall line, 0 <= w line)%Z ->
  serial srt pw c ss h c' ss' -> near c' k z (sum (map w (map e_line h))).
Proof.
  intros H1 H2 F Kk L Hw W0 S. induction S as [|h c1 ss1 sid line c2 s2 o S IH P]; [exists z; split; auto; cbn; lia|].
  apply Forall_app in F as [F1 F2]. inversion F2; subst. apply Forall_app in Hw as [Hw1 Hw2]. apply Forall_inv in Hw2. cbn [e_line] in Hw2. rewrite !map_app, sum_app. cbn [map sum fold_right e_line]. rewrite Z.add_0_r.
  eapply near_step; [exact H1|eapply serial_reach; eauto|eassumption|exact Kk|exact P|apply IH; auto|exact Hw2|apply W0].
Qed.
Lemma mild_serial srt pw pol A K c ss h c' ss' : sort_contract srt -> reachable srt pw c -> tame pol A c -> Forall (fun e => careful pol A K (e_line e)) h ->
  serial srt pw c ss h c' ss' -> tame pol A c'.
Proof.
  intros H1 H2 T F S. induction S as [|h c1 ss1 sid line c2 s2 o S IH P]; auto. apply Forall_app in F as [F1 F2].
  assert (T1 := IH F1). assert (R1 := serial_reach _ _ _ _ _ _ _ H2 S). inversion F2 as [|x y Cx _]; subst.
  destruct (processes_cases _ _ _ _ _ _ _ _ P) as [(_ & -> & _)|(ans & R & O)]; [exact T1|]. exact (stays_tame srt pw pol A K c1 _ line c2 _ ans H1 R1 T1 (careful_mild _ _ _ _ Cx) R).
Qed.
(** The line in turn has no undefined behaviour if the counters are still far from the limits. *)
Lemma careful_defined srt pw pol A K c line a m args : sort_contract srt -> reachable srt pw c -> tame pol A c -> careful pol A K line -> statement line a m args ->
  (forall k d, K k -> counts line k d -> exists v, lookup c k = Some (IObj (OInt v)) /\ (Z.abs v + Z.abs d <= 2147483647)%Z) ->
  ~ undefined_statement c a m args.
Proof.
  intros H1 H2 T Ca Hs Near U. destruct (tame_undefined srt pw pol A K c line a m args H1 H2 T (careful_mild _ _ _ _ Ca) Hs U) as (Ka & z & L & Um & Am).
  destruct (proj2 Ca a Ka) as [(d & D)|[_ Si]].
  - destruct (Near a d Ka D) as (v & Lv & Bv). rewrite L in Lv. injection Lv as <-.
    assert (F : fits (z + d)) by (split; lia).
    destruct (counts_effect srt pw c (Some (fresh pw)) line a z d H1 H2 L D F) as (c1 & R1 & _).
    assert (X : exists u, undefined_behaviour srt pw c (Some (fresh pw)) line u) by (apply (C69_undefined_iff srt pw c (fresh pw) line H1 H2); eauto).
    destruct X as [u X]. exact (runs_ub _ _ _ _ _ _ _ _ _ R1 X).
  - refine (Si m args _ Hs). unfold arithmetic_messages in Am. cbn in Am. unfold mutators. cbn. tauto.
Qed.
(** Counters do not overflow on any schedule, if all that all clients ever send to be added and subtracted fits: *)
Theorem C83_counters_do_not_overflow : forall srt pw pol A K c0 es N ls rest, sort_contract srt -> reachable srt pw c0 -> tame pol A c0 ->
  (forall sid, lines_of (arrived es sid) (ls sid) (rest sid)) -> (forall sid, N <= sid -> ls sid = [])%nat ->
  (forall sid line, In line (ls sid) -> careful pol A K line) ->
  (forall k, K k -> exists z, lookup c0 k = Some (IObj (OInt z)) /\ within_budget k z (flat_map ls (seq 0 N))) ->
  let sv := run srt (start pw c0) es in sv_crash sv = None \/ sv_crash sv = Some DanglingBuffer.
Proof.
  intros srt pw pol A K c0 es N ls rest H1 H2 T Ls Nl Ca Bu. cbv zeta.
  destruct (sv_crash (run srt (start pw c0) es)) as [u|] eqn:C; [right|now left].
  destruct (C69_every_crash srt pw c0 es u H1 H2 C) as (es1 & sid & n & es2 & cn & line & E & C1 & Hn & Nx & X). cbv zeta in *.
  destruct X as [(_ & a & m & args & Hs & U)|(-> & _)]; [exfalso|reflexivity].
  destruct (inv_exists srt pw c0 es1 C1) as (h & ss & I). destruct Nx as (r & Er & Nr).
  set (h1 := h ++ [{| e_sid := sid; e_line := line; e_outcome := Refused |}]).
  (* the lines processed and the next one are first lines of what was sent *)
  assert (Pre : forall j, exists more, ls j = lines_in j h1 ++ more).
  { intros j. destruct (nth_error (sv_conns (run srt (start pw c0) es1)) j) as [cj|] eqn:Ej.
    - destruct (i_conn _ _ _ _ _ _ _ I _ _ Ej) as [_ CI].
      assert (Y : exists tail, arrived es1 j = flat_map with_newline (lines_in j h1) ++ tail /\ Forall (fun l => ~ In NEWLINE l) (lines_in j h1)).
      { unfold h1, lines_in, entries_of. rewrite filter_app. cbn [filter e_sid]. destruct (Nat.eqb_spec sid j) as [->|Nj].
        - rewrite Hn in Ej. injection Ej as <-. rewrite map_app, flat_map_app. cbn [map flat_map e_line]. rewrite (ci_in _ _ _ _ CI), Er. exists (r ++ c_socket cn). split.
          + unfold lines_in, entries_of. rewrite <- !app_assoc. cbn [app]. reflexivity.
          + apply Forall_app. split; [exact (ci_lines _ _ _ _ CI)|auto].
        - rewrite app_nil_r. rewrite (ci_in _ _ _ _ CI). eauto using (ci_lines _ _ _ _ CI). }
      destruct Y as (tail & Y1 & Y2). destruct (Ls j) as (L1 & L2 & L3). rewrite E in L1. unfold arrived in L1, Y1. rewrite arrives_app, Y1 in L1. rewrite <- app_assoc in L1.
      destruct (lines_unique _ _ _ _ Y2 L2 L1) as [(k & -> & _)|(k & Ek & Ez)]; [eauto|].
      destruct k as [|l k]; [exists []; rewrite app_nil_r in *; auto|]. exfalso. apply L3. rewrite Ez. now apply in_flat_newline.
    - exists (ls j).
      assert (Q : forall e, In e h1 -> (e_sid e =? j)%nat = false).
      { intros e He. apply Nat.eqb_neq. intros <-. apply nth_error_None in Ej. apply in_app_or in He as [He|[<-|[]]].
        - assert (Z := i_who _ _ _ _ _ _ _ I e He). lia.
        - cbn in Ej. assert (Z := proj1 (nth_error_Some (sv_conns (run srt (start pw c0) es1)) sid)). rewrite Hn in Z. assert (Some cn <> None) by discriminate. specialize (Z H). lia. }
      assert (Fl : filter (fun e => (e_sid e =? j)%nat) h1 = []).
      2:{ unfold lines_in, entries_of. rewrite Fl. reflexivity. }
      clear - Q. induction h1 as [|e l IH]; [reflexivity|]. cbn [filter]. rewrite (Q e (or_introl eq_refl)). apply IH. intros. apply Q. now right. }
  assert (Of : forall e, In e h1 -> In (e_line e) (ls (e_sid e))).
  { intros e He. destruct (Pre (e_sid e)) as (more & ->). apply in_or_app. left. apply in_map, filter_In. split; auto. apply Nat.eqb_refl. }
  assert (Fh : Forall (fun e => careful pol A K (e_line e)) h1) by (apply Forall_forall; intros e He; exact (Ca _ _ (Of e He))).
  assert (Sid : forall e, In e h1 -> (e_sid e < N)%nat).
  { intros e He. destruct (Nat.lt_ge_cases (e_sid e) N) as [|Ge]; auto. assert (Z := Of e He). rewrite (Nl _ Ge) in Z. destruct Z. }
  assert (All : forall e, In e h1 -> In (e_line e) (flat_map ls (seq 0 N))).
  { intros e He. apply in_flat_map. exists (e_sid e). split; [apply in_seq; specialize (Sid e He); lia|auto]. }
  apply Forall_app in Fh as [Fh Fe]. inversion Fe as [|x y Cl _]; subst. cbn [e_line] in Cl.
  assert (S := i_serial _ _ _ _ _ _ _ I). assert (R1 := serial_reach _ _ _ _ _ _ _ H2 S). assert (T1 := mild_serial _ _ _ _ _ _ _ _ _ _ H1 H2 T Fh S).
  refine (careful_defined srt pw pol A K _ line a m args H1 R1 T1 Cl Hs _ U). intros k d Kk D.
  destruct (Bu k Kk) as (z & L & w & W0 & Hw & Bw). assert (Hh : Forall (fun e => forall d, counts (e_line e) k d -> Z.abs d <= w (e_line e))%Z h) by (apply Forall_forall; intros e He d' D'; apply Hw; auto; apply All, in_or_app; now left).
  destruct (near_serial _ _ _ _ _ _ _ _ _ _ k z w H1 H2 Fh Kk L Hh W0 S) as (v & Lv & Bv). exists v. split; auto.
  assert (Le : (sum (map w (map e_line h)) + w line <= sum (map w (flat_map ls (seq 0 N))))%Z).
  { replace (sum (map w (map e_line h)) + w line)%Z with (sum (map w (map e_line h1))).
    - rewrite (sum_by_session w N h1 Sid), sum_flat. apply sum_le. intros j _. destruct (Pre j) as (more & ->). rewrite map_app, sum_app. assert (Z := sum_nonneg w W0 more). lia.
    - unfold h1. rewrite !map_app, sum_app. cbn. lia. }
  assert (Il : In line (flat_map ls (seq 0 N))) by (apply (All {| e_sid := sid; e_line := line; e_outcome := Refused |}), in_or_app; right; now left).
  assert (Hd := Hw line d Il D). lia.
Qed.

(** ** Examples *)
Lemma number_denotes (a : bytes) z : forallb (fun c => (48 <=? code c) && (code c <=? 57))%nat a = true -> a <> [] -> digits_value a = z -> denotes_int a z.
Proof.
  intros F N <-. apply int_plain; auto. rewrite forallb_forall in F. apply Forall_forall. intros x Hx. specialize (F x Hx).
  apply Bool.andb_true_iff in F as [F1 F2]. apply Nat.leb_le in F1, F2. split; assumption.
Qed.
Ltac number := apply number_denotes; [vm_compute; reflexivity|discriminate|vm_compute; reflexivity].
Lemma in_range_of a : match integer_of a with UB _ => False | _ => True end -> ~ out_of_range a.
Proof. intros H O. apply Props_Vector.out_of_range_ub in O as [u O]. rewrite O in H. exact H. Qed.
Definition no_float_container (t : bytes) : bool :=
  let t := remove_spaces t in
  negb (seq_eqb t (B "Vector<Float>")) && negb (seq_eqb t (B "Set<Float>")) && negb (seq_eqb (firstn 11 t) (B "Dictionary<")).
Lemma no_float_container_of t : no_float_container t = true -> ~ float_container t.
Proof.
  unfold no_float_container. rewrite !Bool.andb_true_iff, !Bool.negb_true_iff. intros [[A1 A2] A3] [X|[X|[v X]]].
  - rewrite (remove_spaces_vector _ _ X) in A1. vm_compute in A1. discriminate A1.
  - rewrite (remove_spaces_set _ _ X) in A2. vm_compute in A2. discriminate A2.
  - rewrite (remove_spaces_dictionary _ _ _ X) in A3. vm_compute in A3. discriminate A3.
Qed.
Lemma mild_of pol A K line a m args : statement line a m args ->
  forallb (fun x => match integer_of x with UB _ => false | _ => true end) args = true ->
  (In m arithmetic_messages -> A a \/ K a) -> (a = B "Integer" -> forall n rest, args = n :: rest -> ~ A n) -> (match pol with NoFloatContainers => no_float_container a | ToleranceZero => negb (seq_eqb m (B "setFloatComparisonTolerance:")) end = true) -> mild pol A K line.
Proof.
  intros Hs R Ar In_ Nf a' m' args' Hs'. destruct (statement_unique _ _ _ _ _ _ _ Hs Hs') as (<- & <- & <-). rewrite forallb_forall in R.
  split; [|split; [|split]]; auto.
  - intros x Hx. apply in_range_of. specialize (R x Hx). destruct (integer_of x); auto. discriminate R.
  - destruct pol; [now apply no_float_container_of|]. intros [_ ->]. vm_compute in Nf. discriminate Nf.
Qed.
Definition only_s (n : bytes) : Prop := n = B "s".
Definition cautious_lines : list (nat * bytes) :=
  [(0%nat, B "Integer create: x withValue: 5;"); (1%nat, B "Set<String> create: s;"); (0%nat, B "s add: ""a"";"); (1%nat, B "x set: 2147483647;"); (1%nat, B "x isLessThan? 7;");
   (0%nat, B "s contains? ""a"";"); (0%nat, B "not a statement")].
Definition cautious_schedule : list event := [Accept; Accept] ++ concat (map (fun p => talk (fst p) (snd p)) cautious_lines).
Example C83_ex :
  Forall (fun p => cautious NoFloatContainers only_s (snd p)) cautious_lines /\ tame NoFloatContainers only_s empty_server /\
  (let sv := run insertion_sort (start [] empty_server) cautious_schedule in sv_crash sv = None /\
     lookup (sv_ctx sv) (B "x") = Some (IObj (OInt 2147483647)) /\ lookup (sv_ctx sv) (B "s") = Some (ISet (B "String") [OStr (B "a")])) /\
  ~ cautious NoFloatContainers only_s (B "x set: 2147483648;") /\ ~ cautious NoFloatContainers only_s (B "x multiplyBy: 2;") /\ ~ cautious NoFloatContainers only_s (B "Vector<Float> create: v;").
Proof.
  assert (Not : forall line a m args, statement line a m args -> cautious NoFloatContainers only_s line -> (forall x, In x args -> ~ out_of_range x) /\ (In m arithmetic_messages -> variable a -> only_s a) /\ ~ float_container a).
  { intros line a m args Hs C. destruct (C a m args Hs) as (C1 & C2 & _ & C4). auto. }
  assert (Weak : forall line, mild NoFloatContainers only_s (fun _ => False) line -> cautious NoFloatContainers only_s line).
  { intros line M a m args Hs. destruct (M a m args Hs) as (M1 & M2 & M3 & M4). repeat (split; auto). intros X Y. destruct (M2 X Y) as [|[]]; auto. }
  split.
  - repeat apply Forall_cons; try apply Forall_nil; cbn [snd]; apply Weak.
    + eapply (mild_of _ _ _ _ (B "Integer") (B "create:withValue:") [B "x"; B "5"]); [stmt|vm_compute; reflexivity| | |vm_compute; reflexivity].
      * intros X. cbn in X. repeat destruct X as [X|X]; try discriminate X. destruct X.
      * intros _ n rest E X. injection E as E _. unfold only_s in X. rewrite <- E in X. discriminate X.
    + eapply (mild_of _ _ _ _ (B "Set<String>") (B "create:") [B "s"]); [stmt|vm_compute; reflexivity| | |vm_compute; reflexivity].
      * intros X. cbn in X. repeat destruct X as [X|X]; try discriminate X. destruct X.
      * intros X. discriminate X.
    + eapply (mild_of _ _ _ _ (B "s") (B "add:") [B """a"""]); [stmt|vm_compute; reflexivity| | |vm_compute; reflexivity].
      * intros _. left. reflexivity.
      * intros X. discriminate X.
    + eapply (mild_of _ _ _ _ (B "x") (B "set:") [B "2147483647"]); [stmt|vm_compute; reflexivity| | |vm_compute; reflexivity].
      * intros X. cbn in X. repeat destruct X as [X|X]; try discriminate X. destruct X.
      * intros X. discriminate X.
    + eapply (mild_of _ _ _ _ (B "x") (B "isLessThan?") [B "7"]); [stmt|vm_compute; reflexivity| | |vm_compute; reflexivity].
      * intros X. cbn in X. repeat destruct X as [X|X]; try discriminate X. destruct X.
      * intros X. discriminate X.
    + eapply (mild_of _ _ _ _ (B "s") (B "contains?") [B """a"""]); [stmt|vm_compute; reflexivity| | |vm_compute; reflexivity].
      * intros X. cbn in X. repeat destruct X as [X|X]; try discriminate X. destruct X.
      * intros X. discriminate X.
    + intros a m args Hs. exfalso. apply parse_iff in Hs. vm_compute in Hs. discriminate Hs.
  - split; [apply C83_a_fresh_server_is_tame; discriminate|]. split; [split; [vm_compute; reflexivity|split; vm_compute; reflexivity]|]. split; [|split]; intros C.
    + destruct (Not (B "x set: 2147483648;") (B "x") (B "set:") [B "2147483648"] ltac:(stmt) C) as (C1 & _). apply (C1 (B "2147483648")); [now left|]. left. exists 2147483648%Z. split; [number|]. unfold fits. lia.
    + destruct (Not (B "x multiplyBy: 2;") (B "x") (B "multiplyBy:") [B "2"] ltac:(stmt) C) as (_ & C2 & _). assert (X : only_s (B "x")) by (apply C2; [cbn; tauto|apply Proof_Grammar.is_variable_iff; reflexivity]). discriminate X.
    + destruct (Not (B "Vector<Float> create: v;") (B "Vector<Float>") (B "create:") [B "v"] ltac:(stmt) C) as (_ & _ & C3). apply C3. left. exists [], []. split; [reflexivity|]. split; [constructor|]. split; [constructor|]. unfold object_type. tauto.
Qed.

Definition only_x (n : bytes) : Prop := n = B "x".
Definition counter_lines (sid : nat) : list bytes :=
  match sid with 0%nat => [B "x add: 2147483000;"; B "x get;"] | 1%nat => [B "x subtract: 500;"] | _ => [] end.
Definition counter_schedule : list event := [Accept; Accept] ++ talk 1 (B "x subtract: 500;") ++ talk 0 (B "x add: 2147483000;") ++ talk 0 (B "x get;").
Example C83_counter_ex :
  reachable insertion_sort [] one_integer /\ tame NoFloatContainers (fun _ => False) one_integer /\
  (forall sid, lines_of (arrived counter_schedule sid) (counter_lines sid) []) /\ (forall sid, 2 <= sid -> counter_lines sid = [])%nat /\
  (forall sid line, In line (counter_lines sid) -> careful NoFloatContainers (fun _ => False) only_x line) /\
  (forall k, only_x k -> exists z, lookup one_integer k = Some (IObj (OInt z)) /\ within_budget k z (flat_map counter_lines (seq 0 2))) /\
  lookup (sv_ctx (run insertion_sort (start [] one_integer) counter_schedule)) (B "x") = Some (IObj (OInt 2147482505)).
Proof.
  assert (Un : forall line n m a d d', statement line n m [a] -> denotes_int a d' -> counts line n d -> Z.abs d = Z.abs d').
  { intros line n m a d d' Hs D C. destruct C as [b d Hs' D' _|b d Hs' D' _]; destruct (statement_unique _ _ _ _ _ _ _ Hs Hs') as (_ & _ & Eb); injection Eb as <-;
      rewrite (denotes_int_unique _ _ _ D D'); lia. }
  assert (D1 : denotes_int (B "2147483000") 2147483000) by (number).
  assert (D2 : denotes_int (B "500") 500) by (number).
  assert (F1 : forall line, In line (counter_lines 0 ++ counter_lines 1) ->
    (line = B "x add: 2147483000;" \/ line = B "x subtract: 500;" \/ line = B "x get;")) by (cbn; intros; intuition congruence).
  assert (F2 : forall sid line, In line (counter_lines sid) -> In line (counter_lines 0 ++ counter_lines 1)).
  { intros [|[|sid]] line H; [apply in_or_app; now left|apply in_or_app; now right|destruct H]. }
  split; [|split; [|split; [|split; [|split; [|split]]]]].
  - eapply (reach_step _ _ empty_server None (B "Integer create: x withValue: 5;")); [constructor; vm_compute; reflexivity|]. unfold runs. vm_compute. reflexivity.
  - split; [intros n z L X; exact X|]. intros n i L. unfold lookup, one_integer in L. cbn [instances set_instances assoc] in L. destruct (bytes_dec (B "x") n); [injection L as <-; exact I|discriminate L].
  - intros [|[|sid]]; (split; [|split; [|intros []]]); try (vm_compute; reflexivity); cbn [counter_lines]; repeat apply Forall_cons; try apply Forall_nil;
      intros H; apply (proj2 (has_newline_iff _)) in H; vm_compute in H; discriminate H.
  - intros [|[|sid]] H; try lia. reflexivity.
  - intros sid line Hl. destruct (F1 line (F2 sid line Hl)) as [->|[->| ->]]; split.
    + eapply (mild_of _ _ _ _ (B "x") (B "add:") [B "2147483000"]); [stmt|vm_compute; reflexivity|intros _; right; reflexivity| |vm_compute; reflexivity]. intros X. discriminate X.
    + intros k ->. left. exists 2147483000%Z. apply (counts_add _ _ (B "2147483000")); [stmt|exact D1|unfold fits; lia].
    + eapply (mild_of _ _ _ _ (B "x") (B "subtract:") [B "500"]); [stmt|vm_compute; reflexivity|intros _; right; reflexivity| |vm_compute; reflexivity]. intros X. discriminate X.
    + intros k ->. left. exists (- 500)%Z. apply (counts_subtract _ _ (B "500") 500%Z); [stmt|exact D2|unfold fits; lia].
    + eapply (mild_of _ _ _ _ (B "x") (B "get") []); [stmt|vm_compute; reflexivity|intros _; right; reflexivity| |vm_compute; reflexivity]. intros X. discriminate X.
    + intros k ->. right. leaf.
  - intros k ->. exists 5%Z. split; [reflexivity|].
    exists (fun line => if seq_eqb line (B "x add: 2147483000;") then 2147483000%Z else if seq_eqb line (B "x subtract: 500;") then 500%Z else 0%Z). split; [|split].
    + intros line. destruct (seq_eqb line (B "x add: 2147483000;")), (seq_eqb line (B "x subtract: 500;")); lia.
    + intros line d Hl C. destruct (F1 line Hl) as [->|[->| ->]].
      * rewrite (Un (B "x add: 2147483000;") (B "x") (B "add:") (B "2147483000") d _ ltac:(stmt) D1 C). vm_compute. discriminate.
      * rewrite (Un (B "x subtract: 500;") (B "x") (B "subtract:") (B "500") d _ ltac:(stmt) D2 C). vm_compute. discriminate.
      * exfalso. destruct C as [a d Hs _ _|a d Hs _ _]; apply parse_iff in Hs; vm_compute in Hs; discriminate Hs.
    + vm_compute. discriminate.
  - vm_compute. reflexivity.
Qed.
(** With the tolerance zero, Float containers are fine. *)
Definition zero_lines : list bytes := [B "Vector<Float> create: s;"; B "s pushBack: 2.5;"; B "s pushBack: -1.5;"; B "s sort;"; B "Set<Float> create: s2;"; B "s2 add: 1.25;"].
Definition s_or_s2 (n : bytes) : Prop := n = B "s" \/ n = B "s2".
Example C83_zero_ex :
  Forall (cautious ToleranceZero s_or_s2) zero_lines /\ tame ToleranceZero s_or_s2 empty_server /\
  ~ cautious ToleranceZero s_or_s2 (B "Context setFloatComparisonTolerance: 0.5;") /\
  let sv := run insertion_sort (start [] empty_server) ([Accept] ++ concat (map (talk 0) zero_lines)) in sv_crash sv = None /\
    lookup (sv_ctx sv) (B "s") = Some (IVector (B "Float") [OFloat (to_float (atof (B "-1.5"))); OFloat (to_float (atof (B "2.5")))]) /\
    lookup (sv_ctx sv) (B "s2") = Some (ISet (B "Float") [OFloat (to_float (atof (B "1.25")))]).
Proof.
  assert (Weak : forall line, mild ToleranceZero s_or_s2 (fun _ => False) line -> cautious ToleranceZero s_or_s2 line).
  { intros line M a m args Hs. destruct (M a m args Hs) as (M1 & M2 & M3 & M4). repeat (split; auto). intros X Y. destruct (M2 X Y) as [|[]]; auto. }
  split; [|split; [|split]].
  - repeat apply Forall_cons; try apply Forall_nil; apply Weak.
    + eapply (mild_of _ _ _ _ (B "Vector<Float>") (B "create:") [B "s"]); [stmt|vm_compute; reflexivity| | |vm_compute; reflexivity].
      * intros X. cbn in X. repeat destruct X as [X|X]; try discriminate X. destruct X.
      * intros X. discriminate X.
    + eapply (mild_of _ _ _ _ (B "s") (B "pushBack:") [B "2.5"]); [stmt|vm_compute; reflexivity| | |vm_compute; reflexivity].
      * intros X. left. left. reflexivity.
      * intros X. discriminate X.
    + eapply (mild_of _ _ _ _ (B "s") (B "pushBack:") [B "-1.5"]); [stmt|vm_compute; reflexivity| | |vm_compute; reflexivity].
      * intros X. left. left. reflexivity.
      * intros X. discriminate X.
    + eapply (mild_of _ _ _ _ (B "s") (B "sort") []); [stmt|vm_compute; reflexivity| | |vm_compute; reflexivity].
      * intros X. left. left. reflexivity.
      * intros X. discriminate X.
    + eapply (mild_of _ _ _ _ (B "Set<Float>") (B "create:") [B "s2"]); [stmt|vm_compute; reflexivity| | |vm_compute; reflexivity].
      * intros X. cbn in X. repeat destruct X as [X|X]; try discriminate X. destruct X.
      * intros X. discriminate X.
    + eapply (mild_of _ _ _ _ (B "s2") (B "add:") [B "1.25"]); [stmt|vm_compute; reflexivity| | |vm_compute; reflexivity].
      * intros X. left. right. reflexivity.
      * intros X. discriminate X.
  - apply C83_a_fresh_server_is_tame. intros _. split; [exact I|reflexivity].
  - intros C. destruct (C (B "Context") (B "setFloatComparisonTolerance:") [B "0.5"] ltac:(stmt)) as (_ & _ & _ & X). apply X. now split.
  - cbv zeta. split; [vm_compute; reflexivity|]. split; vm_compute; reflexivity.
Qed.
Print Assumptions C83_a_fresh_server_is_tame.
Print Assumptions C83_cautious_lines_are_safe.
Print Assumptions C83_the_data_stay_tame.
Print Assumptions C83_cautious_clients_do_no_harm.
Print Assumptions C83_counters_do_not_overflow.
