(** Proofs about the calendar and the time stamps (C68). *)
From Coq Require Import String List Ascii ZArith Lia Sorting.Sorted.
From Verif Require Import Bytes StrUtils Outcome Num Instance Context Clock.
From Verif Require Import Spec_Grammar Spec_Text Spec_Number Spec_State Spec_Names Spec_Local Spec_Clock.
From Verif Require Import Proof_Number Proof_Order.
Import ListNotations.
Open Scope list_scope.
Open Scope Z_scope.

(** ** Months *)
Lemma leap_iff y : leap_year y = true <-> leap y.
Proof.
  unfold leap_year, leap. rewrite andb_true_iff, orb_true_iff, negb_true_iff, !Z.eqb_eq, Z.eqb_neq.
  rewrite !Z.mod_divide by lia. reflexivity.
Qed.
Lemma month_length_days y m k : month_length y m k -> 1 <= m <= 12 /\ k = month_days y m.
Proof.
  intros H. destruct H as [m H|m H|H|H].
  - cbn in H. repeat (destruct H as [<-|H]; [split; [lia|reflexivity]|]). destruct H.
  - cbn in H. repeat (destruct H as [<-|H]; [split; [lia|reflexivity]|]). destruct H.
  - split; [lia|]. unfold month_days. cbn [Z.eqb Pos.eqb]. destruct (leap_year y) eqn:E; [|reflexivity]. apply leap_iff in E. contradiction.
  - split; [lia|]. unfold month_days. cbn [Z.eqb Pos.eqb]. apply leap_iff in H. now rewrite H.
Qed.
Lemma month_days_length y m : 1 <= m <= 12 -> month_length y m (month_days y m).
Proof.
  intros H. assert (C : m = 1 \/ m = 2 \/ m = 3 \/ m = 4 \/ m = 5 \/ m = 6 \/ m = 7 \/ m = 8 \/ m = 9 \/ m = 10 \/ m = 11 \/ m = 12) by lia.
  assert (L : month_length y 2 (month_days y 2)).
  { unfold month_days. cbn [Z.eqb Pos.eqb]. destruct (leap_year y) eqn:E.
    - apply february_leap. now apply leap_iff.
    - apply february. intros F. apply leap_iff in F. congruence. }
  repeat (destruct C as [->|C]); try (subst m); try exact L;
    try (apply long_month; cbn; tauto); try (apply short_month; cbn; tauto).
Qed.
Lemma month_days_pos y m : 28 <= month_days y m <= 31.
Proof. unfold month_days. repeat (match goal with |- context [if ?b then _ else _] => destruct b end); lia. Qed.
Lemma year_days_range y : 365 <= year_days y <= 366.
Proof. unfold year_days. destruct (leap_year y); lia. Qed.

(** ** The calendar, computed *)
Lemma month_run y m n : 1 <= m <= 12 -> calendar n y m 1 -> forall k, 0 <= k -> k < month_days y m -> calendar (n + k) y m (k + 1).
Proof.
  intros Hm C. apply (natlike_ind (fun k => k < month_days y m -> calendar (n + k) y m (k + 1))).
  - intros _. now rewrite Z.add_0_r.
  - intros k Hk IH L. replace (n + Z.succ k) with (n + k + 1) by lia. replace (Z.succ k) with (k + 1) by lia.
    eapply calendar_day; [apply IH; lia|now apply month_days_length|lia].
Qed.
Lemma next_month y m n : 1 <= m < 12 -> calendar n y m 1 -> calendar (n + month_days y m) y (m + 1) 1.
Proof.
  intros Hm C. assert (P := month_days_pos y m).
  replace (n + month_days y m) with (n + (month_days y m - 1) + 1) by lia.
  apply calendar_month with (d := month_days y m - 1 + 1); [apply month_run; [lia|exact C|lia|lia]| |lia].
  replace (month_days y m - 1 + 1) with (month_days y m) by lia. apply month_days_length. lia.
Qed.
Fixpoint rest_of_year (fuel : nat) (y m : Z) : Z := match fuel with O => 0 | S f => month_days y m + rest_of_year f y (m + 1) end.
Lemma rest_whole y : rest_of_year 12 y 1 = year_days y.
Proof. unfold rest_of_year, year_days, month_days. cbn. destruct (leap_year y); reflexivity. Qed.
Lemma find_month_ok y fuel : forall n m d, calendar n y m 1 -> 1 <= m -> m + Z.of_nat fuel = 13 -> 0 <= d < rest_of_year fuel y m ->
  calendar (n + d) y (fst (find_month fuel y m d)) (snd (find_month fuel y m d) + 1).
Proof.
  induction fuel as [|f IH]; intros n m d C Hm Hf Hd; [cbn in Hd; lia|].
  cbn [find_month rest_of_year] in *. destruct (Z.ltb_spec d (month_days y m)).
  - cbn [fst snd]. apply month_run; [lia|exact C|lia|lia].
  - destruct f as [|f']; [cbn in Hd; lia|].
    replace (n + d) with (n + month_days y m + (d - month_days y m)) by lia.
    apply IH; [apply next_month; [lia|exact C]|lia|lia|lia].
Qed.
Lemma next_year y n : calendar n y 1 1 -> calendar (n + year_days y) (y + 1) 1 1.
Proof.
  intros C. assert (P := year_days_range y).
  assert (K : calendar (n + (year_days y - 31)) y 12 1).
  { assert (E : year_days y - 31 = month_days y 1 + month_days y 2 + month_days y 3 + month_days y 4 + month_days y 5 + month_days y 6 +
                month_days y 7 + month_days y 8 + month_days y 9 + month_days y 10 + month_days y 11)
      by (unfold year_days, month_days; cbn; destruct (leap_year y); reflexivity).
    rewrite E, !Z.add_assoc.
    apply (next_month y 11); [lia|]. apply (next_month y 10); [lia|]. apply (next_month y 9); [lia|]. apply (next_month y 8); [lia|].
    apply (next_month y 7); [lia|]. apply (next_month y 6); [lia|]. apply (next_month y 5); [lia|]. apply (next_month y 4); [lia|].
    apply (next_month y 3); [lia|]. apply (next_month y 2); [lia|]. apply (next_month y 1); [lia|exact C]. }
  replace (n + year_days y) with (n + (year_days y - 31) + 30 + 1) by lia.
  apply calendar_year. change 31 with (30 + 1). apply month_run; [lia|exact K|lia|reflexivity].
Qed.
Lemma find_year_ok fuel : forall n y d, calendar n y 1 1 -> 0 <= d < Z.of_nat fuel ->
  exists n', calendar n' (fst (find_year fuel y d)) 1 1 /\ n' + snd (find_year fuel y d) = n + d /\
    0 <= snd (find_year fuel y d) < year_days (fst (find_year fuel y d)) /\ y <= fst (find_year fuel y d) /\
    365 * (fst (find_year fuel y d) - y) <= d.
Proof.
  induction fuel as [|f IH]; intros n y d C Hd; [lia|].
  cbn [find_year]. assert (P := year_days_range y). destruct (Z.ltb_spec d (year_days y)); cbn [fst snd].
  - exists n. repeat split; auto; lia.
  - destruct (IH (n + year_days y) (y + 1) (d - year_days y)) as (n' & K1 & K2 & K3 & K4 & K5); [now apply next_year|lia|].
    exists n'. repeat split; auto; lia.
Qed.

(** ** The calendar is a function, and in order *)
Lemma calendar_nonneg n y m d : calendar n y m d -> 0 <= n.
Proof. induction 1; lia. Qed.
Lemma calendar_ranges n y m d : calendar n y m d -> 1970 <= y /\ 1 <= m <= 12 /\ 1 <= d <= month_days y m.
Proof.
  induction 1 as [|n y m d k C IH L H|n y m d C IH L H|n y C IH].
  - repeat split; try lia; cbn; lia.
  - apply month_length_days in L as [? ->]. lia.
  - assert (P := month_days_pos y (m + 1)). lia.
  - assert (P := month_days_pos (y + 1) 1). lia.
Qed.
Lemma month_length_fun y m k k' : month_length y m k -> month_length y m k' -> k = k'.
Proof. intros H H'. apply month_length_days in H as [_ ->], H' as [_ ->]. reflexivity. Qed.
Definition day_after (y m d y' m' d' : Z) : Prop := y < y' \/ y = y' /\ (m < m' \/ m = m' /\ d < d').
Lemma calendar_unique n : 0 <= n -> forall y m d y' m' d', calendar n y m d -> calendar n y' m' d' -> y = y' /\ m = m' /\ d = d'.
Proof.
  revert n. apply (natlike_ind (fun n => forall y m d y' m' d', calendar n y m d -> calendar n y' m' d' -> y = y' /\ m = m' /\ d = d')).
  - intros y m d y' m' d' H H'.
    assert (Z0 : forall y m d, calendar 0 y m d -> y = 1970 /\ m = 1 /\ d = 1).
    { clear. intros y m d H. inversion H as [|n ? ? ? ? C ? ? E|n ? ? ? C ? ? E|n ? C E]; subst; auto; apply calendar_nonneg in C; lia. }
    apply Z0 in H as (-> & -> & ->), H' as (-> & -> & ->). auto.
  - intros n Hn IH.
    assert (ST : forall y m d, calendar (Z.succ n) y m d -> exists y0 m0 d0, calendar n y0 m0 d0 /\
      (d0 < month_days y0 m0 /\ y = y0 /\ m = m0 /\ d = d0 + 1 \/
       d0 = month_days y0 m0 /\ m0 < 12 /\ y = y0 /\ m = m0 + 1 /\ d = 1 \/
       d0 = month_days y0 m0 /\ m0 = 12 /\ y = y0 + 1 /\ m = 1 /\ d = 1)).
    { clear IH. intros y m d H. inversion H as [E|p ? ? ? ? C L Q E|p ? ? ? C L Q E|p ? C E]; subst.
      - lia.
      - assert (p = n) as -> by lia. apply month_length_days in L as [? ->]. do 3 eexists. split; [exact C|left; auto].
      - assert (p = n) as -> by lia. apply month_length_days in L as [? ->]. do 3 eexists. split; [exact C|right; left; auto].
      - assert (p = n) as -> by lia. do 3 eexists. split; [exact C|right; right; auto]. }
    intros y m d y' m' d' H H'. apply ST in H as (y0 & m0 & d0 & C & H). apply ST in H' as (y1 & m1 & d1 & C' & H').
    destruct (IH _ _ _ _ _ _ C C') as (<- & <- & <-). lia.
Qed.
Lemma calendar_step n y m d y' m' d' : calendar n y m d -> calendar (n + 1) y' m' d' -> day_after y m d y' m' d'.
Proof.
  intros H H'. assert (N := calendar_nonneg _ _ _ _ H). assert (R := calendar_ranges _ _ _ _ H).
  inversion H' as [E|p ? ? ? ? C L Q E|p ? ? ? C L Q E|p ? C E]; subst.
  - lia.
  - assert (p = n) as -> by lia. destruct (calendar_unique n N _ _ _ _ _ _ H C) as (-> & -> & ->). unfold day_after. lia.
  - assert (p = n) as -> by lia. destruct (calendar_unique n N _ _ _ _ _ _ H C) as (-> & -> & ->). unfold day_after. lia.
  - assert (p = n) as -> by lia. destruct (calendar_unique n N _ _ _ _ _ _ H C) as (-> & -> & ->). unfold day_after. lia.
Qed.
Lemma calendar_pred n y m d : calendar (n + 1) y m d -> 0 <= n -> exists y' m' d', calendar n y' m' d'.
Proof.
  intros H N. inversion H as [E|p ? ? ? ? C L Q E|p ? ? ? C L Q E|p ? C E]; subst; [lia|..]; assert (p = n) as -> by lia; eauto.
Qed.
Lemma calendar_order y m d n : calendar n y m d -> forall k, 0 <= k -> forall y' m' d', calendar (n + 1 + k) y' m' d' -> day_after y m d y' m' d'.
Proof.
  intros C. assert (N := calendar_nonneg _ _ _ _ C).
  apply (natlike_ind (fun k => forall y' m' d', calendar (n + 1 + k) y' m' d' -> day_after y m d y' m' d')).
  - intros y' m' d' H. rewrite Z.add_0_r in H. eapply calendar_step; eauto.
  - intros k Hk IH y' m' d' H. replace (n + 1 + Z.succ k) with (n + 1 + k + 1) in H by lia.
    destruct (calendar_pred _ _ _ _ H ltac:(lia)) as (y1 & m1 & d1 & C1).
    assert (S1 := IH _ _ _ C1). assert (S2 := calendar_step _ _ _ _ _ _ _ C1 H). unfold day_after in *. lia.
Qed.
Lemma calendar_before n y m d n' y' m' d' : calendar n y m d -> calendar n' y' m' d' -> n < n' -> day_after y m d y' m' d'.
Proof. intros H H' L. apply (calendar_order _ _ _ _ H (n' - n - 1)); [lia|]. now replace (n + 1 + (n' - n - 1)) with n' by lia. Qed.
Lemma calendar_back n y m d n' : calendar n y m d -> calendar n' y m d -> n = n'.
Proof.
  intros H H'. destruct (Z.lt_trichotomy n n') as [L|[E|L]]; [|exact E|].
  - assert (K := calendar_before _ _ _ _ _ _ _ _ H H' L). unfold day_after in K. lia.
  - assert (K := calendar_before _ _ _ _ _ _ _ _ H' H L). unfold day_after in K. lia.
Qed.
Fixpoint years_days (k : nat) (y : Z) : Z := match k with O => 0 | S k' => year_days y + years_days k' (y + 1) end.
Lemma years_run k : forall n y, calendar n y 1 1 -> calendar (n + years_days k y) (y + Z.of_nat k) 1 1.
Proof.
  induction k as [|k IH]; intros n y C; cbn [years_days].
  - now rewrite !Z.add_0_r.
  - replace (n + (year_days y + years_days k (y + 1))) with (n + year_days y + years_days k (y + 1)) by lia.
    replace (y + Z.of_nat (S k)) with (y + 1 + Z.of_nat k) by lia. apply IH. now apply next_year.
Qed.
Lemma year_10000 : calendar 2932897 10000 1 1.
Proof.
  assert (K := years_run (Z.to_nat 8030) 0 1970 calendar_epoch).
  assert (E1 : 0 + years_days (Z.to_nat 8030) 1970 = 2932897) by (vm_compute; reflexivity).
  assert (E2 : 1970 + Z.of_nat (Z.to_nat 8030) = 10000) by (vm_compute; reflexivity).
  now rewrite E1, E2 in K.
Qed.
Lemma four_digit_year n y m d : calendar n y m d -> n < 2932897 -> 1970 <= y <= 9999.
Proof.
  intros H L. assert (R := calendar_ranges _ _ _ _ H). assert (K := calendar_before _ _ _ _ _ _ _ _ H year_10000 L).
  unfold day_after in K. lia.
Qed.
Lemma calendar_days n : 0 <= n ->
  let r := find_year (S (Z.to_nat n)) 1970 n in
  calendar n (fst r) (fst (find_month 12 (fst r) 1 (snd r))) (snd (find_month 12 (fst r) 1 (snd r)) + 1) /\ 365 * (fst r - 1970) <= n.
Proof.
  intros N r. destruct (find_year_ok (S (Z.to_nat n)) 0 1970 n calendar_epoch ltac:(lia)) as (n' & C & E & D & _ & Y). fold r in C, E, D, Y.
  split; [|exact Y]. replace n with (n' + snd r) at 1 by lia. apply find_month_ok; auto; try lia. rewrite rest_whole. exact D.
Qed.

(** ** Numerals of fixed length *)
Lemma padded_unique k n s t : padded k n s -> padded k n t -> s = t.
Proof. intros (Ds & Ls & Vs) (Dt & Lt & Vt). apply numeral_unique_len; auto; congruence. Qed.
Lemma padded_value k n n' t : padded k n t -> padded k n' t -> n = n'.
Proof. intros (_ & _ & <-) (_ & _ & <-). reflexivity. Qed.
Lemma precedes_cons x a b : precedes a b -> precedes (x :: a) (x :: b).
Proof. intros H. inversion H as [p y r|p y r z r' L]; subst; [apply (pre_prefix (x :: a))|apply (pre_differ (x :: p)); auto]. Qed.
Lemma precedes_app p a b : precedes a b -> precedes (p ++ a) (p ++ b).
Proof. induction p as [|x p IH]; cbn; auto. intros H. apply precedes_cons. auto. Qed.
Lemma precedes_tail a b r r' : precedes a b -> length a = length b -> precedes (a ++ r) (b ++ r').
Proof.
  intros H L. inversion H as [p y q|p y q z q' M]; subst.
  - rewrite app_length in L. cbn in L. lia.
  - rewrite <- !app_assoc. cbn. now apply pre_differ.
Qed.
Lemma padded_precedes a : forall b, digits a -> digits b -> length a = length b -> digits_value a < digits_value b -> precedes a b.
Proof.
  change digits_value with (horner 0). induction a as [|c a IH]; intros [|d b] Da Db L V; try discriminate L; [cbn in V; lia|].
  inversion Da; subst. inversion Db; subst. cbn in L. rewrite !horner_cons, (horner_shift a), (horner_shift b) in V.
  destruct (Nat.lt_trichotomy (code c) (code d)) as [Q|[Q|Q]].
  - apply (pre_differ [] c a d b). exact Q.
  - assert (c = d) as <- by (unfold code in Q; rewrite <- (ascii_nat_embedding c), <- (ascii_nat_embedding d); now f_equal).
    apply precedes_cons. apply IH; auto. injection L as L. rewrite L in V. lia.
  - exfalso. injection L as L. rewrite L in V. assert (U := horner_upper a ltac:(assumption)). assert (U' := horner_upper b ltac:(assumption)).
    assert (P : 0 <= horner 0 a) by now apply horner_nonneg. rewrite L in U.
    unfold digit_value in V. nia.
Qed.
Lemma padded_before k n n' a b : padded k n a -> padded k n' b -> n < n' -> precedes a b.
Proof. intros (Da & La & Va) (Db & Lb & Vb) H. apply padded_precedes; auto; lia. Qed.
Lemma two_digits_padded n : 0 <= n < 100 -> padded 2 n (two_digits n).
Proof.
  intros H. unfold two_digits, to_string. replace (n <? 0) with false by (symmetry; apply Z.ltb_ge; lia).
  destruct (dec_numeral n ltac:(lia)) as (D & N & V & Hd). assert (U := horner_upper _ D). change (horner 0) with digits_value in U.
  destruct (Z.ltb_spec n 10).
  - assert (L : length (dec n) = 1%nat).
    { unfold dec. destruct (Z.eq_dec n 0) as [->|]; [reflexivity|]. cbn [dec_loop]. replace (n <? 10) with true by (symmetry; apply Z.ltb_lt; lia). reflexivity. }
    split; [constructor; [unfold Spec_Grammar.digit; cbn; lia|exact D]|]. split; [cbn [length]; rewrite L; reflexivity|].
    change (digits_value (dec n) = n). exact V.
  - split; [exact D|]. split; [|exact V]. destruct Hd as [E|Hd]; [rewrite E in V; change (0 = n) in V; lia|].
    destruct (dec n) as [|c ds] eqn:E; [congruence|]. assert (DD := D). apply Forall_cons_iff in DD as [Dc Dds].
    assert (Lo := horner_lower c ds Dc Dds ltac:(intros ->; apply (Hd ds); reflexivity)).
    change (horner 0) with digits_value in Lo. rewrite V in U, Lo.
    destruct ds as [|d [|e ds]]; [cbn in U; lia|reflexivity|]. exfalso. cbn [length] in Lo.
    assert (10 ^ 2 <= 10 ^ Z.of_nat (S (S (length ds)))) by (apply Z.pow_le_mono_r; lia). lia.
Qed.
Lemma dec_length n k : 1 <= n -> 10 ^ Z.of_nat k <= n < 10 ^ Z.of_nat (S k) -> length (dec n) = S k.
Proof.
  intros N H. destruct (dec_numeral n ltac:(lia)) as (D & N' & V & Hd). assert (U := horner_upper _ D). change (horner 0) with digits_value in U.
  destruct Hd as [E|Hd]; [rewrite E in V; change (0 = n) in V; lia|].
  destruct (dec n) as [|c ds] eqn:E; [congruence|]. assert (DD := D). apply Forall_cons_iff in DD as [Dc Dds].
  assert (Lo := horner_lower c ds Dc Dds ltac:(intros ->; apply (Hd ds); reflexivity)).
  change (horner 0) with digits_value in Lo. rewrite V in U, Lo. cbn [length] in *.
  assert (10 ^ Z.of_nat k < 10 ^ Z.of_nat (S (length ds))) by lia. assert (10 ^ Z.of_nat (length ds) < 10 ^ Z.of_nat (S k)) by lia.
  apply Z.pow_lt_mono_r_iff in H0; [|lia|lia]. apply Z.pow_lt_mono_r_iff in H1; [|lia|lia]. lia.
Qed.
Lemma dec_length_le n k : 1 <= n -> n < 10 ^ Z.of_nat (S k) -> (length (dec n) <= S k)%nat.
Proof.
  intros N H. destruct (dec_numeral n ltac:(lia)) as (D & N' & V & Hd).
  destruct Hd as [E|Hd]; [rewrite E in V; change (0 = n) in V; lia|].
  destruct (dec n) as [|c ds] eqn:E; [congruence|]. assert (DD := D). apply Forall_cons_iff in DD as [Dc Dds].
  assert (Lo := horner_lower c ds Dc Dds ltac:(intros ->; apply (Hd ds); reflexivity)).
  change (horner 0) with digits_value in Lo. rewrite V in Lo. cbn [length] in *.
  assert (10 ^ Z.of_nat (length ds) < 10 ^ Z.of_nat (S k)) by lia. apply Z.pow_lt_mono_r_iff in H0; lia.
Qed.
Lemma year_padded y : 1970 <= y <= 9999 -> padded 4 y (to_string y).
Proof.
  intros H. unfold to_string. replace (y <? 0) with false by (symmetry; apply Z.ltb_ge; lia).
  destruct (dec_numeral y ltac:(lia)) as (D & _ & V & _). split; [exact D|]. split; [|exact V]. apply dec_length; [lia|].
  change (10 ^ Z.of_nat 3) with 1000. change (10 ^ Z.of_nat 4) with 10000. lia.
Qed.

(** ** Stamps *)
Lemma two_length n : 0 <= n < 100 -> length (two_digits n) = 2%nat.
Proof. intros H. now destruct (two_digits_padded n H) as (_ & ? & _). Qed.
Lemma day_time t : 0 <= t -> let r := t mod 86400 in
  0 <= t / 86400 /\ 0 <= r / 3600 < 24 /\ 0 <= r mod 3600 / 60 < 60 /\ 0 <= r mod 60 < 60 /\
  t = 86400 * (t / 86400) + 3600 * (r / 3600) + 60 * (r mod 3600 / 60) + r mod 60.
Proof.
  intros T r. assert (R := Z.mod_pos_bound t 86400 ltac:(lia)). fold r in R.
  assert (E : t = 86400 * (t / 86400) + r) by (apply Z.div_mod; lia).
  assert (E1 : r = 3600 * (r / 3600) + r mod 3600) by (apply Z.div_mod; lia).
  assert (R1 := Z.mod_pos_bound r 3600 ltac:(lia)).
  assert (E2 : r mod 3600 = 60 * (r mod 3600 / 60) + (r mod 3600) mod 60) by (apply Z.div_mod; lia).
  assert (R2 := Z.mod_pos_bound (r mod 3600) 60 ltac:(lia)).
  assert (E3 : (r mod 3600) mod 60 = r mod 60).
  { rewrite E1 at 2. replace (3600 * (r / 3600) + r mod 3600) with (r mod 3600 + (60 * (r / 3600)) * 60) by lia. now rewrite Z.mod_add by lia. }
  rewrite E3 in *. repeat split; lia.
Qed.
Lemma timestamp_stamp zone now : four_digit_time (now + zone now) ->
  exists st, timestamp zone now = Some st /\ stamp (now + zone now) st.
Proof.
  intros F. unfold four_digit_time in F. set (t := now + zone now) in *.
  destruct (day_time t ltac:(lia)) as (D & Hh & Hm & Hs & E).
  destruct (calendar_days _ D) as [C _]. cbv zeta in C.
  assert (DD : t / 86400 < 2932897) by (apply Z.div_lt_upper_bound; lia).
  assert (Y := four_digit_year _ _ _ _ C DD). assert (R := calendar_ranges _ _ _ _ C).
  unfold timestamp, localtime. fold t. cbv zeta.
  destruct (find_year (S (Z.to_nat (t / 86400))) 1970 (t / 86400)) as [y d] eqn:FY. cbn [fst snd] in *.
  destruct (find_month 12 y 1 d) as [m d'] eqn:FM. cbn [fst snd] in *.
  assert (MP := month_days_pos y m).
  replace (y - 1900 <? 2 ^ 31) with true by (symmetry; apply Z.ltb_lt; lia).
  unfold strftime. cbn [tm_year tm_mon tm_mday tm_hour tm_min tm_sec].
  assert (P1 := year_padded y ltac:(lia)). assert (P2 := two_digits_padded m ltac:(lia)). assert (P3 := two_digits_padded (d' + 1) ltac:(lia)).
  set (hh := t mod 86400 / 3600) in *. set (mm := (t mod 86400) mod 3600 / 60) in *. set (ss := (t mod 86400) mod 60) in *.
  assert (P4 := two_digits_padded hh ltac:(lia)). assert (P5 := two_digits_padded mm ltac:(lia)). assert (P6 := two_digits_padded ss ltac:(lia)).
  match goal with |- context [if (?n <=? ?k)%nat then Some ?x else None] =>
    assert (Q : (n <=? k)%nat = true); [|rewrite Q; exists x; split; [reflexivity|]] end.
  - apply Nat.leb_le. rewrite !app_length. destruct P1 as (_ & -> & _), P2 as (_ & -> & _), P3 as (_ & -> & _), P4 as (_ & -> & _), P5 as (_ & -> & _), P6 as (_ & -> & _).
    cbn. lia.
  - rewrite E at 1. econstructor; eauto.
Qed.
Lemma stamp_length t st : stamp t st -> length st = 21%nat /\ ~ In NEWLINE st.
Proof.
  intros [day h mi s y m d ty tmo td th tmi ts C Hh Hm Hs P1 P2 P3 P4 P5 P6]. split.
  - rewrite !app_length. destruct P1 as (_ & -> & _), P2 as (_ & -> & _), P3 as (_ & -> & _), P4 as (_ & -> & _), P5 as (_ & -> & _), P6 as (_ & -> & _). reflexivity.
  - assert (K : forall k n r, padded k n r -> ~ In NEWLINE r).
    { intros k n r (D & _) I. unfold digits in D. rewrite Forall_forall in D. specialize (D _ I). unfold Spec_Grammar.digit in D. cbn in D. lia. }
    rewrite !in_app_iff. intros I.
    destruct I as [I|[I|[I|[I|[I|[I|[I|[I|[I|[I|[I|[I|I]]]]]]]]]]]];
      solve [eapply K; [|exact I]; eassumption | cbn in I; destruct I as [I|[]]; discriminate I].
Qed.
Lemma stamp_fields a h mi s b h' mi' s' : 0 <= h < 24 -> 0 <= mi < 60 -> 0 <= s < 60 -> 0 <= h' < 24 -> 0 <= mi' < 60 -> 0 <= s' < 60 ->
  86400 * a + 3600 * h + 60 * mi + s < 86400 * b + 3600 * h' + 60 * mi' + s' ->
  a < b \/ a = b /\ (h < h' \/ h = h' /\ (mi < mi' \/ mi = mi' /\ s < s')).
Proof. intros. lia. Qed.
Lemma stamp_before t st t' st' : stamp t st -> stamp t' st' -> t < t' -> precedes st st'.
Proof.
  intros [day h mi s y m d ty tmo td th tmi ts C Hh Hm Hs P1 P2 P3 P4 P5 P6] H' L.
  destruct H' as [day' h' mi' s' y' m' d' ty' tmo' td' th' tmi' ts' C' Hh' Hm' Hs' P1' P2' P3' P4' P5' P6'].
  assert (LL : forall k n n' a b, padded k n a -> padded k n' b -> length a = length b) by (intros ? ? ? ? ? (_ & -> & _) (_ & -> & _); reflexivity).
  apply precedes_app. apply stamp_fields in L; auto.
  assert (A : forall k n n' a b r r', padded k n a -> padded k n' b -> n < n' -> precedes (a ++ r) (b ++ r'))
    by (intros k n n' a b r r' Pa Pb Q; apply precedes_tail; [eapply padded_before; eauto|eapply LL; eauto]).
  assert (A2 : forall k n n' a b r r', padded k n a -> padded k n' b -> n = n' -> precedes r r' -> precedes (a ++ r) (b ++ r')).
  { intros k n n' a b r r' Pa Pb <- Q. rewrite (padded_unique _ _ _ _ Pa Pb). now apply precedes_app. }
  destruct L as [L|[L1 L]].
  - assert (K := calendar_before _ _ _ _ _ _ _ _ C C' L). destruct K as [K|[K1 [K|[K2 K]]]].
    + eapply A; eauto.
    + eapply A2; eauto. apply precedes_app. eapply A; eauto.
    + eapply A2; eauto. apply precedes_app. eapply A2; eauto. apply precedes_app. eapply A; eauto.
  - subst day'. destruct (calendar_unique day (calendar_nonneg _ _ _ _ C) _ _ _ _ _ _ C C') as (E1 & E2 & E3).
    eapply A2; eauto. apply precedes_app. eapply A2; eauto. apply precedes_app. eapply A2; eauto. apply precedes_app.
    destruct L as [L|[L2 [L|[L3 L]]]].
    + eapply A; eauto.
    + eapply A2; eauto. apply precedes_app. eapply A; eauto.
    + eapply A2; eauto. apply precedes_app. eapply A2; eauto. apply precedes_app. eapply A; eauto.
Qed.
Lemma stamp_unique t st st' : stamp t st -> stamp t st' -> st = st'.
Proof.
  intros H H'. inversion H as [day h mi s y m d ty tmo td th tmi ts C Hh Hm Hs P1 P2 P3 P4 P5 P6 E1 E2].
  inversion H' as [day' h' mi' s' y' m' d' ty' tmo' td' th' tmi' ts' C' Hh' Hm' Hs' P1' P2' P3' P4' P5' P6' E1' E2'].
  assert (Q : day = day' /\ h = h' /\ mi = mi' /\ s = s') by lia. destruct Q as (-> & -> & -> & ->).
  destruct (calendar_unique day' (calendar_nonneg _ _ _ _ C) _ _ _ _ _ _ C C') as (-> & -> & ->).
  rewrite (padded_unique _ _ _ _ P1 P1'), (padded_unique _ _ _ _ P2 P2'), (padded_unique _ _ _ _ P3 P3'), (padded_unique _ _ _ _ P4 P4'),
    (padded_unique _ _ _ _ P5 P5'), (padded_unique _ _ _ _ P6 P6'). reflexivity.
Qed.
Lemma stamp_tells t t' st : stamp t st -> stamp t' st -> t = t'.
Proof.
  intros H H'. destruct (Z.lt_trichotomy t t') as [L|[E|L]]; [|exact E|]; exfalso.
  - assert (K := stamp_before _ _ _ _ H H' L). exact (precedes_asym _ _ K K).
  - assert (K := stamp_before _ _ _ _ H' H L). exact (precedes_asym _ _ K K).
Qed.
Lemma timestamp_fits zone now : 0 <= now + zone now < 6 * 10 ^ 16 -> timestamp zone now <> None.
Proof.
  intros F. set (t := now + zone now) in *. destruct (day_time t ltac:(lia)) as (D & Hh & Hm & Hs & E).
  destruct (calendar_days _ D) as [C YY]. cbv zeta in C. assert (R := calendar_ranges _ _ _ _ C).
  assert (DD : t / 86400 < 365 * 2000000000) by (apply Z.div_lt_upper_bound; lia).
  unfold timestamp, localtime. fold t. cbv zeta.
  destruct (find_year (S (Z.to_nat (t / 86400))) 1970 (t / 86400)) as [y d] eqn:FY. cbn [fst snd] in *.
  destruct (find_month 12 y 1 d) as [m d'] eqn:FM. cbn [fst snd] in *. assert (MP := month_days_pos y m).
  replace (y - 1900 <? 2 ^ 31) with true by (symmetry; apply Z.ltb_lt; lia).
  unfold strftime. cbn [tm_year tm_mon tm_mday tm_hour tm_min tm_sec].
  assert (LY : (length (to_string y) <= 10)%nat).
  { unfold to_string. replace (y <? 0) with false by (symmetry; apply Z.ltb_ge; lia). apply dec_length_le; [lia|]. change (10 ^ Z.of_nat 10) with 10000000000. lia. }
  match goal with |- context [if (?n <=? ?k)%nat then Some ?x else None] =>
    assert (Q : (n <=? k)%nat = true); [|rewrite Q; discriminate] end.
  apply Nat.leb_le. rewrite !app_length, !two_length by lia. cbn [length list_ascii_of_string]. cbn. lia.
Qed.
