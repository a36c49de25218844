(** Proofs for C70: what clients can find out. *)
From Coq Require Import ZArith Reals Psatz.
From Flocq Require Import Core.
From Verif Require Import Bytes StrUtils Grammar Outcome Parser Num Containers Instance Context Platform.
From Verif Require Import Lemmas StringLit Proof_Grammar Proof_Parser Proof_Exec WP Proof_Inv Proof_Literal Proof_Receive Proof_Context Proof_Names Api Proof_Text.
From Verif Require Import Proof_Number Proof_Float Proof_Arith Proof_Order Props_Text Props_State Props_Number Props_Float Props_Order Proof_Vector.
From Verif Require Import Proof_String Proof_Print Proof_Set.
From Verif Require Import Spec_Grammar Spec_State Spec_Names Spec_Text Spec_Number Spec_Float Spec_Order Spec_Vector Spec_String Spec_Set.
Open Scope Z_scope.
Open Scope list_scope.

(** ** Single-precision numbers with 45 decimal places *)
Lemma exponent_bound s m e : V32 (S754_finite s m e) -> -149 <= e.
Proof.
  intros H. cbn [valid_binary] in H. unfold bounded, canonical_mantissa in H. apply andb_true_iff in H as [H _]. apply Zeq_bool_eq in H.
  unfold fexp, SpecFloat.emin in H. change prec32 with 24 in H. change emax32 with 128 in H. lia.
Qed.
Lemma value_grid f : V32 f -> finite f -> exists k, value f = (IZR k * powerRZ 2 (-149))%R.
Proof.
  intros V F. destruct f as [s| | |s m e]; try contradiction; [exists 0; cbn; lra|]. apply exponent_bound in V.
  exists ((if s then Zneg m else Zpos m) * 2 ^ (e + 149)). cbn [value]. rewrite mult_IZR, (IZR_Zpower radix2), bpow_powerRZ by lia.
  change (IZR radix2) with 2%R. rewrite Rmult_assoc, <- powerRZ_add by lra. do 2 f_equal. lia.
Qed.
Lemma places_grid p : (45 <= p)%nat -> (1 < powerRZ 2 (-149) * powerRZ 10 (Z.of_nat p))%R.
Proof.
  intros H. replace (Z.of_nat p) with (45 + Z.of_nat (p - 45)) by lia. rewrite powerRZ_add by lra.
  assert (A : (1 <= powerRZ 10 (Z.of_nat (p - 45)))%R).
  { rewrite <- pow_powerRZ. apply pow_R1_Rle. lra. }
  assert (C : (1 < powerRZ 2 (-149) * powerRZ 10 45)%R).
  { change (-149) with (- (149)). rewrite powerRZ_neg'. apply (Rmult_lt_reg_l (powerRZ 2 149)); [apply powerRZ_lt; lra|].
    rewrite <- Rmult_assoc, Rinv_r, Rmult_1_l, Rmult_1_r by (apply powerRZ_NOR; lra).
    change 2%R with (IZR radix2). change 10%R with (IZR (Build_radix 10 eq_refl)). rewrite <- !bpow_powerRZ, <- !IZR_Zpower by lia. apply IZR_lt. reflexivity. }
  rewrite <- Rmult_assoc. nra.
Qed.
Lemma value_near f g p k : (45 <= p)%nat -> V32 f -> V32 g -> finite f -> finite g ->
  (Rabs (IZR k - Rabs (value f) * powerRZ 10 (Z.of_nat p)) <= 1 / 2)%R ->
  (Rabs (IZR k - Rabs (value g) * powerRZ 10 (Z.of_nat p)) <= 1 / 2)%R -> Rabs (value f) = Rabs (value g).
Proof.
  intros Hp Vf Vg Ff Fg A C. destruct (value_grid f Vf Ff) as [x Ex], (value_grid g Vg Fg) as [y Ey]. assert (G := places_grid p Hp).
  rewrite Ex, Ey, !Rabs_mult in *. rewrite <- !abs_IZR in *. assert (P : (0 < powerRZ 2 (-149))%R) by (apply powerRZ_lt; lra).
  rewrite (Rabs_pos_eq (powerRZ 2 (-149))) in * by lra. f_equal. f_equal. rewrite !Rmult_assoc in *.
  revert A C G. generalize (powerRZ 2 (-149) * powerRZ 10 (Z.of_nat p))%R. intros q A C G. apply Rabs_le_inv in A. apply Rabs_le_inv in C.
  destruct (Z.lt_trichotomy (Z.abs x) (Z.abs y)) as [L|[E|L]]; auto; exfalso.
  - assert (L' : (IZR (Z.abs x) + 1 <= IZR (Z.abs y))%R) by (rewrite <- plus_IZR; apply IZR_le; lia). nra.
  - assert (L' : (IZR (Z.abs y) + 1 <= IZR (Z.abs x))%R) by (rewrite <- plus_IZR; apply IZR_le; lia). nra.
Qed.
Lemma body_digit p n t : point_numeral p n t -> exists c r, t = c :: r /\ digit c.
Proof.
  destruct p as [|p].
  - intros (D & N & _). destruct t as [|c r]; [now elim N|]. inversion D; subst. eauto.
  - intros (ip & fp & -> & _ & _ & _ & D & N & _). destruct ip as [|c r]; [now elim N|]. inversion D; subst. exists c. eexists. split; [reflexivity|auto].
Qed.
Lemma app_split {A} (a a' b b' : list A) : length a = length a' -> a ++ b = a' ++ b' -> a = a' /\ b = b'.
Proof.
  revert a'. induction a as [|x a IH]; intros [|x' a'] L E; try discriminate L; auto. cbn in E. injection E as -> E. injection L as L.
  destruct (IH a' L E) as [-> ->]. auto.
Qed.
Lemma Rabs_zero x : Rabs x = 0%R -> x = 0%R.
Proof. intros H. destruct (Req_dec x 0) as [|N]; auto. now apply Rabs_no_R0 in N. Qed.
Lemma point_value p n n' t : point_numeral p n t -> point_numeral p n' t -> n = n'.
Proof.
  destruct p as [|p].
  - intros (_ & _ & A & _) (_ & _ & C & _). congruence.
  - intros (ip & fp & -> & L & _ & A & _) (ip' & fp' & E & L' & _ & C & _).
    assert (X : length ip = length ip') by (apply (f_equal (@length _)) in E; rewrite !app_length in E; cbn [length] in E; lia).
    apply app_split in E as [-> E]; auto. injection E as ->. congruence.
Qed.
Lemma digit_not c : digit c -> c <> ascii_of_nat 45 /\ c <> ascii_of_nat 105.
Proof. intros D. split; intros ->; cbv in D; lia. Qed.
Lemma sign_split s s' u u' : (exists c r, u = c :: r /\ c <> ascii_of_nat 45) -> (exists c r, u' = c :: r /\ c <> ascii_of_nat 45) ->
  minus_sign s ++ u = minus_sign s' ++ u' -> s = s' /\ u = u'.
Proof.
  intros (c & r & -> & N) (c' & r' & -> & N') E. destruct s, s'; cbn in E.
  - injection E as -> ->. auto.
  - injection E as <- _. now elim N'.
  - injection E as -> _. now elim N.
  - auto.
Qed.
Lemma finite_print p f t : finite f -> prints_float p f t ->
  exists k body, t = minus_sign (negative f) ++ body /\ point_numeral p k body /\ (Rabs (IZR k - Rabs (value f) * powerRZ 10 (Z.of_nat p)) <= 1 / 2)%R.
Proof.
  destruct f as [s| | |s m e]; try contradiction; intros _ H.
  - destruct H as (body & -> & H). exists 0, body. split; [reflexivity|]. split; [exact H|]. cbn [value]. rewrite Rabs_R0, Rmult_0_l, Rminus_0_r, Rabs_R0. lra.
  - destruct (C11_nearest_numeral _ _ _ _ _ H) as (k & body & E & A & C & _). eauto.
Qed.
Lemma prints_float_inj p f g t : (45 <= p)%nat -> V32 f -> V32 g -> prints_float p f t -> prints_float p g t -> f = g.
Proof.
  intros Hp Vf Vg Pf Pg.
  assert (K : forall h, finite h -> prints_float p h t -> exists k body c r, t = minus_sign (negative h) ++ body /\ body = c :: r /\ digit c /\ point_numeral p k body /\
    (Rabs (IZR k - Rabs (value h) * powerRZ 10 (Z.of_nat p)) <= 1 / 2)%R).
  { intros h Fh Ph. destruct (finite_print p h t Fh Ph) as (k & body & E & A & C). destruct (body_digit _ _ _ A) as (c & r & -> & D). exists k, (c :: r), c, r. auto. }
  assert (I : forall h s, finite h -> prints_float p h t -> t <> minus_sign s ++ B "inf").
  { intros h s Fh Ph Et. destruct (K h Fh Ph) as (k & body & c & r & E & -> & D & _). rewrite E in Et. apply digit_not in D as [D1 D2].
    cbn in D1, D2. destruct (negative h), s; cbn in Et; injection Et; intros; congruence. }
  assert (N : forall h, finite h -> prints_float p h t -> t <> B "-nan").
  { intros h Fh Ph Et. destruct (K h Fh Ph) as (k & body & c & r & E & -> & D & _). rewrite E in Et.
    destruct (negative h); cbn in Et; injection Et; intros; subst; cbv in D; lia. }
  assert (X : finite f \/ (exists s, f = S754_infinity s) \/ f = S754_nan) by (destruct f; cbn; eauto).
  assert (Y : finite g \/ (exists s, g = S754_infinity s) \/ g = S754_nan) by (destruct g; cbn; eauto).
  destruct X as [X|[[s ->]| ->]], Y as [Y|[[s' ->]| ->]].
  - destruct (K f X Pf) as (k & body & c & r & E & Eb & D & A & C), (K g Y Pg) as (k' & body' & c' & r' & E' & Eb' & D' & A' & C').
    rewrite E in E'. apply sign_split in E' as [Es ->].
    + assert (k = k') as <- by (eapply point_value; eauto). assert (Z := value_near f g p k Hp Vf Vg X Y C C').
      destruct f as [s| | |s m e], g as [s'| | |s' m' e']; try contradiction; cbn [negative] in Es; subst s'; auto.
      * cbn [value] in Z. rewrite Rabs_R0 in Z. symmetry in Z. apply Rabs_zero in Z. exfalso. revert Z. apply finite_pos_value.
      * cbn [value] in Z. rewrite Rabs_R0 in Z. apply Rabs_zero in Z. exfalso. revert Z. apply finite_pos_value.
      * apply (value_inj 24 128); auto; try lia. cbn [value] in *. rewrite !Rabs_mult in Z.
        assert (Pe : forall q, (0 < powerRZ 2 q)%R) by (intros; apply powerRZ_lt; lra).
        rewrite !(Rabs_pos_eq (powerRZ _ _)) in Z by (apply Rlt_le, Pe). rewrite <- !abs_IZR in Z.
        destruct s; cbn [Z.abs] in Z; auto. change (Zneg m) with (- Zpos m). change (Zneg m') with (- Zpos m'). rewrite !opp_IZR. lra.
    + subst body. exists c, r. split; auto. now apply digit_not.
    + subst body'. exists c', r'. split; auto. now apply digit_not.
  - exfalso. eapply I; eauto.
  - exfalso. eapply N; eauto.
  - exfalso. eapply (I g s); eauto.
  - cbn in Pf, Pg. rewrite Pf in Pg. destruct s, s'; cbn in Pg; try discriminate Pg; reflexivity.
  - cbn in Pf, Pg. rewrite Pf in Pg. destruct s; discriminate Pg.
  - exfalso. eapply (N g); eauto.
  - cbn in Pf, Pg. rewrite Pg in Pf. destruct s'; discriminate Pf.
  - reflexivity.
Qed.

(** ** Texts of values of any type *)
Lemma digit_char c : digit c -> isdig c = true.
Proof. intros D. assert (X : digits [c]) by now constructor. apply digits_forallb in X. cbn in X. now rewrite andb_true_r in X. Qed.
Lemma float_text p f t : prints_float p f t -> forall c, In c t -> isdig c = true \/ In c (B ".-infa").
Proof.
  assert (Dg : forall ds c, digits ds -> In c ds -> isdig c = true) by (intros ds c D I; unfold digits in D; rewrite Forall_forall in D; now apply digit_char, D).
  assert (P : forall n u c, point_numeral p n u -> In c u -> isdig c = true \/ In c (B ".-infa")).
  { intros n u c H I. destruct p as [|p].
    - destruct H as (D & _). left. eapply Dg; eauto.
    - destruct H as (ip & fp & -> & _ & D & _ & D' & _). apply in_app_iff in I as [I|I]; [left; exact (Dg _ _ D' I)|].
      apply in_app_iff in I as [I|I]; [right; destruct I as [<-|[]]; now left|left; exact (Dg _ _ D I)]. }
  assert (S : forall s c, In c (minus_sign s) -> In c (B ".-infa")) by (intros [] c I; [destruct I as [<-|[]]; right; now left|destruct I]).
  destruct f as [s|s| |s m e]; cbn [prints_float].
  - intros (body & -> & H) c I. apply in_app_iff in I as [I|I]; eauto.
  - intros -> c I. right. apply in_app_iff in I as [I|I]; [eauto|]. cbn in I |- *. tauto.
  - intros -> c I. right. cbn in I |- *. tauto.
  - intros (n & body & -> & H & _) c I. apply in_app_iff in I as [I|I]; eauto.
Qed.
Lemma float_mark p f t : (1 <= p)%nat -> prints_float p f t -> In "."%char t \/ In "n"%char t.
Proof.
  intros Hp. destruct p as [|p]; [lia|]. destruct f as [s|s| |s m e]; cbn [prints_float].
  - intros (body & -> & ip & fp & -> & _). left. apply in_app_iff. right. apply in_app_iff. right. now left.
  - intros ->. right. apply in_app_iff. right. cbn. auto.
  - intros ->. right. cbn. auto.
  - intros (n & body & -> & (ip & fp & -> & _) & _). left. apply in_app_iff. right. apply in_app_iff. right. now left.
Qed.
Section Any.
Context (E : env) (Hp : 45 <= e_precision E).
Notation pr := (obj_repr E).
Lemma enough_places : (45 <= places (e_precision E))%nat.
Proof using Hp. unfold places. destruct (Z.ltb_spec (e_precision E) 0); lia. Qed.
Lemma float_prints f : prints_float (places (e_precision E)) f (pr (OFloat f)).
Proof using Type. assert (S := obj_repr_shows E (OFloat f)). inversion S; subst. assumption. Qed.
Definition number (x : obj) : Prop := match x with OInt _ | OFloat _ => True | _ => False end.
Lemma number_chars x c : number x -> In c (pr x) -> isdig c = true \/ In c (B ".-infa").
Proof using Type.
  destruct x; try contradiction; intros _ I.
  - cbn in I. apply to_string_chars in I as [I| ->]; auto. right. right. now left.
  - eapply float_text; [apply float_prints|exact I].
Qed.
Lemma number_inj x y : number x -> number y -> sound x -> sound y -> pr x = pr y -> x = y.
Proof using Hp.
  assert (M : forall z f, pr (OInt z) <> pr (OFloat f)).
  { intros z f Eq. assert (Q := enough_places). assert (X := float_mark _ f _ ltac:(apply (Nat.le_trans _ 45); [lia|exact Q]) (float_prints f)). rewrite <- Eq in X. cbn in X.
    destruct X as [X|X]; apply to_string_chars in X as [X|X]; discriminate X. }
  destruct x, y; try contradiction; intros _ _ Sx Sy Eq.
  - f_equal. cbn [obj_repr] in Eq. eapply prints_int_inj; [apply to_string_prints|]. rewrite Eq. apply to_string_prints.
  - now apply M in Eq.
  - symmetry in Eq. now apply M in Eq.
  - f_equal. apply (prints_float_inj (places (e_precision E)) _ _ (pr (OFloat f))); auto using enough_places, float_prints. rewrite Eq. apply float_prints.
Qed.
(** The first character tells the type, except for numbers. *)
Definition looks_like (x : obj) (c : ascii) : Prop :=
  match x with
  | OBool b => c = (if b then "t"%char else "f"%char)
  | OChar _ => c = APOSTROPHE
  | OStr _ => c = QUOTE
  | _ => isdig c = true \/ c = "-"%char \/ c = "i"%char
  end.
Lemma float_first p f t : prints_float p f t -> exists c r, t = c :: r /\ (isdig c = true \/ c = "-"%char \/ c = "i"%char).
Proof using Type.
  assert (K : forall s n body, point_numeral p n body -> exists c r, minus_sign s ++ body = c :: r /\ (isdig c = true \/ c = "-"%char \/ c = "i"%char)).
  { intros s n body H. apply body_digit in H as (c & r & -> & D). destruct s; cbn; eexists _, _; split; try reflexivity; auto. left. now apply digit_char. }
  destruct f as [s|s| |s m e]; cbn [prints_float].
  - intros (body & -> & H). eauto.
  - intros ->. destruct s; eexists _, _; (split; [reflexivity|auto]).
  - intros ->. eexists _, _; (split; [reflexivity|auto]).
  - intros (n & body & -> & H & _). eauto.
Qed.
Lemma first_char x : exists c r, pr x = c :: r /\ looks_like x c.
Proof using Type.
  destruct x as [[]|ch|z|f|s]; try (eexists _, _; split; [reflexivity|reflexivity]).
  - destruct (to_string z) as [|c r] eqn:Q; [now elim (to_string_nonempty z)|]. exists c, r. split; [exact Q|].
    destruct (to_string_chars z c) as [H|H]; cbn [looks_like]; auto. rewrite Q. now left.
  - exact (float_first _ f _ (float_prints f)).
Qed.
Lemma same_first x y u v : pr x ++ u = pr y ++ v -> (exists t, has_type t x /\ has_type t y) \/ (number x /\ number y).
Proof using Type.
  destruct (first_char x) as (c & r & Ex & Lx), (first_char y) as (d & q & Ey & Ly). rewrite Ex, Ey. cbn [app]. intros Eq. injection Eq as -> _.
  clear Ex Ey. destruct x as [a|a|a|a|a], y as [b|b|b|b|b]; cbn [looks_like] in Lx, Ly;
    try (left; eexists; split; reflexivity); try (right; split; exact I); exfalso;
    repeat match goal with H : _ \/ _ |- _ => destruct H end; subst;
    repeat match goal with b : bool |- _ => destruct b end; discriminate.
Qed.
Lemma repr_inj x y : sound x -> sound y -> pr x = pr y -> x = y.
Proof using Hp.
  intros Sx Sy Eq. assert (F := same_first x y [] []). rewrite !app_nil_r in F. destruct (F Eq) as [(t & Tx & Ty)|[Nx Ny]]; [|now apply number_inj].
  destruct x, y; cbn [has_type] in Tx, Ty; subst t; try discriminate Ty; try (now apply number_inj); cbn [obj_repr] in Eq.
  - destruct b, b0; try discriminate Eq; reflexivity.
  - injection Eq as ->. reflexivity.
  - rewrite !quoted_printed in Eq. f_equal. destruct (string_step (ascii_of_nat 93) ltac:(discriminate) s s0 [] []) as [-> _]; [now rewrite Eq|reflexivity].
Qed.
Section Closing.
Context (cl : ascii) (cl_ok : cl = ascii_of_nat 93 \/ cl = ascii_of_nat 125).
Lemma number_plain x : number x -> ~ In COMMA (pr x) /\ ~ In cl (pr x).
Proof using cl_ok.
  intros N. split; intros I; apply number_chars in I as [I|I]; auto.
  - discriminate I.
  - cbn in I. repeat (destruct I as [I|I]; try discriminate I). exact I.
  - destruct cl_ok; subst; discriminate I.
  - cbn in I. destruct cl_ok; subst; repeat (destruct I as [I|I]; try discriminate I); exact I.
Qed.
Lemma number_step x x' l l' : number x /\ sound x -> number x' /\ sound x' ->
  Forall (fun y => number y /\ sound y) l -> Forall (fun y => number y /\ sound y) l' ->
  pr x ++ rest pr cl l = pr x' ++ rest pr cl l' -> x = x' /\ rest pr cl l = rest pr cl l'.
Proof using Hp cl_ok.
  apply (plain_step pr cl (fun y => number y /\ sound y)).
  - intros y y' [] []. now apply number_inj.
  - intros y []. now apply number_plain.
Qed.
Lemma not_closing x r : pr x <> cl :: r.
Proof using cl_ok.
  assert (K : forall c, looks_like x c -> c <> ascii_of_nat 93 /\ c <> ascii_of_nat 125).
  { clear. intros c L. destruct x as [[]|ch|z|f|s]; cbn [looks_like] in L; try (subst; split; discriminate);
      destruct L as [L|[L|L]]; split; intros ->; discriminate L. }
  intros Eq. destruct (first_char x) as (c & q & Ex & L). rewrite Ex in Eq. injection Eq as -> _. apply K in L as [L1 L2]. destruct cl_ok; contradiction.
Qed.
Lemma list_inj_any t t' l l' : object_type t -> object_type t' -> Forall (fine t) l -> Forall (fine t') l' ->
  joined (map pr l) ++ [cl] = joined (map pr l') ++ [cl] -> l = l'.
Proof using Hp cl_ok.
  intros Ho Ho' F F' Eq. destruct l as [|x l], l' as [|x' l']; auto.
  - exfalso. rewrite joined_rest in Eq. cbn in Eq. destruct (first_char x') as (c & r & Ex & _). rewrite Ex in Eq. injection Eq as <- _. eapply not_closing; eauto.
  - exfalso. rewrite joined_rest in Eq. cbn in Eq. destruct (first_char x) as (c & r & Ex & _). rewrite Ex in Eq. injection Eq as -> _. eapply not_closing; eauto.
  - assert (H := Eq). rewrite !joined_rest in H. inversion F as [|? ? [Tx Sx] Fl]; subst. inversion F' as [|? ? [Tx' Sx'] Fl']; subst.
    assert (Ty : forall t l, Forall (fine t) l -> Forall (has_type t) l) by (intros ? ?; apply Forall_impl; now intros ? [? _]).
    apply same_first in H as [(u & Ux & Ux')|[Nx Nx']].
    + assert (t = t') as <- by (destruct x, x'; cbn [has_type] in *; subst; congruence).
      destruct (bytes_dec t (B "Float")) as [->|N].
      * assert (K : forall l, Forall (fine (B "Float")) l -> Forall (fun y => number y /\ sound y) l).
        { intros k. apply Forall_impl. intros y [Hy Sy]. split; auto. destruct y; try discriminate Hy; exact I. }
        apply (joined_inj pr cl (fun y => number y /\ sound y)); auto.
        -- intros y _ Q. destruct (first_char y) as (c & r & Ey & _). congruence.
        -- intros y _ r. apply not_closing.
        -- intros. now apply number_step.
        -- destruct cl_ok; subst; discriminate.
      * apply (obj_list_inj E cl cl_ok t); auto.
    + assert (K : forall t x l, number x -> has_type t x -> Forall (fine t) l -> Forall (fun y => number y /\ sound y) l).
      { intros u y k Ny Tz. apply Forall_impl. intros z [Hz Sz]. split; auto. destruct y; try contradiction; cbn in Tz; subst u; destruct z; try discriminate Hz; exact I. }
      apply (joined_inj pr cl (fun y => number y /\ sound y)); eauto.
      * intros y _ Q. destruct (first_char y) as (c & r & Ey & _). congruence.
      * intros y _ r. apply not_closing.
      * intros. now apply number_step.
      * destruct cl_ok; subst; discriminate.
Qed.
End Closing.
End Any.
