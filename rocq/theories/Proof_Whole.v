(** Proofs for C66: every successful reading of arguments is in range; the results of arithmetic are determined. *)
From Coq Require Import ZArith Reals Psatz Sorting.Sorted Sorting.Permutation.
From Flocq Require Import Core.
From Coq Require Import Floats.SpecFloat.
From Verif Require Import Bytes StrUtils Grammar Outcome Parser Num Containers Instance Context Platform.
From Verif Require Import Lemmas StringLit Proof_Grammar Proof_Parser Proof_Exec WP Proof_Inv Proof_Literal Proof_Receive Proof_Context Proof_Names Api Proof_Text.
From Verif Require Import Proof_Number Proof_Float Proof_Arith Proof_Order Props_Text Props_State Props_Number Props_Float Props_Order.
From Verif Require Import Proof_Vector Props_Vector Proof_String Props_String Proof_Set Props_Set.
From Verif Require Import Spec_Grammar Spec_State Spec_Names Spec_Text Spec_Number Spec_Float Spec_Order Spec_Vector Spec_String Spec_Set.
Open Scope Z_scope.
Open Scope list_scope.

(** ** Readings *)
Lemma bind_ok {S A B} (m : M S A) (f : A -> M S B) s s' b : bind m f s = (s', Ok b) ->
  exists s1 a, m s = (s1, Ok a) /\ f a s1 = (s', Ok b).
Proof. unfold bind. destruct (m s) as [s1 [a|e|u]]; intros H; try discriminate H. now exists s1, a. Qed.
Lemma lift_ok {S A} (r : res A) (s s' : S) a : lift r s = (s', Ok a) -> r = Ok a.
Proof. unfold lift. intros H. inversion H. reflexivity. Qed.
Lemma arg_ok {S} args k (s s' : S) a : arg args k s = (s', Ok a) -> nth_error args k = Some a.
Proof. unfold arg. destruct (nth_error args k); intros H; inversion H; reflexivity. Qed.
Lemma check_ok {S} args k (s s' : S) a : check_nargs args k s = (s', Ok a) -> length args = k.
Proof.
  unfold check_nargs, throw_if. destruct (Nat.eqb_spec (length args) k) as [E|E]; intros H; [exact E|discriminate H].
Qed.
Lemma dispatch_ok {S} table m args (s s' : S) a : dispatch table m args s = (s', Ok a) ->
  exists op, In (m, op) table /\ op args s = (s', Ok a).
Proof.
  induction table as [|[name op] table IH]; cbn [dispatch]; intros H; [discriminate H|].
  destruct (seq_eqb m name) eqn:E.
  - apply seq_eqb_eq in E. subst name. exists op. split; [now left|exact H].
  - destruct (IH H) as (op' & I & H'). exists op'. split; [now right|exact H'].
Qed.
Lemma read_in_range a z : integer_of a = Ok z -> ~ out_of_range a.
Proof. intros H O. apply out_of_range_ub in O as [u O]. congruence. Qed.
Lemma read_object_in_range t a x : t = B "Integer" -> get_shared_instance t a = Ok x -> ~ out_of_range a.
Proof.
  intros -> H. change (get_shared_instance (B "Integer") a) with (let! z := integer_of a in Ok (OInt z)) in H.
  destruct (integer_of a) eqn:E; try discriminate H. now apply read_in_range in E.
Qed.
(** [reads t spec m args]: no argument of [m] listed in [spec] is out of range. *)
Definition reads_well (t : bytes) (spec : list (bytes * nat * list nat)) (m : bytes) (args : list bytes) : Prop :=
  forall k idx, In (m, k, idx) spec -> in_range t idx args.

Ltac step_ok H :=
  let s1 := fresh "s" in let x := fresh "x" in let E := fresh "E" in
  apply bind_ok in H as (s1 & x & E & H);
  first [apply check_ok in E | apply arg_ok in E | apply lift_ok in E | idtac].
Ltac row_of Hin := repeat (destruct Hin as [Hin|Hin]; [first [discriminate Hin | (injection Hin; clear Hin; intros <- <-)]|]); [..|destruct Hin].
Ltac finish_range := let k := fresh "k" in let a := fresh "a" in let Hk := fresh "Hk" in let Ho := fresh "Ho" in
  intros k a Hk Ho;
  match goal with L : length ?args = _ |- _ => destruct args as [|?a0 [|?a1 [|?a2 [|?a3 ?r]]]]; try discriminate L end;
  destruct k as [|[|[|k]]]; cbn [nth_error] in *;
  repeat match goal with H : Some _ = Some _ |- _ => injection H; clear H; intros; subst | H : None = Some _ |- _ => discriminate H end;
  first [ eapply read_in_range; eassumption
        | destruct Ho as [Ho|Ho]; [first [discriminate Ho|eapply read_object_in_range; eassumption]|cbn [In] in Ho; exfalso; repeat (destruct Ho as [Ho|Ho]; [discriminate Ho|]); exact Ho]
        | destruct k; discriminate Hk ].
Ltac all_ops I H Hin :=
  cbn [In] in I;
  repeat (destruct I as [I|I]; [injection I; clear I; intros <- <-;
    (let h := match type of H with ?f _ _ = _ => f end in let h := match h with ?g _ _ _ => g | ?g _ _ => g | ?g _ => g | ?g => g end in unfold h in H);
    row_of Hin; repeat step_ok H; try finish_range|]); [..|destruct I].
Lemma vector_reads E t m args v v' ans : vector_receive E t m args v = (v', Ok ans) -> reads_well t (seq_messages ++ search_messages) m args.
Proof.
  intros H. apply dispatch_ok in H as (op & I & H). intros k idx Hin. cbn [seq_messages search_messages app In] in Hin. all_ops I H Hin.
Qed.
Lemma string_reads E m args v v' ans : string_receive E m args v = (v', Ok ans) -> reads_well (B "String") string_messages m args.
Proof.
  intros H. apply dispatch_ok in H as (op & I & H). intros k idx Hin. cbn [string_messages app In] in Hin. all_ops I H Hin.
Qed.

(** What a set or a dictionary that answered has read. *)
Ltac no_args L := match type of L with length ?args = 0%nat => destruct args as [|? ?]; [|discriminate L] end.
Lemma set_reads E t m args v v' ans : object_type t -> set_receive E t m args v = (v', Ok ans) ->
  (In m [B "get"; B "isEmpty?"; B "size"; B "clear"] /\ args = []) \/
  (In m set_lookups /\ exists a x, args = [a] /\ literal_of t a x).
Proof.
  intros Ht H. apply dispatch_ok in H as (op & I & H). cbn [In] in I.
  repeat (destruct I as [I|I]; [injection I; clear I; intros <- <-;
    (let h := match type of H with ?f _ _ = _ => f end in let h := match h with ?g _ _ _ => g | ?g _ _ => g | ?g _ => g | ?g => g end in unfold h in H);
    step_ok H|]); [..|destruct I].
  all: first [ left; no_args E0; split; [|reflexivity]; first [now left|now (right; left)|now (right; right; left)|now (right; right; right; left)]
             | right; split; [unfold set_lookups; first [now left|now (right; left)|now (right; right; left)]|];
               do 2 step_ok H; destruct args as [|a [|? ?]]; try discriminate E0; injection E1 as ->;
               eexists _, _; split; [reflexivity|]; apply get_literal; eassumption ].
Qed.
Lemma dict_reads E kt vt m args v v' ans : object_type kt -> object_type vt -> dict_receive E kt vt m args v = (v', Ok ans) ->
  (In m [B "get"; B "isEmpty?"; B "size"; B "keys"; B "values"; B "clear"] /\ args = []) \/
  (In m dictionary_lookups /\ exists a k, args = [a] /\ literal_of kt a k) \/
  (m = B "associateValue:withKey:" /\ exists a b x k, args = [a; b] /\ literal_of vt a x /\ literal_of kt b k).
Proof.
  intros Hk Ht H. apply dispatch_ok in H as (op & I & H). cbn [In] in I.
  repeat (destruct I as [I|I]; [injection I; clear I; intros <- <-;
    (let h := match type of H with ?f _ _ = _ => f end in let h := match h with ?g _ _ _ => g | ?g _ _ => g | ?g _ => g | ?g => g end in unfold h in H);
    step_ok H|]); [..|destruct I].
  all: first [ left; no_args E0; split; [|reflexivity]; first [now left|now (right; left)|now (right; right; left)|now (right; right; right; left)|now (right; right; right; right; left)|now (right; right; right; right; right; left)]
             | right; left; split; [unfold dictionary_lookups; first [now left|now (right; left)|now (right; right; left)]|];
               do 2 step_ok H; destruct args as [|a [|? ?]]; try discriminate E0; injection E1 as ->;
               eexists _, _; split; [reflexivity|]; apply get_literal; eassumption
             | right; right; split; [reflexivity|]; do 4 step_ok H; destruct args as [|a [|b [|? ?]]]; try discriminate E0;
               injection E1 as ->; injection E3 as ->; eexists _, _, _, _; split; [reflexivity|]; split; apply get_literal; eassumption ].
Qed.

(** ** Floating-point results up to the way they are written *)
Definition alike (f g : spec_float) : Prop :=
  f = g \/ (finite f /\ finite g /\ value f = value g /\ negative f = negative g).
Lemma alike_sym f g : alike f g -> alike g f.
Proof. intros [->|(A & A' & C & D)]; [now left|right; auto]. Qed.
Lemma rounds_alike prec emax neg x d d' : rounds_to prec emax neg x d -> rounds_to prec emax neg x d' -> alike d d'.
Proof. intros H H'. destruct (rounds_same _ _ _ _ _ _ H H') as [H1|[-> ->]]; [now right|now left]. Qed.
Lemma finite_zero f : finite f -> (zero f <-> value f = 0%R).
Proof.
  destruct f as [s|s| |s m e]; cbn [finite zero value]; try tauto. intros _. split; [tauto|]. intros H. apply Rmult_integral in H as [H|H].
  - destruct s; apply eq_IZR in H; discriminate H.
  - exfalso. revert H. apply powerRZ_NOR. lra.
Qed.
Lemma alike_finite f g : alike f g -> finite f -> finite g /\ value f = value g /\ negative f = negative g.
Proof. intros [->|(A & A' & C & D)]; auto. Qed.
Lemma alike_special f g : alike f g -> ~ finite f -> g = f.
Proof. intros [->|(A & _)]; [auto|contradiction]. Qed.
Lemma alike_nan f : alike S754_nan f -> f = S754_nan.
Proof. intros H. apply alike_special in H; [exact H|now cbn]. Qed.
Lemma alike_infinity s f : alike (S754_infinity s) f -> f = S754_infinity s.
Proof. intros H. apply alike_special in H; [exact H|now cbn]. Qed.
Lemma alike_zero f g : alike f g -> zero f -> zero g.
Proof.
  intros H Z. assert (F : finite f) by (destruct f; cbn in *; tauto). destruct (alike_finite _ _ H F) as (G & V & _).
  apply finite_zero; [exact G|]. rewrite <- V. now apply finite_zero.
Qed.
Lemma alike_nonzero f g : alike f g -> ~ zero f -> ~ zero g.
Proof. intros H Z Z'. apply Z. eapply alike_zero; [apply alike_sym; exact H|exact Z']. Qed.
Lemma alike_negative f g : alike f g -> negative f = negative g.
Proof. intros [->|(_ & _ & _ & H)]; auto. Qed.
Lemma alike_is_finite f g : alike f g -> finite f -> finite g.
Proof. intros H F. now destruct (alike_finite _ _ H F). Qed.
Lemma alike_infinite f g : alike f g -> infinite f -> infinite g.
Proof. intros H [s ->]. apply alike_infinity in H. now exists s. Qed.

(** The result of an operation depends on the operands only. *)
Lemma ieee_alike prec emax o x x' y y' r : alike x x' -> alike y y' -> ieee_in prec emax o x y r -> ieee_in prec emax o x' y' r.
Proof.
  intros Hx Hy H. assert (Nx := alike_negative _ _ Hx). assert (Ny := alike_negative _ _ Hy).
  destruct H as [r Fx Fy D R|[N|N]|s O E F|s O F E|s O F E|s t O E E'|s t O E E'|O Z|O Z|O Z|O Z|O F I].
  - destruct (alike_finite _ _ Hx Fx) as (Fx' & Vx & _), (alike_finite _ _ Hy Fy) as (Fy' & Vy & _). apply ieee_finite; auto.
    + intros E. eapply alike_nonzero; eauto.
    + unfold result_sign, real_result in *. rewrite <- Vx, <- Vy, <- Nx, <- Ny. exact R.
  - rewrite N in Hx. apply alike_nan in Hx. apply ieee_nan. now left.
  - rewrite N in Hy. apply alike_nan in Hy. apply ieee_nan. now right.
  - subst x. apply alike_infinity in Hx. subst x'. eapply ieee_sum_left; eauto. eapply alike_is_finite; eauto.
  - subst y. apply alike_infinity in Hy. subst y'. eapply ieee_sum_right; eauto. eapply alike_is_finite; eauto.
  - subst y. apply alike_infinity in Hy. subst y'. eapply ieee_difference_right; eauto. eapply alike_is_finite; eauto.
  - subst x y. apply alike_infinity in Hx, Hy. subst x' y'. apply (ieee_sum_infinities _ _ _ _ _ s t); auto.
  - subst x y. apply alike_infinity in Hx, Hy. subst x' y'. apply (ieee_difference_infinities _ _ _ _ _ s t); auto.
  - apply ieee_product_zero; [exact O|]. destruct Z as [[A A']|[A A']]; [left|right]; split; eauto using alike_infinite, alike_zero.
  - rewrite Nx, Ny. apply ieee_product; [exact O|]. destruct Z as [[A [A'|[A' A'']]]|[[A A''] A']]; [left|left|right]; repeat split; eauto 8 using alike_infinite, alike_zero, alike_nonzero, alike_is_finite.
  - apply ieee_quotient_undefined; [exact O|]. destruct Z as [[A A']|[A A']]; [left|right]; split; eauto using alike_infinite, alike_zero.
  - rewrite Nx, Ny. apply ieee_quotient_infinite; [exact O|]. destruct Z as [[A A']|[[A A''] A']]; [left|right]; repeat split; eauto 8 using alike_infinite, alike_zero, alike_nonzero, alike_is_finite.
  - rewrite Nx, Ny. apply ieee_quotient_zero; [exact O| |]; eauto using alike_infinite, alike_is_finite.
Qed.
Lemma ieee_unique_alike o x y r r' : ieee o x y r -> ieee o x y r' -> alike r r'.
Proof.
  intros H H'. destruct (C42_ieee_result_is_unique _ _ _ _ _ H H') as (V & N & F & Na & In).
  destruct r as [s|s| |s m e].
  - right. assert (finite (S754_zero s)) by (cbn; auto). rewrite <- F. auto.
  - left. assert (Hi : infinite r') by (apply In; now exists s). destruct Hi as [s' ->]. cbn [negative] in N. now subst.
  - left. symmetry. apply Na. reflexivity.
  - right. assert (finite (S754_finite s m e)) by (cbn; auto). rewrite <- F. auto.
Qed.
Lemma narrows_alike d d' f f' : alike d d' -> narrows d f -> narrows d' f' -> single_precision f -> single_precision f' -> f = f'.
Proof.
  intros [->|(F & F' & V & N)] H H' S S'; [eapply narrows_unique; eauto|].
  eapply narrows_unique; [exact (narrows_same _ _ _ F F' V N H)|exact H'|exact S|exact S'].
Qed.
(** Conversion to an Integer does not see the sign of a zero operand. *)
Lemma truncates_alike r r' z : alike r r' -> truncates_to r z -> truncates_to r' z.
Proof. intros H (F & E & Z). destruct (alike_finite _ _ H F) as (F' & V & _). split; [exact F'|]. now rewrite <- V. Qed.
Lemma truncates_unique r z z' : truncates_to r z -> truncates_to r z' -> z = z'.
Proof. intros (_ & -> & _) (_ & -> & _). reflexivity. Qed.
Definition finite_case (o : operation) (x y : spec_float) : Prop :=
  finite y /\ (o = Divide -> ~ zero y) /\ (Rabs (rounded 53 1024 (real_result o (value x) (value y))) < powerRZ 2 1024)%R.
Lemma finite_of_finite o x y r : finite x -> ieee o x y r -> finite r ->
  (finite_case o x y /\ value r = rounded 53 1024 (real_result o (value x) (value y))) \/ (o = Divide /\ infinite y /\ value r = 0%R).
Proof.
  intros F H R. destruct H as [r Fx Fy D [R1 R2]|[N|N]|s O E G|s O G E|s O G E|s t O E E'|s t O E E'|O Z|O Z|O Z|O Z|O G I].
  - left. unfold finite_case. destruct (Rlt_le_dec (Rabs (rounded 53 1024 (real_result o (value x) (value y)))) (powerRZ 2 1024)) as [L|L].
    + destruct (R1 L) as (_ & V & _). auto.
    + rewrite (R2 L) in R. destruct R.
  - destruct R.
  - destruct R.
  - subst x. destruct F.
  - subst y. destruct R.
  - destruct R.
  - subst x. destruct F.
  - subst x. destruct F.
  - destruct R.
  - destruct R.
  - destruct R.
  - destruct R.
  - right. split; [exact O|]. split; [exact I|reflexivity].
Qed.
Lemma finite_of_case o x y r : finite x -> ieee o x y r -> finite_case o x y ->
  finite r /\ value r = rounded 53 1024 (real_result o (value x) (value y)).
Proof.
  intros F H (Y & D & L). assert (NI : ~ infinite y) by (intros [s ->]; exact Y). assert (NX : ~ infinite x) by (intros [s ->]; exact F).
  destruct H as [r Fx Fy D' [R1 R2]|[N|N]|s O E G|s O G E|s O G E|s t O E E'|s t O E E'|O Z|O Z|O Z|O Z|O G I].
  - now destruct (R1 L) as (A & V & _).
  - rewrite N in F. destruct F.
  - rewrite N in Y. destruct Y.
  - subst x. destruct F.
  - subst y. destruct Y.
  - subst y. destruct Y.
  - subst x. destruct F.
  - subst x. destruct F.
  - exfalso. tauto.
  - exfalso. tauto.
  - exfalso. tauto.
  - exfalso. tauto.
  - contradiction.
Qed.
Lemma finite_of_infinite x y r : finite x -> ieee Divide x y r -> infinite y -> finite r /\ value r = 0%R.
Proof.
  intros F H [s ->]. inversion H; subst; cbn [finite] in *; try contradiction; try discriminate; try (exfalso; intuition discriminate); auto.
  - exfalso. destruct H0 as [N|N]; [rewrite N in F; destruct F|discriminate N].
  - exfalso. destruct H1 as [[[? N] _]|[_ Z]]; [subst x; destruct F|destruct Z].
Qed.
Lemma finite_result o x x' y r r' : finite x -> finite x' -> value x = value x' ->
  ieee o x y r -> ieee o x' y r' -> finite r -> finite r' /\ value r = value r'.
Proof.
  intros F F' V H H' R. destruct (finite_of_finite _ _ _ _ F H R) as [[A ->]|(-> & A & ->)].
  - rewrite V. assert (A' : finite_case o x' y) by (unfold finite_case in *; now rewrite <- V).
    destruct (finite_of_case _ _ _ _ F' H' A') as [B ->]. auto.
  - destruct (finite_of_infinite _ _ _ F' H' A) as [B ->]. auto.
Qed.
Lemma truncates_result o x x' y y' r r' z : finite x -> finite x' -> value x = value x' -> alike y y' ->
  ieee o x y r -> ieee o x' y' r' -> truncates_to r z -> truncates_to r' z.
Proof.
  intros F F' V A H H' (R & E & Z). apply (ieee_alike _ _ _ x x _ y') in H; [|now left|exact A].
  destruct (finite_result _ _ _ _ _ _ F F' V H H' R) as [R' V']. split; [exact R'|]. now rewrite <- V'.
Qed.
