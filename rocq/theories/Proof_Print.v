(** Proofs that printed lists are unambiguous (C41). *)
From Coq Require Import ZArith Psatz.
From Verif Require Import Bytes StrUtils Grammar Outcome Parser Num Containers Instance Context Platform.
From Verif Require Import Lemmas StringLit Proof_Grammar Proof_Parser Proof_Exec WP Proof_Inv Proof_Literal Proof_Receive Proof_Context Proof_Names Api Proof_Text.
From Verif Require Import Proof_Number.
From Verif Require Import Spec_Grammar Spec_State Spec_Names Spec_Text Spec_Number.
Open Scope list_scope.
Notation COMMA := (ascii_of_nat 44).

Section Lists.
Context {A : Type} (pr : A -> bytes) (cl : ascii).
(** What follows an element: the closing bracket, or a comma and more elements. *)
Fixpoint rest (l : list A) : bytes :=
  match l with
  | [] => [cl]
  | x :: l' => B "," ++ pr x ++ rest l'
  end.
Lemma joined_rest x l : joined (map pr (x :: l)) ++ [cl] = pr x ++ rest l.
Proof.
  revert x. induction l as [|y l IH]; intros x; [reflexivity|].
  change (joined (map pr (x :: y :: l))) with (pr x ++ B "," ++ joined (map pr (y :: l))). rewrite <- !app_assoc, IH. reflexivity.
Qed.
Context (D : A -> Prop) (ne : forall x, D x -> pr x <> []).
Context (first_ok : forall x, D x -> forall r, pr x <> cl :: r).
Context (step : forall x x' l l', D x -> D x' -> Forall D l -> Forall D l' -> pr x ++ rest l = pr x' ++ rest l' -> x = x' /\ rest l = rest l').
Context (cl_comma : cl <> COMMA).
Lemma rest_inj l : forall l', Forall D l -> Forall D l' -> rest l = rest l' -> l = l'.
Proof using step cl_comma.
  induction l as [|x l IH]; intros [|x' l'] H H' E; auto.
  - exfalso. cbn in E. injection E as E _. auto.
  - exfalso. cbn in E. injection E as E _. auto.
  - inversion H; subst. inversion H'; subst. cbn [rest] in E. apply app_inv_head in E. destruct (step x x' l l') as [-> R]; auto.
    f_equal. auto.
Qed.
Lemma joined_inj l l' : Forall D l -> Forall D l' -> joined (map pr l) ++ [cl] = joined (map pr l') ++ [cl] -> l = l'.
Proof using step cl_comma first_ok ne.
  intros H H' E. destruct l as [|x l], l' as [|x' l']; auto.
  - exfalso. rewrite joined_rest in E. inversion H'; subst. cbn in E. destruct (pr x') as [|c p] eqn:P; [now apply (ne x')|].
    injection E as <- _. eapply first_ok; eauto.
  - exfalso. rewrite joined_rest in E. inversion H; subst. cbn in E. destruct (pr x) as [|c p] eqn:P; [now apply (ne x)|].
    injection E as E _. subst c. eapply first_ok; eauto.
  - rewrite !joined_rest in E. inversion H; subst. inversion H'; subst. destruct (step x x' l l') as [-> R]; auto. f_equal. now apply rest_inj.
Qed.
(** Elements whose text contains neither comma nor bracket. *)
Lemma plain_step (inj : forall x x', D x -> D x' -> pr x = pr x' -> x = x') (pl : forall x, D x -> ~ In COMMA (pr x) /\ ~ In cl (pr x)) :
  forall x x' l l', D x -> D x' -> Forall D l -> Forall D l' -> pr x ++ rest l = pr x' ++ rest l' -> x = x' /\ rest l = rest l'.
Proof using Type.
  clear step. intros x x' l l' Hx Hx' _ _ E.
  assert (K : forall l, exists c r, rest l = c :: r /\ (c = COMMA \/ c = cl)) by (intros [|z k]; cbn; eauto 10).
  destruct (K l) as (c & r & Er & Hc), (K l') as (c' & r' & Er' & Hc').
  assert (Q : forall p p' r r', ~ In COMMA p /\ ~ In cl p -> ~ In COMMA p' /\ ~ In cl p' -> (exists c t, r = c :: t /\ (c = COMMA \/ c = cl)) ->
    (exists c t, r' = c :: t /\ (c = COMMA \/ c = cl)) -> p ++ r = p' ++ r' -> p = p' /\ r = r').
  { clear. induction p as [|a p IH]; intros [|a' p'] r r' N N' R R' E; cbn in E; auto.
    - exfalso. destruct R as (c & t & -> & Hc). injection E as <- _. destruct Hc as [->| ->]; [apply (proj1 N')|apply (proj2 N')]; now left.
    - exfalso. destruct R' as (c & t & -> & Hc). injection E as -> _. destruct Hc as [->| ->]; [apply (proj1 N)|apply (proj2 N)]; now left.
    - injection E as -> E. destruct N as [N1 N2], N' as [N1' N2'].
      destruct (IH p' r r') as [-> ->]; auto; split; intros X; [apply N1|apply N2|apply N1'|apply N2']; now right. }
  destruct (Q (pr x) (pr x') (rest l) (rest l')) as [P1 P2]; eauto 10.
Qed.
End Lists.

(** ** Strings *)
Lemma with_escapes_cons x u : with_escapes (x :: u) = (if Ascii.ascii_dec x QUOTE then [BACKSLASH; QUOTE] else [x]) ++ with_escapes u.
Proof. reflexivity. Qed.
Lemma head_quote u r r' : with_escapes u ++ r = QUOTE :: r' -> u = [].
Proof.
  destruct u as [|x u]; auto. rewrite with_escapes_cons. destruct (Ascii.ascii_dec x QUOTE) as [|N]; cbn; intros H; [discriminate|]. exfalso. apply N. now injection H.
Qed.
Section Strings.
Context (cl : ascii) (cl_comma : cl <> COMMA) (cl_quote : cl <> QUOTE) (cl_back : cl <> BACKSLASH).
Notation R := (rest printed_string cl).
Lemma rest_string s l : R (s :: l) = COMMA :: QUOTE :: with_escapes s ++ [QUOTE] ++ R l.
Proof using Type. cbn [rest]. unfold printed_string at 1. rewrite <- !app_assoc. reflexivity. Qed.
(** Outside a string on one side, inside one on the other: impossible. *)
Lemma out_of_phase n : forall l l' u, (length (R l') <= n)%nat -> R l' = with_escapes u ++ [QUOTE] ++ R l -> False.
Proof using cl_quote.
  induction n as [|n IH]; intros l l' u L E.
  - destruct l'; cbn in L; lia.
  - destruct l' as [|s l'].
    + assert (X := f_equal (@length _) E). rewrite !app_length in X. destruct l; cbn in X; lia.
    + rewrite rest_string in E, L. destruct u as [|x u]; [discriminate E|]. rewrite with_escapes_cons in E.
      destruct (Ascii.ascii_dec x QUOTE); [discriminate E|]. cbn [app] in E. injection E as <- E.
      symmetry in E. assert (u = []) by (eapply head_quote; exact E). subst u. cbn [with_escapes flat_map app] in E. injection E as E.
      apply (IH l' l s); auto. rewrite E. cbn [length] in L. cbn [app] in *. lia.
Qed.
Lemma body_step u : forall u' l l', with_escapes u ++ [QUOTE] ++ R l = with_escapes u' ++ [QUOTE] ++ R l' -> u = u' /\ R l = R l'.
Proof using cl_quote.
  induction u as [|x u IH]; intros [|x' u'] l l' E.
  - cbn in E. injection E as E. auto.
  - exfalso. symmetry in E. apply head_quote in E. discriminate.
  - exfalso. apply head_quote in E. discriminate.
  - rewrite !with_escapes_cons in E.
    destruct (Ascii.ascii_dec x QUOTE) as [->|N], (Ascii.ascii_dec x' QUOTE) as [->|N'].
    + rewrite <- !app_assoc in E. apply app_inv_head in E. destruct (IH _ _ _ E) as [-> ?]. auto.
    + exfalso. cbn in E. injection E as <- E. symmetry in E. assert (u' = []) by (eapply head_quote; exact E). subst u'. cbn in E. injection E as E.
      eapply out_of_phase; [apply le_n|exact E].
    + exfalso. cbn in E. injection E as -> E. assert (u = []) by (eapply head_quote; exact E). subst u. cbn in E. injection E as E.
      eapply out_of_phase; [apply le_n|exact E].
    + cbn in E. injection E as -> E. destruct (IH _ _ _ E) as [-> ?]. auto.
Qed.
Lemma string_step x x' l l' : printed_string x ++ R l = printed_string x' ++ R l' -> x = x' /\ R l = R l'.
Proof using cl_quote.
  unfold printed_string. rewrite <- !app_assoc. intros E. cbn in E. injection E as E. apply (body_step x x' l l'). exact E.
Qed.
End Strings.

(** ** Objects *)
From Verif Require Import Spec_Float Spec_Order Spec_Vector Proof_Float Proof_Arith Proof_Order Proof_Vector.
Lemma repr_plain E E' t x : t <> B "Float" -> has_type t x -> obj_repr E x = obj_repr E' x.
Proof. intros N T. destruct x; auto. contradiction. Qed.
Lemma shows_plain_unique p p' t x a a' : t <> B "Float" -> has_type t x -> shows p x a -> shows p' x a' -> a = a'.
Proof.
  intros N T S S'. pose (E q := {| e_precision := q; e_tolerance := S754_nan; e_sort := insertion_sort |}).
  apply (shows_iff (E p)) in S. apply (shows_iff (E p')) in S'. subst. eapply repr_plain; eauto.
Qed.
Lemma digits_plain c : isdig c = true -> c <> COMMA /\ c <> ascii_of_nat 93 /\ c <> ascii_of_nat 125 /\ c <> ascii_of_nat 41.
Proof. intros H. repeat split; intros ->; discriminate. Qed.
Lemma to_string_chars z c : In c (to_string z) -> isdig c = true \/ c = ascii_of_nat 45.
Proof.
  unfold to_string. destruct (Z.ltb_spec z 0).
  - intros [<-|H1]; [now right|]. left. assert (D := dec_digits (- z) ltac:(lia)). rewrite forallb_forall in D. auto.
  - intros H1. left. assert (D := dec_digits z ltac:(lia)). rewrite forallb_forall in D. auto.
Qed.
Lemma to_string_nonempty z : to_string z <> [].
Proof. unfold to_string. destruct (z <? 0); [discriminate|apply dec_nonempty]. Qed.
Section Objects.
Context (E : env) (cl : ascii) (cl_ok : cl = ascii_of_nat 93 \/ cl = ascii_of_nat 125).
Notation pr := (obj_repr E).
Lemma cl_other : cl <> COMMA /\ cl <> QUOTE.
Proof using cl_ok. destruct cl_ok as [->| ->]; split; discriminate. Qed.
Lemma rest_strings l : rest pr cl (map OStr l) = rest printed_string cl l.
Proof using Type. induction l as [|s l IH]; auto. cbn [map rest obj_repr]. now rewrite quoted_printed, IH. Qed.
Lemma all_strings l : Forall (has_type (B "String")) l -> exists u, l = map OStr u.
Proof using Type.
  induction 1 as [|x l Hx _ [u ->]]; [now exists []|]. destruct x; try discriminate Hx. now exists (s :: u).
Qed.
Lemma obj_step t : object_type t -> t <> B "Float" ->
  forall x x' l l', has_type t x -> has_type t x' -> Forall (has_type t) l -> Forall (has_type t) l' ->
    pr x ++ rest pr cl l = pr x' ++ rest pr cl l' -> x = x' /\ rest pr cl l = rest pr cl l'.
Proof using cl_ok.
  intros Ho N x x' l l' Hx Hx' Hl Hl' Eq. destruct x; cbn [has_type] in Hx.
  - (* Boolean *)
    subst t. destruct x'; try discriminate Hx'. cbn [obj_repr] in Eq.
    assert (K : forall l, Forall (has_type (B "Boolean")) l -> rest pr cl l <> [] ) by (intros [|]; discriminate).
    destruct b, b0; cbn in Eq; try discriminate; repeat (injection Eq as Eq); auto.
  - subst t. destruct x'; try discriminate Hx'. cbn in Eq. injection Eq as -> Eq. auto.
  - subst t. eapply (plain_step pr cl (has_type (B "Integer"))); eauto.
    + intros y y' Hy Hy' Ey. destruct y, y'; try discriminate. cbn [obj_repr] in Ey. f_equal. eapply prints_int_inj; [apply to_string_prints|].
      rewrite Ey. apply to_string_prints.
    + intros y Hy. destruct y; try discriminate. cbn [obj_repr]. split; intros I; apply to_string_chars in I as [I|I]; try discriminate.
      * apply digits_plain in I. destruct cl_ok; tauto.
      * subst. destruct cl_ok; discriminate.
    + reflexivity.
  - contradiction.
  - subst t. destruct x'; try discriminate Hx'. destruct (all_strings _ Hl) as [u ->], (all_strings _ Hl') as [u' ->].
    rewrite !rest_strings in *. cbn [obj_repr] in Eq. rewrite !quoted_printed in Eq.
    destruct (string_step cl (proj2 cl_other) _ _ _ _ Eq) as [-> ?]. auto.
Qed.
Lemma obj_list_inj t l l' : object_type t -> t <> B "Float" -> Forall (has_type t) l -> Forall (has_type t) l' ->
  joined (map pr l) ++ [cl] = joined (map pr l') ++ [cl] -> l = l'.
Proof using cl_ok.
  intros Ho N. apply joined_inj.
  - intros x Hx Ex. destruct x; try discriminate Ex. now destruct b. now apply (to_string_nonempty z). contradiction.
  - intros x Hx r Ex. destruct x; try (destruct cl_ok; subst; discriminate Ex).
    + destruct b; destruct cl_ok; subst; discriminate Ex.
    + cbn in Ex. assert (I : In cl (to_string z)) by (rewrite Ex; now left).
      apply to_string_chars in I as [I|I]; [apply digits_plain in I|subst]; destruct cl_ok; tauto || discriminate.
    + contradiction.
  - now apply obj_step.
  - apply cl_other.
Qed.
End Objects.
