(** Proofs that printed dictionaries are unambiguous (C48). *)
From Coq Require Import ZArith Psatz.
From Verif Require Import Bytes StrUtils Grammar Outcome Parser Num Containers Instance Context Platform.
From Verif Require Import Lemmas Proof_Inv Proof_Text Proof_Number Proof_Print.
From Verif Require Import Spec_Grammar Spec_State Spec_Names Spec_Text Spec_Number.
Open Scope list_scope.

Definition head_ok (t : bytes) : Prop := match t with c :: _ => c <> APOSTROPHE | [] => False end.
(** The text after the closing quote of a string, or after any other value: structural text [g] without quotes, then the end,
    or a quote inside a character literal, or a string and what follows it. *)
Inductive tail : bytes -> Prop :=
| tail_end g : ~ In QUOTE g -> head_ok g -> tail g
| tail_char p x q : ~ In QUOTE (p ++ [x]) -> x <> BACKSLASH -> head_ok (p ++ [x]) -> tail ((p ++ [x]) ++ QUOTE :: APOSTROPHE :: q)
| tail_string p x s T : ~ In QUOTE (p ++ [x]) -> x <> BACKSLASH -> head_ok (p ++ [x]) -> tail T ->
    tail ((p ++ [x]) ++ QUOTE :: with_escapes s ++ QUOTE :: T).
Lemma head_ok_app g r : head_ok g -> head_ok (g ++ r).
Proof. destruct g; cbn; auto. contradiction. Qed.
Lemma tail_head T : tail T -> head_ok T.
Proof. destruct 1; auto using head_ok_app. Qed.
Lemma tail_prefix g T : ~ In QUOTE g -> head_ok g -> tail T -> tail (g ++ T).
Proof.
  intros N G H. destruct H.
  - apply tail_end; [|now apply head_ok_app]. rewrite in_app_iff. tauto.
  - rewrite app_assoc, (app_assoc g p). apply tail_char; auto; [|rewrite <- app_assoc; now apply head_ok_app].
    rewrite <- app_assoc, in_app_iff. tauto.
  - rewrite app_assoc, (app_assoc g p). apply tail_string; auto; [|rewrite <- app_assoc; now apply head_ok_app].
    rewrite <- app_assoc, in_app_iff. tauto.
Qed.
(** The first quote not preceded by a backslash ends a string. *)
Lemma first_quote p x : forall u r r', ~ In QUOTE (p ++ [x]) -> x <> BACKSLASH ->
  (p ++ [x]) ++ QUOTE :: r = with_escapes u ++ QUOTE :: r' -> u = p ++ [x] /\ r = r'.
Proof.
  induction p as [|a p IH]; intros u r r' N Hx E.
  - destruct u as [|b u].
    + exfalso. cbn in E. injection E as E _. apply N. now left.
    + rewrite with_escapes_cons in E. destruct (Ascii.ascii_dec b QUOTE) as [->|Hb].
      * cbn in E. injection E as -> _. now contradiction Hx.
      * cbn in E. injection E as -> E. symmetry in E. assert (u = []) by (eapply head_quote; exact E). subst u. cbn in E. injection E as E. auto.
  - destruct u as [|b u].
    + exfalso. cbn in E. injection E as E _. apply N. now left.
    + rewrite with_escapes_cons in E. destruct (Ascii.ascii_dec b QUOTE) as [->|Hb].
      * exfalso. cbn in E. injection E as -> E. destruct p as [|a' p]; cbn in E; injection E as E _; apply N; subst; cbn; auto.
      * cbn in E. injection E as -> E. destruct (IH u r r') as [-> ->]; auto. intros I. apply N. now right.
Qed.
Lemma in_quote u r : In QUOTE (with_escapes u ++ QUOTE :: r).
Proof. apply in_app_iff. right. now left. Qed.
Lemma tails_out_of_phase n : forall X Y u, (length X <= n)%nat -> tail X -> tail Y -> X = with_escapes u ++ QUOTE :: Y -> False.
Proof.
  induction n as [|n IH]; intros X Y u L HX HY E.
  - apply tail_head in HX. destruct X; cbn in *; [contradiction|lia].
  - destruct HX.
    + apply H. rewrite E. apply in_quote.
    + apply first_quote in E as [_ <-]; auto. apply tail_head in HY. now apply HY.
    + apply first_quote in E as [_ E]; auto. apply (IH Y T s); auto. rewrite <- E. clear - L. rewrite app_length in L. cbn [length] in L. rewrite (app_length (with_escapes s)) in L |- *. cbn [length] in *. lia.
Qed.
Lemma tails_body u : forall u' T T', tail T -> tail T' -> with_escapes u ++ QUOTE :: T = with_escapes u' ++ QUOTE :: T' -> u = u' /\ T = T'.
Proof.
  induction u as [|x u IH]; intros [|x' u'] T T' HT HT' E.
  - cbn in E. injection E as E. auto.
  - exfalso. symmetry in E. apply head_quote in E. discriminate.
  - exfalso. apply head_quote in E. discriminate.
  - rewrite !with_escapes_cons in E.
    destruct (Ascii.ascii_dec x QUOTE) as [->|N], (Ascii.ascii_dec x' QUOTE) as [->|N'].
    + rewrite <- !app_assoc in E. apply app_inv_head in E. destruct (IH _ _ _ HT HT' E) as [-> ?]. auto.
    + exfalso. cbn in E. injection E as <- E. symmetry in E. assert (u' = []) by (eapply head_quote; exact E). subst u'. cbn in E. injection E as E.
      eapply (tails_out_of_phase (length T') T' T u); auto.
    + exfalso. cbn in E. injection E as -> E. assert (u = []) by (eapply head_quote; exact E). subst u. cbn in E. injection E as E.
      eapply (tails_out_of_phase (length T) T T' u'); auto.
    + cbn in E. injection E as -> E. destruct (IH _ _ _ HT HT' E) as [-> ?]. auto.
Qed.

Section Dictionaries.
Context (E : env).
Notation pr := (obj_repr E).
Definition plain_value (x : obj) : Prop := match x with OFloat _ => False | _ => True end.
Lemma tail_obj g x T : g <> QUOTE -> g <> APOSTROPHE -> g <> BACKSLASH -> plain_value x -> tail T -> tail (g :: pr x ++ T).
Proof.
  intros G1 G2 G3 P HT.
  assert (Q : forall p, ~ In QUOTE p -> tail (g :: p ++ T)).
  { intros p N. apply (tail_prefix (g :: p)); auto. intros [H|H]; auto. }
  destruct x; cbn [obj_repr].
  - apply Q. destruct b; cbn; intros H; repeat (destruct H as [H|H]; [discriminate H|]); contradiction.
  - destruct (ascii_dec c QUOTE) as [->|N].
    + apply (tail_char [g] APOSTROPHE T); cbn; [|discriminate|auto]. intros [H|[H|[]]]; [auto|discriminate].
    + apply Q. cbn. intros [H|[H|[H|[]]]]; try discriminate; auto.
  - apply Q. intros I. apply to_string_chars in I as [I|I]; discriminate.
  - contradiction.
  - rewrite quoted_printed. unfold printed_string. replace (g :: ([QUOTE] ++ with_escapes s ++ [QUOTE]) ++ T) with (([] ++ [g]) ++ QUOTE :: with_escapes s ++ QUOTE :: T)
      by (cbn; now rewrite <- app_assoc).
    apply tail_string; cbn; auto. intros [H|[]]; auto.
Qed.
(** What follows a value is a comma or a closing parenthesis. *)
Definition stops (T : bytes) : Prop := match T with c :: _ => c = COMMA \/ c = ascii_of_nat 41 | [] => False end.
Lemma int_split p : forall p' T T', (forall c, In c p -> isdig c = true \/ c = ascii_of_nat 45) -> (forall c, In c p' -> isdig c = true \/ c = ascii_of_nat 45) ->
  stops T -> stops T' -> p ++ T = p' ++ T' -> p = p' /\ T = T'.
Proof using Type.
  assert (S : forall c, (isdig c = true \/ c = ascii_of_nat 45) -> ~ (c = COMMA \/ c = ascii_of_nat 41)).
  { intros c [H|H] [K|K]; subst; discriminate. }
  induction p as [|a p IH]; intros [|a' p'] T T' H H' HT HT' Eq; cbn in Eq; auto.
  - exfalso. subst T. apply (S a'); [apply H'; now left|exact HT].
  - exfalso. subst T'. apply (S a); [apply H; now left|exact HT'].
  - injection Eq as -> Eq. destruct (IH p' T T') as [-> ->]; auto; intros c I; [apply H|apply H']; now right.
Qed.
Lemma obj_split t x x' T T' : t <> B "Float" -> has_type t x -> has_type t x' -> tail T -> tail T' -> stops T -> stops T' ->
  pr x ++ T = pr x' ++ T' -> x = x' /\ T = T'.
Proof using Type.
  intros N Hx Hx' HT HT' S S' Eq. destruct x; cbn [has_type] in Hx; subst t; destruct x'; try discriminate Hx'; cbn [obj_repr] in Eq.
  - destruct b, b0; cbn in Eq; try discriminate; repeat (injection Eq as Eq); auto.
  - cbn in Eq. injection Eq as -> Eq. auto.
  - apply int_split in Eq as [Eq ->]; try (apply to_string_chars); auto. split; auto. f_equal. eapply prints_int_inj; [apply to_string_prints|].
    rewrite Eq. apply to_string_prints.
  - now contradiction N.
  - rewrite !quoted_printed in Eq. unfold printed_string in Eq. rewrite <- !app_assoc in Eq. cbn in Eq. injection Eq as Eq.
    apply tails_body in Eq as [-> ->]; auto.
Qed.
Definition entry (p : obj * obj) : bytes := B "(" ++ pr (fst p) ++ B "," ++ pr (snd p) ++ B ")".
Notation R := (rest entry (ascii_of_nat 41)).
Context (kt vt : bytes) (Nk : kt <> B "Float") (Nv : vt <> B "Float").
Definition typed (p : obj * obj) : Prop := has_type kt (fst p) /\ has_type vt (snd p).
Lemma typed_plain t x : t <> B "Float" -> has_type t x -> plain_value x.
Proof using Type. intros N H. destruct x; cbn; auto. Qed.
Lemma close_tail T : tail T -> tail (ascii_of_nat 41 :: T).
Proof using Type. intros H. apply (tail_prefix [ascii_of_nat 41]); auto; cbn; [intros [H1|[]]; discriminate|discriminate]. Qed.
Lemma rest_tail l : Forall typed l -> tail (R l).
Proof using Nk Nv.
  induction 1 as [|[k v] l [Hk Hv] _ IH].
  - apply tail_end; cbn; [intros [H|[]]; discriminate|discriminate].
  - cbn [rest]. unfold entry at 1. cbn [fst snd] in *. rewrite <- !app_assoc. apply (tail_prefix (B ",")); cbn [B]; cbn; [intros [H|[]]; discriminate|discriminate|].
    apply tail_obj; try discriminate; [now apply (typed_plain kt)|]. apply tail_obj; try discriminate; [now apply (typed_plain vt)|]. now apply close_tail.
Qed.
Lemma entry_step x x' l l' : typed x -> typed x' -> Forall typed l -> Forall typed l' -> entry x ++ R l = entry x' ++ R l' -> x = x' /\ R l = R l'.
Proof using Nk Nv.
  intros [Hk Hv] [Hk' Hv'] Hl Hl' Eq. destruct x as [k v], x' as [k' v']. unfold entry in Eq. cbn [fst snd] in *.
  rewrite <- !app_assoc in Eq. apply app_inv_head in Eq. apply (obj_split kt) in Eq as [-> Eq]; auto.
  - cbn in Eq. injection Eq as Eq. apply (obj_split vt) in Eq as [-> Eq]; auto; try (apply close_tail; now apply rest_tail); try (cbn; tauto).
    injection Eq as Eq. auto.
  - apply tail_obj; try discriminate; [now apply (typed_plain vt)|]. now apply close_tail, rest_tail.
  - apply tail_obj; try discriminate; [now apply (typed_plain vt)|]. now apply close_tail, rest_tail.
  - cbn. tauto.
  - cbn. tauto.
Qed.
Lemma dictionary_inj l l' : Forall typed l -> Forall typed l' ->
  joined (map entry l) ++ [ascii_of_nat 41] = joined (map entry l') ++ [ascii_of_nat 41] -> l = l'.
Proof using Nk Nv.
  apply joined_inj.
  - intros x _. discriminate.
  - intros x _ r. discriminate.
  - exact entry_step.
  - discriminate.
Qed.
End Dictionaries.
