(** Proofs for strings (C20). *)
From Coq Require Import ZArith Reals Psatz.
From Verif Require Import Bytes StrUtils Grammar Outcome Parser Num Containers Instance Context Platform.
From Verif Require Import Lemmas StringLit Proof_Grammar Proof_Parser Proof_Exec WP Proof_Inv Proof_Literal Proof_Receive Proof_Context Proof_Names Api Proof_Text.
From Verif Require Import Proof_Number Proof_Float Proof_Arith Proof_Order Props_Text Props_State Props_Number Props_Float Props_Order Proof_Vector.
From Verif Require Import Spec_Grammar Spec_State Spec_Names Spec_Text Spec_Number Spec_Float Spec_Order Spec_Vector Spec_String.
Open Scope Z_scope.
Open Scope list_scope.

Lemma str_at_mid (pre : str) x post : str_at (pre ++ x :: post) (size pre) = Ok x.
Proof. unfold str_at. tests. now rewrite to_nat_size, app_nth2, Nat.sub_diag by lia. Qed.
Lemma substr_mid (pre mid post : str) : str_substr (pre ++ mid ++ post) (size pre) (size mid) = Ok mid.
Proof. unfold str_substr. tests. now rewrite !to_nat_size, skipn_pre, firstn_pre. Qed.
Lemma substr_from_tail (pre post : str) : str_substr_from (pre ++ post) (size pre) = Ok post.
Proof. unfold str_substr_from. tests. now rewrite to_nat_size, skipn_pre. Qed.
Lemma substr_head (pre post : str) : str_substr (pre ++ post) 0 (size pre) = Ok pre.
Proof. apply (substr_mid [] pre post). Qed.
Lemma erase_mid (pre mid post : str) : str_erase (pre ++ mid ++ post) (size pre) (size mid) = Ok (pre ++ post).
Proof.
  unfold str_erase. tests. rewrite !to_nat_size, firstn_pre. rewrite <- app_length, app_assoc, skipn_pre. reflexivity.
Qed.
Lemma erase_from_tail (pre post : str) : str_erase_from (pre ++ post) (size pre) = Ok pre.
Proof. unfold str_erase_from. tests. now rewrite to_nat_size, firstn_pre. Qed.
Lemma insert_mid (pre u post : str) : str_insert (pre ++ post) (size pre) u = Ok (pre ++ u ++ post).
Proof. unfold str_insert. tests. now rewrite to_nat_size, firstn_pre, skipn_pre. Qed.
Lemma prefix_loop_iff p : forall s, prefix_loop s p = true <-> exists r, s = p ++ r.
Proof.
  induction p as [|y p IH]; intros s; [split; [now exists s|]; destruct s; auto|].
  destruct s as [|x s]; cbn [prefix_loop]; [split; [discriminate|intros [r H]; discriminate]|]. rewrite andb_true_iff, ceq_eq, IH. split.
  - intros [-> [r ->]]. now exists r.
  - intros [r H]. inversion H; subst. eauto.
Qed.
Lemma starts_with_iff s p : starts_with s p = true <-> exists r, s = p ++ r.
Proof.
  unfold starts_with. destruct (Nat.ltb_spec (length s) (length p)); [|apply prefix_loop_iff].
  split; [discriminate|]. intros [r ->]. rewrite app_length in *. lia.
Qed.
Lemma ends_with_iff s p : ends_with s p = true <-> exists r, s = r ++ p.
Proof.
  unfold ends_with. destruct (Nat.ltb_spec (length s) (length p)).
  - split; [discriminate|]. intros [r ->]. rewrite app_length in *. lia.
  - rewrite prefix_loop_iff. split; intros [r Hr].
    + exists (rev r). rewrite <- (rev_involutive s), Hr, rev_app_distr, rev_involutive. reflexivity.
    + exists (rev r). now rewrite Hr, rev_app_distr.
Qed.
Lemma string_ok a u : denotes_string a u -> is_string_value a = true /\ string_of a = Ok u /\ unquote a = Ok u.
Proof.
  intros H. assert (X := proj2 (string_of_iff a u) H). unfold string_of in X |- *. destruct (is_string_value a); cbn [negb] in *; [auto|discriminate].
Qed.
Lemma string_no a : (exists u, denotes_string a u) \/ is_string_value a = false.
Proof.
  destruct (is_string_value a) eqn:E; auto. left. assert (X := string_of_cases false a (clean_false _)).
  destruct (string_of a) as [u|e|u] eqn:Y; [exists u; now apply string_of_iff| |contradiction].
  unfold string_of in Y. rewrite E in Y. cbn [negb] in Y. destruct (unquote_ok a E) as (b & _ & Z). congruence.
Qed.

#[local] Hint Resolve get_index : core.
Section Ops.
Context (E : env).
Ltac zl := repeat match goal with |- context [zlen ?l] => change (zlen l) with (size l) end.
Ltac reads := zl; repeat match goal with
  | H : index_of ?a _ |- context [integer_of ?a] => rewrite (int_ok _ _ H)
  | H : denotes_string ?a _ |- context [is_string_value ?a] => rewrite (proj1 (string_ok _ _ H)); cbn [negb]
  | H : denotes_string ?a _ |- context [string_of ?a] => rewrite (proj1 (proj2 (string_ok _ _ H)))
  | H : denotes_string ?a _ |- context [unquote ?a] => rewrite (proj2 (proj2 (string_ok _ _ H)))
  end.
Ltac op d := match goal with |- string_receive E _ ?l ?v = ?r => change (d l v = r) end.
Lemma string_forward m args v v' ans : string_effect m args v v' ans -> string_receive E m args v = (v', Ok ans).
Proof using Type.
  intros H. destruct H; rewrite <- ?quoted_printed;
    repeat match goal with H : prints_int _ _ |- _ => apply prints_int_iff in H; subst end.
  - reflexivity.
  - op string_set. unfold string_set. mon. reads. reflexivity.
  - reflexivity.
  - reflexivity.
  - op (string_affix starts_with). unfold string_affix. mon. reads. now rewrite (proj2 (starts_with_iff _ u)) by eauto.
  - op (string_affix starts_with). unfold string_affix. mon. reads. destruct (starts_with v u) eqn:X; auto.
    apply starts_with_iff in X as [r X]. now apply H0 in X.
  - op (string_affix ends_with). unfold string_affix. mon. reads. now rewrite (proj2 (ends_with_iff _ u)) by eauto.
  - op (string_affix ends_with). unfold string_affix. mon. reads. destruct (ends_with v u) eqn:X; auto.
    apply ends_with_iff in X as [r X]. now apply H0 in X.
  - reflexivity.
  - op string_atIndex. unfold string_atIndex. mon. reads. tests. now rewrite str_at_mid.
  - op string_first. unfold string_first. mon. reads. assert (0 <= size pre) by apply size_nonneg. tests. reads.
    destruct H0 as [->|[H0 ->]].
    + rewrite Z.min_l by (sz; lia). now rewrite substr_head.
    + rewrite app_nil_r in *. rewrite Z.min_r by (sz; lia). assert (X := substr_head pre []). rewrite app_nil_r in X. now rewrite X.
  - op string_last. unfold string_last. mon. reads. assert (0 <= size post) by apply size_nonneg. tests. reads.
    destruct H0 as [->|[H0 ->]].
    + rewrite Z.min_l by (sz; lia). replace (size (pre ++ post) - size post) with (size pre) by (sz; lia). now rewrite substr_from_tail.
    + cbn [app]. rewrite Z.min_r by (sz; lia). rewrite Z.sub_diag. now rewrite (substr_from_tail [] post : str_substr_from post 0 = Ok post).
  - op string_substringFromIndex. unfold string_substringFromIndex. mon. reads. tests. reads. now rewrite substr_from_tail.
  - op string_substringFromIndex_toIndex. unfold string_substringFromIndex_toIndex. mon. reads. tests. reads.
    replace (size pre + size mid - size pre) with (size mid) by lia. now rewrite substr_mid.
  - op string_pushBack. reflexivity.
  - op string_pushFront. reflexivity.
  - reflexivity.
  - op string_popBack. unfold string_popBack. mon. zl. tests. replace (size (v ++ [x]) - 1) with (size v) by (sz; lia).
    now rewrite str_at_mid, substr_head.
  - reflexivity.
  - op string_popFront. unfold string_popFront. mon. zl. tests. change 0 with (size (@nil ascii)). change (x :: v) with ([] ++ x :: v) at 1.
    rewrite str_at_mid. replace (size (x :: v) - 1) with (size v) by (sz; lia). assert (X := substr_mid [x] v []).
    rewrite app_nil_r in X. change ([x] ++ v) with (x :: v) in X. change (size [x]) with 1 in X. now rewrite X.
  - op string_popAtIndex. unfold string_popAtIndex. mon. reads. tests. now rewrite str_at_mid, vec_erase_at_mid.
  - op string_concatenate. unfold string_concatenate. mon. reads. reflexivity.
  - op string_insert_beforeIndex. unfold string_insert_beforeIndex. mon. reads. tests. reads. now rewrite insert_mid.
  - op string_eraseFromIndex. unfold string_eraseFromIndex. mon. reads. tests. reads. now rewrite erase_from_tail.
  - op string_eraseFromIndex_toIndex. unfold string_eraseFromIndex_toIndex. mon. reads. tests. reads.
    replace (size pre + size mid - size pre) with (size mid) by lia. now rewrite erase_mid.
  - reflexivity.
Qed.
Notation T := (B "String").
Lemma character_no a : (exists c, a = printed_character c) \/ is_character_value a = false.
Proof using Type.
  destruct (is_character_value a) eqn:H; auto. left. apply is_character_value_iff in H. exact H.
Qed.
Lemma string_otherwise m k idx args v : In (m, k, idx) string_messages -> in_range T idx args ->
  (exists v' ans, string_effect m args v v' ans) \/ string_receive E m args v = refused k args v.
Proof using Type.
  intros Hm Hr. cbn [string_messages In] in Hm.
  repeat (destruct Hm as [Hm|Hm]; [injection Hm as <- <- <-|]); [..|contradiction].
  Ltac zero2 args := destruct args as [|? ?]; [left|right; reflexivity].
  Ltac one2 args := destruct args as [|?a [|? ?]]; [right; reflexivity| |right; reflexivity].
  Ltac two2 args := destruct args as [|?a [|?b [|? ?]]]; [right; reflexivity|right; reflexivity| |right; reflexivity].
  Ltac int2 k := match goal with Hr : in_range ?t ?idx ?args |- _ =>
    let z := fresh "z" in let Hz := fresh "Hz" in
    destruct (int_dec t idx args k _ Hr eq_refl) as [[z Hz]|Hz]; [cbn; tauto|..] end.
  Ltac str2 a := let u := fresh "u" in let Hu := fresh "Hu" in destruct (string_no a) as [[u Hu]|Hu].
  Ltac tst2 := match goal with
  | |- context [?a <? ?b] => destruct (Z.ltb_spec a b)
  | |- context [?a <=? ?b] => destruct (Z.leb_spec a b)
  end; cbn [orb]; repeat match goal with |- context [zlen ?l] => change (zlen l) with (size l) end.
  Ltac bad2 d := match goal with |- (exists v' ans, string_effect ?m ?a ?v v' ans) \/ ?l = _ =>
     right; change l with (d a v);
     unfold string_affix, string_set, string_atIndex, string_first, string_last, string_substringFromIndex, string_substringFromIndex_toIndex,
       string_pushBack, string_pushFront, string_popAtIndex, string_concatenate, string_insert_beforeIndex, string_eraseFromIndex,
       string_eraseFromIndex_toIndex, refused; mon end;
     repeat match goal with H : integer_of _ = _ |- _ => rewrite H | H : is_string_value _ = _ |- _ => rewrite H | H : is_character_value _ = _ |- _ => rewrite H
       | H : denotes_string ?a _ |- context [is_string_value ?a] => rewrite (proj1 (string_ok _ _ H)) end; cbn [negb];
     repeat match goal with H : integer_of _ = _ |- _ => rewrite H end;
     repeat match goal with |- context [zlen ?l] => change (zlen l) with (size l) end;
     repeat tst2; first [exfalso; lia | reflexivity].
  - zero2 args. do 2 eexists. constructor.
  - one2 args. str2 a; [|bad2 string_set]. left. do 2 eexists. constructor. eauto.
  - zero2 args. destruct v; do 2 eexists; constructor.
  - one2 args. str2 a; [|bad2 (string_affix starts_with)]. left. destruct (starts_with v u) eqn:X.
    + apply starts_with_iff in X as [r ->]. do 2 eexists. now constructor.
    + do 2 eexists. eapply txt_startsWith_false; eauto. intros r Hv. assert (Y := proj2 (starts_with_iff v u) (ex_intro _ r Hv)). congruence.
  - one2 args. str2 a; [|bad2 (string_affix ends_with)]. left. destruct (ends_with v u) eqn:X.
    + apply ends_with_iff in X as [r ->]. do 2 eexists. now constructor.
    + do 2 eexists. eapply txt_endsWith_false; eauto. intros r Hv. assert (Y := proj2 (ends_with_iff v u) (ex_intro _ r Hv)). congruence.
  - zero2 args. do 2 eexists. constructor. apply to_string_prints.
  - one2 args. int2 0%nat; [|bad2 string_atIndex].
    destruct (Z_lt_dec z 0); [bad2 string_atIndex|]. destruct (Z_le_dec (size v) z); [bad2 string_atIndex|]. left.
    destruct (split_elt v z) as (pre & x & post & -> & <-); [lia|]. do 2 eexists. eapply txt_atIndex; eauto.
  - one2 args. int2 0%nat; [|bad2 string_first].
    destruct (Z_lt_dec z 0); [bad2 string_first|]. left.
    destruct (Z_le_dec (size v) z).
    + exists v, (printed_string v). rewrite <- (app_nil_r v) at 1 2. apply (txt_first a z v []); auto.
      destruct (Z.eq_dec z (size v)); [now left|right; split; auto; lia].
    + destruct (split_size v z) as (pre & post & -> & <-); [lia|]. do 2 eexists. eapply txt_first; eauto.
  - one2 args. int2 0%nat; [|bad2 string_last].
    destruct (Z_lt_dec z 0); [bad2 string_last|]. left.
    destruct (Z_le_dec (size v) z).
    + exists v, (printed_string v). change v with ([] ++ v) at 1 2. apply (txt_last a z [] v); auto.
      destruct (Z.eq_dec z (size v)); [now left|right; split; auto; lia].
    + destruct (split_size v (size v - z)) as (pre & post & -> & Hp); [lia|]. do 2 eexists. eapply txt_last; eauto. left. sz. lia.
  - one2 args. int2 0%nat; [|bad2 string_substringFromIndex].
    destruct (Z_lt_dec z 0); [bad2 string_substringFromIndex|]. destruct (Z_lt_dec (size v) z); [bad2 string_substringFromIndex|]. left.
    destruct (split_size v z) as (pre & post & -> & <-); [lia|]. do 2 eexists. eapply txt_substring; eauto.
  - two2 args. int2 0%nat; [int2 1%nat|]; [|bad2 string_substringFromIndex_toIndex..].
    destruct (Z_lt_dec z 0); [bad2 string_substringFromIndex_toIndex|]. destruct (Z_lt_dec (size v) z); [bad2 string_substringFromIndex_toIndex|].
    destruct (Z_lt_dec z0 0); [bad2 string_substringFromIndex_toIndex|]. destruct (Z_lt_dec (size v) z0); [bad2 string_substringFromIndex_toIndex|].
    destruct (Z_lt_dec z0 z); [bad2 string_substringFromIndex_toIndex|]. left.
    destruct (split_size v z) as (pre & post & -> & <-); [lia|]. destruct (split_size post (z0 - size pre)) as (mid & post' & -> & Hm); [sz; lia|].
    do 2 eexists. eapply txt_substring_to; eauto. replace (size pre + size mid) with z0 by lia. auto.
  - one2 args. destruct (character_no a) as [[x ->]|Hu]; [|bad2 string_pushBack]. left. do 2 eexists. constructor.
  - one2 args. destruct (character_no a) as [[x ->]|Hu]; [|bad2 string_pushFront]. left. do 2 eexists. constructor.
  - zero2 args. destruct (split_last v) as [->|(w & x & ->)]; do 2 eexists; econstructor.
  - zero2 args. destruct v; do 2 eexists; econstructor.
  - one2 args. int2 0%nat; [|bad2 string_popAtIndex].
    destruct (Z_lt_dec z 0); [bad2 string_popAtIndex|]. destruct (Z_le_dec (size v) z); [bad2 string_popAtIndex|]. left.
    destruct (split_elt v z) as (pre & x & post & -> & <-); [lia|]. do 2 eexists. eapply txt_popAtIndex; eauto.
  - one2 args. str2 a; [|bad2 string_concatenate]. left. do 2 eexists. constructor. eauto.
  - two2 args. str2 a; [int2 1%nat|]; [|bad2 string_insert_beforeIndex..].
    destruct (Z_lt_dec z 0); [bad2 string_insert_beforeIndex|]. destruct (Z_lt_dec (size v) z); [bad2 string_insert_beforeIndex|]. left.
    destruct (split_size v z) as (pre & post & -> & <-); [lia|]. do 2 eexists. eapply txt_insert; eauto.
  - one2 args. int2 0%nat; [|bad2 string_eraseFromIndex].
    destruct (Z_lt_dec z 0); [bad2 string_eraseFromIndex|]. destruct (Z_lt_dec (size v) z); [bad2 string_eraseFromIndex|]. left.
    destruct (split_size v z) as (pre & post & -> & <-); [lia|]. do 2 eexists. eapply txt_erase; eauto.
  - two2 args. int2 0%nat; [int2 1%nat|]; [|bad2 string_eraseFromIndex_toIndex..].
    destruct (Z_lt_dec z 0); [bad2 string_eraseFromIndex_toIndex|]. destruct (Z_lt_dec (size v) z); [bad2 string_eraseFromIndex_toIndex|].
    destruct (Z_lt_dec z0 0); [bad2 string_eraseFromIndex_toIndex|]. destruct (Z_lt_dec (size v) z0); [bad2 string_eraseFromIndex_toIndex|].
    destruct (Z_lt_dec z0 z); [bad2 string_eraseFromIndex_toIndex|]. left.
    destruct (split_size v z) as (pre & post & -> & <-); [lia|]. destruct (split_size post (z0 - size pre)) as (mid & post' & -> & Hm); [sz; lia|].
    do 2 eexists. eapply txt_erase_to; eauto. replace (size pre + size mid) with z0 by lia. auto.
  - zero2 args. do 2 eexists. constructor.
Qed.
End Ops.
