(** C66: one relation specifies every statement. *)
From Coq Require Import ZArith Reals Psatz Sorting.Sorted Sorting.Permutation Classical.
From Flocq Require Import Core.
From Coq Require Import Floats.SpecFloat.
From Verif Require Import Bytes StrUtils Grammar Outcome Parser Num Containers Instance Context Server Platform.
From Verif Require Import Lemmas StringLit Proof_Grammar Proof_Parser Proof_Exec WP Proof_Inv Proof_Literal Proof_Receive Proof_Context Proof_Names Api Proof_Text.
From Verif Require Import Proof_Number Proof_Float Proof_Arith Proof_Order Props_Text Props_State Props_Number Props_Float Props_Order.
From Verif Require Import Proof_Vector Props_Vector Proof_String Props_String Proof_Set Props_Set Props_Object Props_Start Props_Manual Props_Server Proof_Storable Proof_Whole.
From Verif Require Import Spec_Grammar Spec_State Spec_Names Spec_Text Spec_Number Spec_Float Spec_Order Spec_Vector Spec_String Spec_Set Spec_Object Spec_Server Spec_Start Spec_Whole.
Open Scope Z_scope.
Open Scope list_scope.

Section Variable_messages.
Context (srt : sorter) (pw : bytes) (c : context) (s : option session) (line n m : bytes) (args : list bytes) (i : inst).
Context (Hsrt : sort_contract srt) (Hr : reachable srt pw c) (Hs : statement line n m args) (Hl : lookup c n = Some i).

Lemma answers_becomes ans : only_answers srt pw c s line ans -> becomes srt pw c s line n ans i.
Proof using Hl. intros (c' & R & L & S). exists c'. split; [exact R|]. split; [now rewrite L|]. split; auto. Qed.
Lemma becomes_unique a1 i1 a2 i2 : becomes srt pw c s line n a1 i1 -> becomes srt pw c s line n a2 i2 -> a1 = a2 /\ i1 = i2.
Proof using Type.
  intros (c1 & R1 & L1 & _) (c2 & R2 & L2 & _). destruct (runs_unique _ _ _ _ _ _ _ _ _ _ _ R1 R2) as (-> & _ & ->). split; [reflexivity|congruence].
Qed.
Lemma not_refused ans i' e : becomes srt pw c s line n ans i' -> ~ error_answer ans -> error_answer e -> only_answers srt pw c s line e -> False.
Proof using Hl. intros H N E A. destruct (becomes_unique _ _ _ _ H (answers_becomes _ A)) as [-> _]. contradiction. Qed.
Lemma not_undefined ans i' u : becomes srt pw c s line n ans i' -> undefined_behaviour srt pw c s line u -> False.
Proof using Type. intros (c1 & R1 & _) U. exact (runs_ub _ _ _ _ _ _ _ _ _ R1 U). Qed.
Lemma received ans i' : becomes srt pw c s line n ans i' -> ~ error_answer ans -> receive (env_of srt c) i m args = (i', Ok ans).
Proof using Hsrt Hr Hs Hl.
  intros H N. destruct (receive (env_of srt c) i m args) as [i1 [a|e|u]] eqn:E.
  - assert (B := var_becomes srt pw c s line n m args i Hsrt Hr Hs Hl _ _ E ltac:(cbn; tauto)). cbn [text_of] in B.
    destruct (becomes_unique _ _ _ _ H B) as [-> ->]. reflexivity.
  - assert (B := var_becomes srt pw c s line n m args i Hsrt Hr Hs Hl _ _ E ltac:(cbn; tauto)). cbn [text_of] in B.
    destruct (becomes_unique _ _ _ _ H B) as [-> _]. exfalso. apply N, error_answer_exc.
  - exfalso. eapply not_undefined; [exact H|]. eapply var_undefined; eauto.
Qed.
Lemma succeeded c' s' ans : runs srt pw c s line c' s' ans -> ~ error_answer ans ->
  exists i', becomes srt pw c s line n ans i' /\ s' = s /\ only_changes c c' n (Some i').
Proof using Hsrt Hr Hs Hl.
  intros R N. destruct (receive (env_of srt c) i m args) as [i1 [a|e|u]] eqn:E.
  - assert (B := var_becomes srt pw c s line n m args i Hsrt Hr Hs Hl _ _ E ltac:(cbn; tauto)). cbn [text_of] in B.
    destruct B as (c1 & R1 & L1 & O1 & S1). destruct (runs_unique _ _ _ _ _ _ _ _ _ _ _ R R1) as (-> & -> & ->). exists i1.
    split; [exists c1; auto|]. split; [reflexivity|]. split; auto.
  - exfalso. assert (B := var_becomes srt pw c s line n m args i Hsrt Hr Hs Hl _ _ E ltac:(cbn; tauto)). cbn [text_of] in B.
    destruct B as (c1 & R1 & _). destruct (runs_unique _ _ _ _ _ _ _ _ _ _ _ R R1) as (_ & _ & ->). apply N, error_answer_exc.
  - exfalso. eapply runs_ub; [exact R|]. eapply var_undefined; eauto.
Qed.
End Variable_messages.
Lemma err_in e : In e [ERR_SYNTAX; ERR_ARGUMENT; ERR_MESSAGE; ERR_USED; ERR_UNKNOWN_NAME; ERR_NARGS; ERR_COMPARE; ERR_NOT_AUTH; ERR_PASSWORD; ERR_UNKNOWN] -> error_answer e.
Proof. auto. Qed.
Ltac err := apply err_in; cbn [In]; tauto.
Lemma err_message : error_answer ERR_MESSAGE. Proof. err. Qed.
Lemma err_argument : error_answer ERR_ARGUMENT. Proof. err. Qed.
Lemma err_nargs : error_answer ERR_NARGS. Proof. err. Qed.
Lemma err_used : error_answer ERR_USED. Proof. err. Qed.
Lemma err_unknown_name : error_answer ERR_UNKNOWN_NAME. Proof. err. Qed.
Lemma err_password : error_answer ERR_PASSWORD. Proof. err. Qed.
Lemma err_refusal k args : error_answer (refusal k args).
Proof. unfold refusal. destruct (Nat.eqb _ _); [apply err_argument|apply err_nargs]. Qed.

Lemma on_ok {S} (k : S -> inst) st i' a : on k st = (i', Ok a) -> exists v', st = (v', Ok a) /\ i' = k v'.
Proof. unfold on. destruct st as [v' r]. cbn [fst snd]. intros H. inversion H; subst. eauto. Qed.
Lemma no_arguments line n m args : statement line n m args -> arity m = 0%nat -> seq_eqb [last m "a"%char] (B "?") = false -> args = [].
Proof.
  intros Hs A L. apply len0. destruct (C29_otherwise_the_name_fixes_the_number _ _ _ _ Hs) as [K|(j & _ & J)]; [congruence|].
  subst m. assert (X : last (j ++ B "?") "a"%char = "?"%char) by apply last_last. rewrite X in L. discriminate L.
Qed.

Section Completeness.
Context (srt : sorter) (pw : bytes) (c : context) (s : option session) (line n m : bytes) (args : list bytes).
Context (Hsrt : sort_contract srt) (Hr : reachable srt pw c) (Hs : statement line n m args).
Let P := float_precision c.
Let tol := tolerance c.

(** ** Sequences *)
Lemma vector_complete t v ans i' : lookup c n = Some (IVector t v) -> becomes srt pw c s line n ans i' -> ~ error_answer ans ->
  message_effect P tol (IVector t v) m args i' ans.
Proof using Hsrt Hr Hs.
  intros Hl H N. assert (Rc := received srt pw c s line n m args _ Hsrt Hr Hs Hl _ _ H N).
  apply on_ok in Rc as (v' & Rv & _).
  destruct (bytes_dec m (B "sort")) as [->|Nm].
  { destruct (classic (weak_order tol v)) as [W|W].
    - destruct (C16_sort_of_weakly_ordered_values srt pw c s line n t v args Hsrt Hr Hs Hl W) as (w & Hb & Pm & Io).
      destruct (becomes_unique _ _ _ _ _ _ _ _ _ _ H Hb) as [-> ->].
      rewrite (no_arguments _ _ _ _ Hs eq_refl eq_refl). rewrite (no_arguments _ _ _ _ Hs eq_refl eq_refl) in *.
      now apply msg_sort.
    - exfalso. apply (proj2 (C17_undefined_iff srt pw c s line n t v args Hsrt Hr Hs Hl)) in W as [u W]. eapply not_undefined; eauto. }
  destruct (classic (exists k idx, In (m, k, idx) seq_messages)) as [(k & idx & Hin)|N1].
  { apply NNPP. intros K. eapply (not_refused srt pw c s line n); [exact Hl|exact H|exact N|apply (err_refusal k args)|].
    eapply C18_otherwise_refused; eauto.
    - eapply vector_reads; [exact Rv|]. apply in_or_app. left. exact Hin.
    - intros w a Ef. apply K. assert (Hb := C18_effect srt pw c s line n m args t v w a Hsrt Hr Hs Hl Ef).
      destruct (becomes_unique _ _ _ _ _ _ _ _ _ _ H Hb) as [-> ->]. now apply msg_sequence. }
  destruct (classic (exists k idx, In (m, k, idx) search_messages)) as [(k & idx & Hin)|N2].
  { apply NNPP. intros K. eapply (not_refused srt pw c s line n); [exact Hl|exact H|exact N|apply (err_refusal k args)|].
    eapply C19_otherwise_refused; eauto.
    - eapply vector_reads; [exact Rv|]. apply in_or_app. right. exact Hin.
    - intros w a Ef. apply K. assert (Hb := C19_effect srt pw c s line n m args t v w a Hsrt Hr Hs Hl Ef).
      destruct (becomes_unique _ _ _ _ _ _ _ _ _ _ H Hb) as [-> ->]. now apply msg_search. }
  exfalso. eapply (not_refused srt pw c s line n); [exact Hl|exact H|exact N|apply err_message|].
  eapply C18_other_messages_are_refused; eauto. intros k idx. split; intros X; [apply N1|apply N2]; eauto.
Qed.
Lemma comparison_complete t a q l ans i' : ordered_type t -> has_type t a -> lookup c n = Some (IObj a) -> m = asks t q -> args = [l] ->
  becomes srt pw c s line n ans i' -> ~ error_answer ans -> message_effect P tol (IObj a) m args i' ans.
Proof using Hsrt Hr Hs.
  intros Ho Ha Hl -> -> H N.
  destruct (classic (comparison_literal t l)) as [Cl|Cl].
  2: { exfalso. eapply (not_refused srt pw c s line n); [exact Hl|exact H|exact N|apply err_argument|]. eapply C13_other_arguments_are_refused; eauto. }
  assert (Rc := received srt pw c s line n _ _ _ Hsrt Hr Hs Hl _ _ H N).
  assert (exists b, operand t l b) as [b Hb].
  { destruct Cl as [[-> V]|[[-> V]|[[-> V]|[-> V]]]].
    - destruct (C46_every_literal_has_a_value (B "Character") l ltac:(now constructor)) as [[b Hb]|[E _]]; [|discriminate E]. exists b. left. split; [discriminate|exact Hb].
    - destruct (classic (integer_value l)) as [Iv|Iv].
      + destruct (C46_every_literal_has_a_value (B "Integer") l ltac:(now constructor)) as [[b Hb]|[_ O]]; [exists b; right; left; auto|].
        exfalso. destruct a; try discriminate Ha. cbn [receive] in Rc. apply on_ok in Rc as (v' & Rv & _). apply out_of_range_ub in O as [u O].
        apply is_integer_value_iff in Iv.
        assert (X : exists cmp, integer_compare cmp [l] z = (v', Ok ans)) by (destruct q; eexists; exact Rv). destruct X as [cmp X].
        unfold integer_compare in X. repeat step_ok X. injection E0 as <-. match goal with K : context [integer_of l] |- _ => rewrite Iv, O in K; discriminate K end.
      + destruct (C46_every_literal_has_a_value (B "Float") l ltac:(now constructor)) as [[b Hb]|[E _]]; [|discriminate E]. exists b. right; right. auto.
    - destruct (C46_every_literal_has_a_value (B "Float") l ltac:(now constructor)) as [[b Hb]|[E _]]; [|discriminate E]. exists b. left. split; [discriminate|exact Hb].
    - destruct (C46_every_literal_has_a_value (B "String") l ltac:(now constructor)) as [[b Hb]|[E _]]; [|discriminate E]. exists b. left. split; [discriminate|exact Hb]. }
  destruct (C13_any_tolerance srt pw c s line n t a l b q Hsrt Hr Ho Ha Hl Hb Hs) as (r & A & Rel).
  assert (Hb' := answers_becomes _ _ _ _ _ _ _ Hl _ A). destruct (becomes_unique _ _ _ _ _ _ _ _ _ _ H Hb') as [-> ->].
  eapply msg_comparison; eauto.
Qed.
Lemma string_complete v ans i' : lookup c n = Some (IObj (OStr v)) -> becomes srt pw c s line n ans i' -> ~ error_answer ans ->
  message_effect P tol (IObj (OStr v)) m args i' ans.
Proof using Hsrt Hr Hs.
  intros Hl H N. assert (Rc := received srt pw c s line n m args _ Hsrt Hr Hs Hl _ _ H N).
  apply on_ok in Rc as (v' & Rv & _).
  destruct (classic (exists k idx, In (m, k, idx) string_messages)) as [(k & idx & Hin)|N1].
  { apply NNPP. intros K. eapply (not_refused srt pw c s line n); [exact Hl|exact H|exact N|apply (err_refusal k args)|].
    eapply C20_otherwise_refused; eauto.
    - eapply string_reads; [exact Rv|]. exact Hin.
    - intros w a Ef. apply K. assert (Hb := C20_effect srt pw c s line n m args v w a Hsrt Hr Hs Hl Ef).
      destruct (becomes_unique _ _ _ _ _ _ _ _ _ _ H Hb) as [-> ->]. now apply msg_string. }
  destruct (classic (In m string_comparisons)) as [Hc|N2].
  { assert (exists q, m = asks (B "String") q) as [q Eq].
    { unfold string_comparisons in Hc. cbn [In] in Hc. destruct Hc as [<-|[<-|[<-|[<-|[<-|[]]]]]];
        [exists IsEqual|exists IsLess|exists IsLessOrEqual|exists IsGreater|exists IsGreaterOrEqual]; reflexivity. }
    assert (X : exists cmp, string_compare cmp args v = (v', Ok ans)) by (rewrite Eq in Rv; destruct q; eexists; exact Rv). destruct X as [cmp X].
    unfold string_compare in X. apply bind_ok in X as (s1 & u & X & _). apply check_ok in X. apply len1 in X as [l El].
    eapply comparison_complete; eauto; [unfold ordered_type; tauto|reflexivity]. }
  exfalso. eapply (not_refused srt pw c s line n); [exact Hl|exact H|exact N|apply err_message|].
  eapply C20_other_messages_are_refused; eauto.
Qed.
(** ** Sets and dictionaries *)
Lemma empty_truth {A} (v : list A) : exists b, (b = true <-> v = []) /\ truth b = btext (match v with [] => true | _ => false end).
Proof. destruct v; [exists true|exists false]; split; try reflexivity; split; intros X; first [reflexivity|discriminate X]. Qed.
Lemma set_complete t v ans i' : lookup c n = Some (ISet t v) -> becomes srt pw c s line n ans i' -> ~ error_answer ans ->
  message_effect P tol (ISet t v) m args i' ans.
Proof using Hsrt Hr Hs.
  intros Hl H N. assert (Rc := received srt pw c s line n m args _ Hsrt Hr Hs Hl _ _ H N).
  apply on_ok in Rc as (v' & Rv & ->).
  assert (Hot : object_type t) by (apply (holder_typed srt pw c n _ Hsrt Hr Hl)).
  destruct (set_reads _ _ _ _ _ _ _ Hot Rv) as [[Hm ->]|(Hm & a & x & -> & Hx)].
  - cbn [In] in Hm. destruct Hm as [<-|[<-|[<-|[<-|[]]]]].
    + injection Rv as <- <-. apply msg_set_get. now apply (shows_set_iff (env_of srt c)).
    + destruct (empty_truth v) as (b & Hb & Eb). assert (ans = truth b /\ v' = v) as [-> ->] by (rewrite Eb; destruct v; injection Rv as <- <-; auto). now apply msg_set_isEmpty.
    + injection Rv as <- <-. apply msg_set_size. apply to_string_prints.
    + injection Rv as <- <-. apply msg_set_clear.
  - assert (U : usable tol x v).
    { apply NNPP. intros K. apply (proj2 (C23_set_undefined_iff srt pw c s line n m a x t v Hsrt Hr Hm Hs Hl Hx)) in K as [u K]. eapply not_undefined; eauto. }
    unfold set_lookups in Hm. cbn [In] in Hm. destruct Hm as [<-|[<-|[<-|[]]]].
    + destruct (C23_contains srt pw c s line n a x t v Hsrt Hr Hs Hl Hx U) as (b & A & Hb).
      assert (Hb' := answers_becomes _ _ _ _ _ _ _ Hl _ A). destruct (becomes_unique _ _ _ _ _ _ _ _ _ _ H Hb') as [-> ->]. eapply msg_set_contains; eauto.
    + destruct (C23_add srt pw c s line n a x t v Hsrt Hr Hs Hl Hx U) as (w & Hb & A).
      destruct (becomes_unique _ _ _ _ _ _ _ _ _ _ H Hb) as [-> ->]. eapply msg_set_add; eauto.
    + destruct (C23_remove srt pw c s line n a x t v Hsrt Hr Hs Hl Hx U) as (w & Hb & A).
      destruct (becomes_unique _ _ _ _ _ _ _ _ _ _ H Hb) as [-> ->]. eapply msg_set_remove; eauto.
Qed.
Lemma dictionary_complete kt vt d ans i' : lookup c n = Some (IDict kt vt d) -> becomes srt pw c s line n ans i' -> ~ error_answer ans ->
  message_effect P tol (IDict kt vt d) m args i' ans.
Proof using Hsrt Hr Hs.
  intros Hl H N. assert (Rc := received srt pw c s line n m args _ Hsrt Hr Hs Hl _ _ H N).
  apply on_ok in Rc as (v' & Rv & ->).
  destruct (holder_typed srt pw c n _ Hsrt Hr Hl) as (Hk & Hv & _).
  destruct (dict_reads _ _ _ _ _ _ _ _ Hk Hv Rv) as [[Hm ->]|[(Hm & a & k & -> & Hx)|(-> & a & b & x & k & -> & Hx & Hkk)]].
  - cbn [In] in Hm. destruct Hm as [<-|[<-|[<-|[<-|[<-|[<-|[]]]]]]].
    + injection Rv as <- <-. apply msg_dict_get. now apply (shows_dictionary_iff (env_of srt c)).
    + destruct (empty_truth d) as (b & Hb & Eb). assert (ans = truth b /\ v' = d) as [-> ->] by (rewrite Eb; destruct d; injection Rv as <- <-; auto). now apply msg_dict_isEmpty.
    + injection Rv as <- <-. apply msg_dict_size. apply to_string_prints.
    + injection Rv as <- <-. apply msg_dict_keys. now apply (shows_list_iff (env_of srt c)).
    + injection Rv as <- <-. apply msg_dict_values. now apply (shows_list_iff (env_of srt c)).
    + injection Rv as <- <-. apply msg_dict_clear.
  - assert (U : usable tol k (map fst d)).
    { apply NNPP. intros K. apply (proj2 (C23_dictionary_undefined_iff srt pw c s line n m a k kt vt d Hsrt Hr Hm Hs Hl Hx)) in K as [u K]. eapply not_undefined; eauto. }
    unfold dictionary_lookups in Hm. cbn [In] in Hm. destruct Hm as [<-|[<-|[<-|[]]]].
    + destruct (C23_containsKey srt pw c s line n a k kt vt d Hsrt Hr Hs Hl Hx U) as (b & A & Hb).
      assert (Hb' := answers_becomes _ _ _ _ _ _ _ Hl _ A). destruct (becomes_unique _ _ _ _ _ _ _ _ _ _ H Hb') as [-> ->]. eapply msg_dict_containsKey; eauto.
    + destruct (C23_getValueForKey srt pw c s line n a k kt vt d Hsrt Hr Hs Hl Hx U) as (b & A & Hb).
      assert (Hb' := answers_becomes _ _ _ _ _ _ _ Hl _ A). destruct (becomes_unique _ _ _ _ _ _ _ _ _ _ H Hb') as [-> ->].
      destruct Hb as [(k' & w & I & E & Sh)|[F ->]]; [eapply msg_dict_found; eauto|eapply msg_dict_not_found; eauto].
    + destruct (C23_removeKey srt pw c s line n a k kt vt d Hsrt Hr Hs Hl Hx U) as (w & Hb & A).
      destruct (becomes_unique _ _ _ _ _ _ _ _ _ _ H Hb) as [-> ->]. eapply msg_dict_removeKey; eauto.
  - assert (U : usable tol k (map fst d)).
    { apply NNPP. intros K. apply (proj2 (C23_associate_undefined_iff srt pw c s line n a b x k kt vt d Hsrt Hr Hs Hl Hx Hkk)) in K as [u K]. eapply not_undefined; eauto. }
    destruct (C23_associate srt pw c s line n a b x k kt vt d Hsrt Hr Hs Hl Hx Hkk U) as (w & Hb & A).
    destruct (becomes_unique _ _ _ _ _ _ _ _ _ _ H Hb) as [-> ->]. eapply msg_dict_associate; eauto.
Qed.
(** ** Variables that hold one value *)
Lemma set_null x a ans i' : receive (env_of srt c) (IObj x) (B "set:") [a] = (i', Ok ans) -> ans = B "null" /\ exists y, i' = IObj y.
Proof using Type.
  intros H. destruct x; cbn [receive] in H; apply on_ok in H as (v' & H & ->); (split; [|eauto]).
  - change (boolean_set [a] b = (v', Ok ans)) in H. unfold boolean_set in H. repeat step_ok H. injection H as _ <-. reflexivity.
  - change (character_set [a] c0 = (v', Ok ans)) in H. unfold character_set in H. repeat step_ok H. injection H as _ <-. reflexivity.
  - change (integer_set [a] z = (v', Ok ans)) in H. unfold integer_set in H. repeat step_ok H. injection H as _ <-. reflexivity.
  - change (float_set [a] f = (v', Ok ans)) in H. unfold float_set in H. repeat step_ok H. injection H as _ <-. reflexivity.
  - change (string_set [a] s0 = (v', Ok ans)) in H. unfold string_set in H. repeat step_ok H. injection H as _ <-. reflexivity.
Qed.
Lemma arithmetic_complete_integer z o a ans i' : lookup c n = Some (IObj (OInt z)) -> m = message_of o -> args = [a] ->
  becomes srt pw c s line n ans i' -> ~ error_answer ans -> message_effect P tol (IObj (OInt z)) m args i' ans.
Proof using Hsrt Hr Hs.
  intros Hl -> -> H N.
  destruct (classic (float_value a)) as [Fv|Fv].
  2: { exfalso. eapply (not_refused srt pw c s line n); [exact Hl|exact H|exact N|apply err_argument|]. eapply C09_other_arguments_are_refused; eauto. }
  destruct (classic (integer_value a)) as [Iv|Iv].
  - apply integer_value_denotes in Iv as [d Hd].
    destruct (classic (fits d /\ exists r, exact_result o z d r /\ fits r)) as [(Fd & r & Er & Fr)|K].
    + assert (Hb := C09_exact_arithmetic srt pw c s line n z o a d r Hsrt Hr Hs Hl Hd Fd Er Fr).
      destruct (becomes_unique _ _ _ _ _ _ _ _ _ _ H Hb) as [-> ->]. eapply msg_integer; eauto.
    + exfalso. apply (proj2 (C10_arithmetic_undefined_iff srt pw c s line n z o a d Hsrt Hr Hs Hl Hd)) in K as [u K]. eapply not_undefined; eauto.
  - apply float_value_denotes in Fv as (neg & x & Hx).
    destruct (C10_arithmetic_with_a_float_literal srt pw c s line n z o a neg x Hsrt Hr Hs Hl Iv Hx) as (zd & d & res & Fz & Vz & Hd & Hi & Hb & Hu).
    destruct (classic (exists r, truncates_to res r)) as [[r Tr]|K].
    + destruct (becomes_unique _ _ _ _ _ _ _ _ _ _ H (Hb r Tr)) as [-> ->]. eapply msg_integer_real; eauto.
    + exfalso. eapply not_undefined; [exact H|]. apply Hu. intros r Tr. apply K. eauto.
Qed.
Lemma becomes_single ans g : becomes srt pw c s line n ans (IObj (OFloat g)) -> single_precision g.
Proof using Hsrt Hr.
  intros (c' & R & L & _). assert (R' := reach_step srt pw _ _ _ _ _ _ Hr R). assert (G := reachable_good _ _ _ Hsrt R').
  destruct (ctx_good_lookup _ _ _ _ G L) as [_ Hi]. cbn in Hi. destruct Hi as [x ->]. apply to_float_narrows.
Qed.
Lemma arithmetic_complete_float f o a ans i' : lookup c n = Some (IObj (OFloat f)) -> m = message_of o -> args = [a] ->
  becomes srt pw c s line n ans i' -> ~ error_answer ans -> message_effect P tol (IObj (OFloat f)) m args i' ans.
Proof using Hsrt Hr Hs.
  intros Hl -> -> H N.
  destruct (classic (float_value a)) as [Fv|Fv].
  2: { exfalso. eapply (not_refused srt pw c s line n); [exact Hl|exact H|exact N|apply err_argument|]. eapply C42_other_arguments_are_refused; eauto. }
  apply float_value_denotes in Fv as (neg & x & Hx).
  destruct (C42_float_arithmetic srt pw c s line n f o a neg x Hsrt Hr Hs Hl Hx) as (y & r & g & Hy & Hi & Hn & Hb).
  destruct (becomes_unique _ _ _ _ _ _ _ _ _ _ H Hb) as [-> ->]. eapply msg_float; eauto. eapply becomes_single; eauto.
Qed.
Lemma character_complete ch (Q : ascii -> Prop) ans i' : lookup c n = Some (IObj (OChar ch)) -> character_question m Q -> args = [] ->
  becomes srt pw c s line n ans i' -> message_effect P tol (IObj (OChar ch)) m args i' ans.
Proof using Hsrt Hr Hs.
  intros Hl Hq -> H.
  assert (D : (Q ch /\ only_answers srt pw c s line (B "true")) \/ (~ Q ch /\ only_answers srt pw c s line (B "false"))).
  { apply (C39_character_predicates srt pw c s line n m ch Q Hsrt Hr Hs Hl). destruct Hq; tauto. }
  destruct D as [[Hc A]|[Hc A]]; assert (Hb := answers_becomes _ _ _ _ _ _ _ Hl _ A); destruct (becomes_unique _ _ _ _ _ _ _ _ _ _ H Hb) as [-> ->].
  - change (B "true") with (truth true). eapply msg_character; [exact Hq|tauto].
  - change (B "false") with (truth false). eapply msg_character; [exact Hq|]. split; [discriminate|tauto].
Qed.
Lemma understood_here t x ans i' : lookup c n = Some (IObj x) -> has_type t x -> t <> B "String" ->
  becomes srt pw c s line n ans i' -> ~ error_answer ans -> understood t m (length args).
Proof using Hsrt Hr Hs.
  intros Hl Hty Nt H N. apply NNPP; intros K; destruct (classic (exists k, understood t m k)) as [[k U]|U].
  - destruct (Nat.eq_dec (length args) k) as [E|E]; [subst k; contradiction|].
    eapply (not_refused srt pw c s line n); [exact Hl|exact H|exact N|apply err_nargs|]. eapply C47_wrong_number_of_arguments; eauto.
  - eapply (not_refused srt pw c s line n); [exact Hl|exact H|exact N|apply err_message|]. eapply C47_other_messages_are_refused; eauto.
Qed.
Lemma by_value_effect x x' a ans i' : lookup c n = Some (IObj x) -> becomes srt pw c s line n ans i' -> value_effect P m args x x' a ->
  message_effect P tol (IObj x) m args i' ans.
Proof using Hsrt Hr Hs.
  intros Hl H Ef. assert (Hb := C47_effect srt pw c s line n m args x x' a Hsrt Hr Hs Hl Ef).
  destruct (becomes_unique _ _ _ _ _ _ _ _ _ _ H Hb) as [-> ->]. now apply msg_value.
Qed.
End Completeness.

Section Completeness_of_values.
Context (srt : sorter) (pw : bytes) (c : context) (s : option session) (line n m : bytes) (args : list bytes).
Context (Hsrt : sort_contract srt) (Hr : reachable srt pw c) (Hs : statement line n m args).
Lemma value_complete x ans i' : lookup c n = Some (IObj x) -> becomes srt pw c s line n ans i' -> ~ error_answer ans ->
  message_effect (float_precision c) (tolerance c) (IObj x) m args i' ans.
Proof using Hsrt Hr Hs.
  intros Hl H N.
  assert (Hty : exists t, has_type t x) by (destruct x; eexists; reflexivity). destruct Hty as (t & Hty).
  destruct (bytes_dec t (B "String")) as [->|Nt]; [destruct x; try discriminate Hty; now apply (string_complete srt pw c s line n m args)|].
  assert (U := understood_here srt pw c s line n m args Hsrt Hr Hs t x ans i' Hl Hty Nt H N). remember (length args) as k eqn:Ek. symmetry in Ek.
  destruct U as [t m' k Int Hm|m' k Hm|m' k Hm|t m' k Ho Hm|t m' k Hor Hm].
  - unfold accessors in Hm. cbn [In] in Hm. destruct Hm as [Hm|[Hm|[]]]; injection Hm as <- <-.
    + apply len0 in Ek. subst args. eapply by_value_effect; eauto. apply val_get. apply (obj_repr_shows (env_of srt c)).
    + apply len1 in Ek as [a ->]. assert (Rc := received srt pw c s line n _ _ _ Hsrt Hr Hs Hl _ _ H N).
      apply set_null in Rc as [-> [y ->]]. apply msg_value. apply (val_set _ t); [exact Hty|].
      apply (proj1 (C46_set srt pw c s line n t a x y Hsrt Hr Hs Hl Hty)). exact H.
  - destruct x as [b|ch|z|f|v]; try discriminate Hty. cbn [In] in Hm. destruct Hm as [Hm|[Hm|[]]]; injection Hm as <- <-; apply len0 in Ek; subst args; eapply by_value_effect; eauto.
    + apply val_isTrue.
    + apply val_isFalse.
  - destruct x as [b|ch|z|f|v]; try discriminate Hty. cbn [In] in Hm.
    destruct Hm as [Hm|[Hm|[Hm|[Hm|[]]]]]; injection Hm as <- <-; apply len0 in Ek; subst args; eapply character_complete; eauto using character_question.
  - unfold comparisons in Hm. apply in_map_iff in Hm as (q & Eq & _). injection Eq as <- <-. apply len1 in Ek as [l ->]. eapply comparison_complete; eauto.
  - unfold arithmetic in Hm. apply in_map_iff in Hm as (o & Eo & _). injection Eo as <- <-. apply len1 in Ek as [a ->].
    destruct Hor as [->| ->]; destruct x as [b|ch|z|f|v]; try discriminate Hty.
    + eapply arithmetic_complete_integer; eauto.
    + eapply arithmetic_complete_float; eauto.
Qed.
Lemma message_complete i ans i' : lookup c n = Some i -> becomes srt pw c s line n ans i' -> ~ error_answer ans ->
  message_effect (float_precision c) (tolerance c) i m args i' ans.
Proof using Hsrt Hr Hs.
  destruct i as [x|t v|t v|kt vt d]; [apply value_complete|apply (vector_complete srt pw c s line n m args)|apply (set_complete srt pw c s line n m args)|apply (dictionary_complete srt pw c s line n m args)]; assumption.
Qed.
End Completeness_of_values.

(** ** The other direction: every effect happens *)
Lemma sorted_total {A} (R : A -> A -> Prop) l a b : StronglySorted R l -> In a l -> In b l -> a = b \/ R a b \/ R b a.
Proof.
  induction 1 as [|x l Hl IH Hx]; [contradiction|]. rewrite Forall_forall in Hx. intros [->|Ha] [->|Hb]; auto.
Qed.
Lemma weak_asym tol l a b : weak_order tol l -> In a l -> In b l -> before tol a b -> ~ before tol b a.
Proof. intros (I & T & _) Ha Hb H H'. apply (I a Ha). exact (T a b a Ha Hb Ha H H'). Qed.
Lemma added_unique tol x v v1 v2 : usable tol x v -> added tol x v v1 -> added tol x v v2 -> v1 = v2.
Proof.
  intros [W S] [S1 [[E1 ->]|[F1 M1]]] [S2 [[E2 ->]|[F2 M2]]].
  - reflexivity.
  - exfalso. apply Exists_exists in E1 as (y & I & E). rewrite Forall_forall in F2. exact (F2 y I E).
  - exfalso. apply Exists_exists in E2 as (y & I & E). rewrite Forall_forall in F1. exact (F1 y I E).
  - apply (sorted_unique (before tol)); auto.
    + intros a b Ha Hb. apply (weak_asym tol (x :: v)); auto; [apply M1 in Ha|apply M1 in Hb]; cbn [In]; intuition.
    + intros y. rewrite M1, M2. reflexivity.
Qed.
Lemma removed_unique tol x v v1 v2 : usable tol x v -> removed tol x v v1 -> removed tol x v v2 -> v1 = v2.
Proof.
  intros [W S] [S1 M1] [S2 M2]. apply (sorted_unique (before tol)); auto.
  - intros a b Ha Hb. apply (weak_asym tol (x :: v)); auto; [apply M1 in Ha|apply M1 in Hb]; cbn [In]; intuition.
  - intros y. rewrite M1, M2. reflexivity.
Qed.
Lemma keys_sorted tol (d : list (obj * obj)) : strictly_increasing tol (map fst d) -> StronglySorted (fun p q => before tol (fst p) (fst q)) d.
Proof.
  unfold strictly_increasing. induction d as [|p d IH]; cbn [map]; intros H; [constructor|]. inversion H; subst. constructor; auto.
  rewrite Forall_forall in *. intros q Hq. apply H3. now apply in_map.
Qed.
Lemma equal_keys tol k (d : list (obj * obj)) a b : usable tol k (map fst d) -> In a (map fst d) -> In b (map fst d) -> equals tol a k -> equals tol b k -> a = b.
Proof.
  intros [(I & T & E) S] Ha Hb Ea Eb. destruct (sorted_total _ _ a b S Ha Hb) as [X|X]; [exact X|exfalso].
  assert (Y : relates tol a b Eq).
  { apply (E a k b); [now right|now left|now right|exact Ea|]. destruct Eb. now split. }
  destruct Y as [Y Y'], X as [X|X]; contradiction.
Qed.
Lemma pair_functional tol k (d : list (obj * obj)) a v w : usable tol k (map fst d) -> In (a, v) d -> In (a, w) d -> v = w.
Proof.
  intros [(I & _) S] Hv Hw. apply keys_sorted in S. destruct (sorted_total _ _ _ _ S Hv Hw) as [X|[X|X]]; [congruence| |]; exfalso; cbn [fst] in X;
    apply (I a); auto; right; apply in_map_iff; now exists (a, v).
Qed.
Lemma associated_unique tol k x (d : list (obj * obj)) d1 d2 : usable tol k (map fst d) -> associated tol k x d d1 -> associated tol k x d d2 -> d1 = d2.
Proof.
  intros U [S1 M1] [S2 M2]. assert (W := proj1 U).
  assert (Sub : forall a b, In (a, b) d1 -> In a (k :: map fst d)).
  { intros a b Hin. destruct M1 as [(k' & I & _ & M)|[_ M]]; apply M in Hin; destruct Hin as [[-> _]|Hin]; try (now right); try (now left);
      right; apply in_map_iff; exists (a, b); tauto. }
  apply keys_sorted in S1, S2. eapply sorted_unique; [exact S1|exact S2| |].
  - intros [a b] [a' b'] Ha Hb. cbn [fst]. apply (weak_asym tol (k :: map fst d)); eauto.
  - intros [a b]. destruct M1 as [(k1 & I1 & E1 & M1)|[F1 M1]], M2 as [(k2 & I2 & E2 & M2)|[F2 M2]].
    + assert (k1 = k2) as -> by (eapply equal_keys; eauto). now rewrite M1, M2.
    + exfalso. rewrite Forall_forall in F2. exact (F2 _ I1 E1).
    + exfalso. rewrite Forall_forall in F1. exact (F1 _ I2 E2).
    + now rewrite M1, M2.
Qed.
Lemma dissociated_unique tol k (d : list (obj * obj)) d1 d2 : usable tol k (map fst d) -> dissociated tol k d d1 -> dissociated tol k d d2 -> d1 = d2.
Proof.
  intros U [S1 M1] [S2 M2]. assert (W := proj1 U). apply keys_sorted in S1, S2. eapply sorted_unique; [exact S1|exact S2| |].
  - intros [a b] [a' b'] Ha Hb. cbn [fst]. apply M1 in Ha, Hb. apply (weak_asym tol (k :: map fst d)); [exact W| |]; right; apply in_map_iff; [exists (a, b)|exists (a', b')]; tauto.
  - intros [a b]. now rewrite M1, M2.
Qed.

Section Soundness.
Context (srt : sorter) (pw : bytes) (c : context) (s : option session) (line n m : bytes) (args : list bytes) (i : inst).
Context (Hsrt : sort_contract srt) (Hr : reachable srt pw c) (Hs : statement line n m args) (Hl : lookup c n = Some i).
Lemma bool_iff (b b' : bool) (Q : Prop) : (b = true <-> Q) -> (b' = true <-> Q) -> b = b'.
Proof. destruct b, b'; intuition congruence. Qed.
Lemma directly ans i' : receive (env_of srt c) i m args = (i', Ok ans) -> becomes srt pw c s line n ans i'.
Proof using Hsrt Hr Hs Hl. intros E. exact (var_becomes srt pw c s line n m args i Hsrt Hr Hs Hl _ _ E ltac:(cbn; tauto)). Qed.
End Soundness.
Lemma message_sound srt pw c s line n m args i i' ans : sort_contract srt -> reachable srt pw c ->
  message_effect (float_precision c) (tolerance c) i m args i' ans ->
  statement line n m args -> lookup c n = Some i ->
  (forall v, i = IVector (B "Float") v -> m <> B "sort") -> becomes srt pw c s line n ans i'.
Proof.
  intros Hsrt Hr H Hs0 Hl0. assert (D := directly srt pw c s line n m args i Hsrt Hr Hs0 Hl0). revert D Hs0 Hl0.
  destruct H as [x m' args' x' ans V|m' Q ch b Hq Hb|t q l a b r Ho Ha Hop Hrel|o a z d r Hd Fd Er Fr|o a neg x z zd d res r Iv Hx Fz Vz Hd Hi Tr
    |o a neg x f d res g Hx Hd Hi Hn Sg|m' args' v v' ans V|t m' args' v v' ans V|t m' args' v v' ans V|t v v' W Pm Io
    |t v ans V|t v b Hb|t v ans V|t v a x b Hx U Hb|t v v' a x Hx U A|t v v' a x Hx U A|t v
    |kt vt d ans V|kt vt d b Hb|kt vt d ans V|kt vt d ans V|kt vt d ans V|kt vt d a k b Hk U Hb|kt vt d a k k' v ans Hk U Hin Heq Hsh
    |kt vt d a k Hk U F|kt vt d d' a b x k Hx Hk U A|kt vt d d' a k Hk U A|kt vt d]; intros D Hs' Hl' Nf.
  - eapply C47_effect; eauto.
  - assert (X : (Q ch /\ only_answers srt pw c s line (B "true")) \/ (~ Q ch /\ only_answers srt pw c s line (B "false"))).
    { apply (C39_character_predicates srt pw c s line n m' ch Q Hsrt Hr Hs' Hl'). destruct Hq; tauto. }
    eapply answers_becomes; [exact Hl'|]. destruct X as [[X Y]|[X Y]], b; cbn [truth]; try exact Y; exfalso; intuition discriminate.
  - destruct (C13_any_tolerance srt pw c s line n t a l b q Hsrt Hr Ho Ha Hl' Hop Hs') as (r' & A & Rel).
    assert (r = r') as -> by (rewrite <- Hrel in Rel; destruct r, r'; intuition congruence). eapply answers_becomes; [exact Hl'|exact A].
  - eapply C09_exact_arithmetic; eauto.
  - destruct (C10_arithmetic_with_a_float_literal srt pw c s line n z o a neg x Hsrt Hr Hs' Hl' Iv Hx) as (zd' & d' & res' & Fz' & Vz' & Hd' & Hi' & Hb & _).
    apply Hb. apply (truncates_result o zd zd' d d' res res' r); auto; [congruence|]. exact (rounds_alike _ _ _ _ _ _ Hd Hd').
  - destruct (C42_float_arithmetic srt pw c s line n f o a neg x Hsrt Hr Hs' Hl' Hx) as (d' & res' & g' & Hd' & Hi' & Hn' & Hb).
    assert (g = g'); [|now subst].
    assert (Ad : alike d d') by exact (rounds_alike _ _ _ _ _ _ Hd Hd').
    assert (Ar : alike res res').
    { eapply ieee_unique_alike; [|exact Hi']. eapply ieee_alike; [now left|exact Ad|exact Hi]. }
    eapply narrows_alike; eauto. eapply becomes_single; eauto.
  - eapply C20_effect; eauto.
  - eapply C18_effect; eauto.
  - eapply C19_effect; eauto.
  - assert (Nt : t <> B "Float") by (intros ->; now apply (Nf v)).
    destruct (C16_sort srt pw c s line n t v [] Hsrt Hr Hs' Hl' Nt) as (w & Hb & _ & _ & Un). now rewrite (Un v' Pm Io).
  - apply D. apply (shows_set_iff (env_of srt c)) in V. subst ans. reflexivity.
  - apply D. destruct v, b; try reflexivity; exfalso; intuition discriminate.
  - apply D. apply prints_int_iff in V. subst ans. reflexivity.
  - destruct (C23_contains srt pw c s line n a x t v Hsrt Hr Hs' Hl' Hx U) as (b' & A & Hb').
    rewrite (bool_iff _ _ _ Hb Hb'). eapply answers_becomes; eauto.
  - destruct (C23_add srt pw c s line n a x t v Hsrt Hr Hs' Hl' Hx U) as (w & Hb & A'). now rewrite (added_unique _ _ _ _ _ U A A').
  - destruct (C23_remove srt pw c s line n a x t v Hsrt Hr Hs' Hl' Hx U) as (w & Hb & A'). now rewrite (removed_unique _ _ _ _ _ U A A').
  - now apply D.
  - apply D. apply (shows_dictionary_iff (env_of srt c)) in V. subst ans. reflexivity.
  - apply D. destruct d, b; try reflexivity; exfalso; intuition discriminate.
  - apply D. apply prints_int_iff in V. subst ans. reflexivity.
  - apply D. apply (shows_list_iff (env_of srt c)) in V. subst ans. reflexivity.
  - apply D. apply (shows_list_iff (env_of srt c)) in V. subst ans. reflexivity.
  - destruct (C23_containsKey srt pw c s line n a k kt vt d Hsrt Hr Hs' Hl' Hk U) as (b' & A & Hb').
    rewrite (bool_iff _ _ _ Hb Hb'). eapply answers_becomes; eauto.
  - destruct (C23_getValueForKey srt pw c s line n a k kt vt d Hsrt Hr Hs' Hl' Hk U) as (ans' & A & Hb').
    assert (Ik : In k' (map fst d)) by (apply in_map_iff; now exists (k', v)).
    destruct Hb' as [(k2 & v2 & I2 & E2 & S2)|[F _]].
    + assert (Ik2 : In k2 (map fst d)) by (apply in_map_iff; now exists (k2, v2)).
      assert (k' = k2) as <- by (eapply equal_keys; eauto). assert (v = v2) as <- by (eapply pair_functional; eauto).
      apply (shows_iff (env_of srt c)) in Hsh, S2. subst. eapply answers_becomes; eauto.
    + exfalso. rewrite Forall_forall in F. exact (F _ Ik Heq).
  - destruct (C23_getValueForKey srt pw c s line n a k kt vt d Hsrt Hr Hs' Hl' Hk U) as (ans' & A & Hb').
    destruct Hb' as [(k2 & v2 & I2 & E2 & S2)|[_ ->]]; [|eapply answers_becomes; eauto].
    exfalso. rewrite Forall_forall in F. apply (F k2); [apply in_map_iff; now exists (k2, v2)|exact E2].
  - destruct (C23_associate srt pw c s line n a b x k kt vt d Hsrt Hr Hs' Hl' Hx Hk U) as (w & Hb & A'). now rewrite (associated_unique _ _ _ _ _ _ U A A').
  - destruct (C23_removeKey srt pw c s line n a k kt vt d Hsrt Hr Hs' Hl' Hk U) as (w & Hb & A'). now rewrite (dissociated_unique _ _ _ _ _ U A A').
  - now apply D.
Qed.

(** ** The whole statement *)
Lemma same_run srt pw c s line a c' s' ans : only_answers srt pw c s line a -> runs srt pw c s line c' s' ans ->
  ans = a /\ s' = s /\ same_data c c'.
Proof. intros (c1 & R1 & L & S) R. destruct (runs_unique _ _ _ _ _ _ _ _ _ _ _ R1 R) as (<- & <- & <-). split; [reflexivity|]. split; [reflexivity|]. now split. Qed.
Lemma not_run srt pw c s line a c' s' ans : only_answers srt pw c s line a -> error_answer a -> runs srt pw c s line c' s' ans -> ~ error_answer ans -> False.
Proof. intros O E R N. destruct (same_run _ _ _ _ _ _ _ _ _ O R) as (-> & _). contradiction. Qed.
Lemma one_argument line a m args : statement line a m args -> count_delims m = 1%nat ->
  (match rev m with c :: _ => ceq c c_qmark | [] => false end) = false -> exists x, args = [x].
Proof. intros H C N. apply len1. eapply args_len; eauto. Qed.
Lemma variable_dec n : variable n \/ ~ variable n.
Proof. destruct (is_variable n) eqn:E; [left|right; intros X; apply is_variable_iff in X; congruence]. now apply is_variable_iff. Qed.
Lemma namespace_dec n : namespace n \/ ~ namespace n.
Proof. destruct (is_namespace n) eqn:E; [left|right; intros X; apply is_identifier_iff in X; unfold is_namespace in E; congruence]. now apply is_identifier_iff. Qed.
Lemma type_success srt pw c s line t m args c' s' ans : sort_contract srt -> reachable srt pw c ->
  statement line t m args -> type t -> runs srt pw c s line c' s' ans -> ~ error_answer ans -> effect pw c s t m args c' s' ans.
Proof.
  intros Hsrt Hr Hs Ht R N. destruct (classic (understands t m)) as [U|U].
  2:{ exfalso. eapply not_run; [eapply C24_other_messages_to_a_type; eauto|apply err_message|exact R|exact N]. }
  destruct (classic (exists n i, creates t m args n i)) as [(n & i & Cr)|No].
  2:{ exfalso. destruct (C24_bad_creation srt pw c s line t m args Hs Ht U) as [O|(_ & _ & u & Hu)].
      - intros n i X. apply No. eauto.
      - eapply not_run; [exact O|apply err_argument|exact R|exact N].
      - eapply runs_ub; eauto. }
  destruct (classic (live c n)) as [L|L].
  - assert (M : (m = B "create:" \/ m = B "create:withValue:") \/ (m = B "createIfNotExists:" \/ m = B "createIfNotExists:withValue:")).
    { destruct U as [[_ [->| ->]]|[_ [->| ->]]]; tauto. }
    destruct M as [M|M].
    + exfalso. eapply not_run; [eapply C24_create_on_a_used_name; eauto|apply err_used|exact R|exact N].
    + destruct (same_run _ _ _ _ _ _ _ _ _ (C24_createIfNotExists_on_a_used_name srt pw c s line t m args n i Hs Cr L M) R) as (-> & -> & D).
      eapply eff_exists; eauto. cbn [In]. intuition.
  - destruct (C24_create_on_a_free_name srt pw c s line t m args n i Hsrt Hr Hs Cr L) as (c1 & R1 & L1 & O1 & S1).
    destruct (runs_unique _ _ _ _ _ _ _ _ _ _ _ R1 R) as (<- & <- & <-). eapply eff_create; eauto. now split.
Qed.
Lemma context_outcome srt pw c s line m args c' s' ans : statement line (B "Context") m args -> runs srt pw c s line c' s' ans ->
  exists c1 r, execute_in_context {| p_actor := B "Context"; p_message := m; p_args := args |} c = (c1, r) /\ ~ is_ub r /\ ans = text_of r.
Proof.
  intros Hs R. destruct (runs_statement _ _ _ _ _ _ _ _ R) as (w1 & r & E & U & A & _). rewrite (run_context srt pw line m args _ Hs) in E.
  unfold in_ctx in E. cbn [w_ctx w_session] in E. destruct (execute_in_context _ c) as [c1 r1]. inversion E; subst. eauto.
Qed.
Lemma context_success srt pw c s line m args c' s' ans : sort_contract srt -> reachable srt pw c ->
  statement line (B "Context") m args -> runs srt pw c s line c' s' ans -> ~ error_answer ans -> effect pw c s (B "Context") m args c' s' ans.
Proof.
  intros Hsrt Hr Hs R N. destruct (in_dec bytes_dec m context_messages) as [I|I].
  2:{ exfalso. eapply not_run; [eapply C49_other_messages_to_Context_are_refused; eauto|apply err_message|exact R|exact N]. }
  unfold context_messages in I. repeat (destruct I as [<-|I]); [..|destruct I].
  - destruct (C25_listNamespaces srt pw c s line args Hsrt Hr Hs) as (names & I & L & O).
    apply no_arguments in Hs as ->; [|vm_compute; reflexivity..]. destruct (same_run _ _ _ _ _ _ _ _ _ O R) as (-> & -> & D). now apply eff_listNamespaces.
  - destruct (C25_listVariables srt pw c s line args Hsrt Hr Hs) as (names & I & L & O).
    apply no_arguments in Hs as ->; [|vm_compute; reflexivity..]. destruct (same_run _ _ _ _ _ _ _ _ _ O R) as (-> & -> & D). now apply eff_listVariables.
  - destruct (one_argument _ _ _ _ Hs) as (a & ->); [vm_compute; reflexivity..|]. destruct (namespace_dec a) as [V|V].
    + destruct (C25_listVariablesOfNamespace srt pw c s line a Hsrt Hr Hs V) as (names & I & L & O).
      destruct (same_run _ _ _ _ _ _ _ _ _ O R) as (-> & -> & D). now apply eff_listVariablesOf.
    + exfalso. eapply not_run; [eapply C25_bad_names; [exact Hs|tauto]|apply err_argument|exact R|exact N].
  - destruct (one_argument _ _ _ _ Hs) as (a & ->); [vm_compute; reflexivity..|]. destruct (variable_dec a) as [V|V].
    + destruct (classic (live c a)) as [L|L].
      * destruct (C25_deleteVariable srt pw c s line a Hsrt Hr Hs L) as (c1 & R1 & L1 & O1 & S1).
        destruct (runs_unique _ _ _ _ _ _ _ _ _ _ _ R1 R) as (<- & <- & <-). apply eff_delete; auto. now split.
      * exfalso. eapply not_run; [eapply C25_deleteVariable_of_an_unused_name; eauto|apply err_unknown_name|exact R|exact N].
    + exfalso. eapply not_run; [eapply C25_bad_names; [exact Hs|tauto]|apply err_argument|exact R|exact N].
  - destruct (one_argument _ _ _ _ Hs) as (a & ->); [vm_compute; reflexivity..|]. destruct (namespace_dec a) as [V|V].
    + destruct (C25_deleteVariablesOfNamespace srt pw c s line a Hs V) as (c1 & R1 & S1 & L1 & O1).
      destruct (runs_unique _ _ _ _ _ _ _ _ _ _ _ R1 R) as (<- & <- & <-). now apply eff_deleteOf.
    + exfalso. eapply not_run; [eapply C25_bad_names; [exact Hs|tauto]|apply err_argument|exact R|exact N].
  - destruct (C38_getFloatPrecision srt pw c s line args Hs) as (t & O & P).
    apply no_arguments in Hs as ->; [|vm_compute; reflexivity..]. destruct (same_run _ _ _ _ _ _ _ _ _ O R) as (-> & -> & D). now apply eff_getFloatPrecision.
  - destruct (one_argument _ _ _ _ Hs) as (a & ->); [vm_compute; reflexivity..|]. destruct (integer_of a) as [z|e|u] eqn:E.
    + apply literal_integer in E. destruct (Z.ltb_spec 0 z) as [Z|Z].
      * destruct (C38_setFloatPrecision srt pw c s line a z Hs E Z) as (c1 & R1 & P1 & T1 & L1).
        destruct (runs_unique _ _ _ _ _ _ _ _ _ _ _ R1 R) as (<- & <- & <-). eapply eff_setFloatPrecision; eauto.
      * exfalso. eapply not_run; [eapply C38_setFloatPrecision_refuses; [exact Hs|left; eauto]|apply err_argument|exact R|exact N].
    + exfalso. eapply not_run; [|apply (error_answer_exc e)|exact R|exact N]. eapply context_throws; [exact Hs|].
      change (op_setFloatPrecision [a] c = (c, Throw e)). unfold op_setFloatPrecision. mon. now rewrite E.
    + exfalso. destruct (context_outcome _ _ _ _ _ _ _ _ _ _ Hs R) as (c1 & r & X & U & _).
      change (op_setFloatPrecision [a] c = (c1, r)) in X. unfold op_setFloatPrecision in X. unfold bind, check_nargs, throw_if, arg, ret, lift in X. cbn in X. rewrite E in X. inversion X; subst. now apply U.
  - destruct (C38_getFloatComparisonTolerance srt pw c s line args Hs) as (t & O & P).
    apply no_arguments in Hs as ->; [|vm_compute; reflexivity..]. destruct (same_run _ _ _ _ _ _ _ _ _ O R) as (-> & -> & D). now apply eff_getFloatComparisonTolerance.
  - destruct (one_argument _ _ _ _ Hs) as (a & ->); [vm_compute; reflexivity..|]. destruct (is_float_value a) eqn:E.
    + assert (F : literal_of (B "Float") a (OFloat (to_float (atof a)))) by (apply literal_float; split; [now apply is_float_value_iff|reflexivity]).
      destruct (classic (below_zero (to_float (atof a)))) as [Z|Z].
      * exfalso. eapply not_run; [eapply C38_setFloatComparisonTolerance_refuses; [exact Hs|left; eauto]|apply err_argument|exact R|exact N].
      * destruct (C38_setFloatComparisonTolerance srt pw c s line a _ Hs F Z) as (c1 & R1 & P1 & T1 & L1).
        destruct (runs_unique _ _ _ _ _ _ _ _ _ _ _ R1 R) as (<- & <- & <-). eapply eff_setFloatComparisonTolerance; eauto.
    + exfalso. eapply not_run; [eapply C38_setFloatComparisonTolerance_refuses; [exact Hs|right]|apply err_argument|exact R|exact N].
      intros X. apply is_float_value_iff in X. congruence.
Qed.
Lemma connection_success srt pw c s line m args c' s' ans :
  statement line (B "Connection") m args -> runs srt pw c s line c' s' ans -> ~ error_answer ans -> effect pw c s (B "Connection") m args c' s' ans.
Proof.
  intros Hs R N. destruct s as [z|].
  2:{ exfalso. destruct (runs_statement _ _ _ _ _ _ _ _ R) as (w1 & r & E & U & _). rewrite (run_connection srt pw line m args _ Hs) in E.
      unfold in_session in E. cbn [w_session] in E. inversion E; subst. now apply U. }
  destruct (C49_connection_messages_are_complete pw line m args z Hs) as (z' & a & X).
  destruct (C49_connection_messages srt pw c z line m args z' a Hs X) as (c1 & R1 & L1 & S1).
  destruct (runs_unique _ _ _ _ _ _ _ _ _ _ _ R1 R) as (-> & <- & ->). clear R1.
  destruct X as [z|a z D|a v z D V|a z D|m args z M1 M2].
  - apply eff_close; [reflexivity|now split].
  - apply eff_authenticate; [reflexivity|exact D|now split].
  - exfalso. apply N, err_password.
  - exfalso. apply N, err_argument.
  - exfalso. apply N, err_message.
Qed.

Theorem C66_every_success_is_an_effect : forall srt pw c s line a m args c' s' ans,
  sort_contract srt -> reachable srt pw c -> statement line a m args ->
  runs srt pw c s line c' s' ans -> ~ error_answer ans ->
  effect pw c s a m args c' s' ans.
Proof.
  intros srt pw c s line a m args c' s' ans Hsrt Hr Hs R N. destruct (statement_actor _ _ _ _ Hs) as [->|[->|[T|V]]].
  - eapply connection_success; eauto.
  - eapply context_success; eauto.
  - eapply type_success; eauto.
  - destruct (lookup c a) as [i|] eqn:L.
    + destruct (succeeded srt pw c s line a m args i Hsrt Hr Hs L c' s' ans R N) as (i' & Hb & -> & O).
      eapply eff_message; eauto. eapply message_complete; eauto.
    + exfalso. destruct (C26_message_to_a_variable srt pw c s line a m args c' s' ans Hsrt Hr Hs V R) as (_ & _ & _ & _ & X).
      rewrite L in X. destruct X as [_ ->]. apply N, err_unknown_name.
Qed.

Lemma increasing_unique (l l' : list bytes) : increasing l -> increasing l' -> (forall n, In n l <-> In n l') -> l = l'.
Proof. intros H H' E. apply (sorted_unique precedes); auto. intros a b _ _. apply Proof_Order.precedes_asym. Qed.
Lemma answered srt pw c s line ans c' : only_answers srt pw c s line ans -> same_data c c' ->
  exists c'', runs srt pw c s line c'' s ans /\ same_data c' c''.
Proof.
  intros (c1 & R & L & S1 & S2) (L' & S1' & S2'). exists c1. split; [exact R|]. split; [|split; congruence]. intros n. now rewrite L, L'.
Qed.
Lemma changed srt pw c s line n ans i' c' : becomes srt pw c s line n ans i' -> only_changes c c' n (Some i') ->
  exists c'', runs srt pw c s line c'' s ans /\ same_data c' c''.
Proof.
  intros (c1 & R & L & O & S1 & S2) (L' & O' & S1' & S2'). exists c1. split; [exact R|]. split; [|split; congruence].
  intros x. destruct (bytes_dec x n) as [->|N]; [congruence|]. now rewrite O, O'.
Qed.
Lemma prints_int_unique z t t' : prints_int z t -> prints_int z t' -> t = t'.
Proof. intros H H'. apply prints_int_iff in H, H'. congruence. Qed.

Theorem C66_every_effect_happens : forall srt pw c s line a m args c' s' ans,
  sort_contract srt -> reachable srt pw c -> statement line a m args ->
  effect pw c s a m args c' s' ans -> (forall v, lookup c a = Some (IVector (B "Float") v) -> m <> B "sort") ->
  exists c'', runs srt pw c s line c'' s' ans /\ same_data c' c''.
Proof.
  intros srt pw c s line a m args c' s' ans Hsrt Hr Hs E Nf.
  destruct E as [n m args i i' ans c' L M O|t m args n i c' Cr L O|t m args n i c' Cr L M D|names c' I N D|names c' I N D|ns names c' V I N D
    |n c' L O|ns c' V S L O|c' ans P D|a z c' Iz Z L P T|c' ans P D|a f c' F Z L P T|z c' -> D|a z c' -> Dn D].
  - eapply changed; [|exact O]. eapply message_sound; eauto. intros v ->. eauto.
  - eapply changed; [|exact O]. eapply C24_create_on_a_free_name; eauto.
  - eapply answered; [|exact D]. eapply C24_createIfNotExists_on_a_used_name; eauto. destruct M as [M|[M|[]]]; auto.
  - eapply answered; [|exact D]. destruct (C25_listVariables srt pw c s line [] Hsrt Hr Hs) as (names' & I' & N' & O).
    rewrite (increasing_unique names names'); auto. intros n. now rewrite N, N'.
  - eapply answered; [|exact D]. destruct (C25_listNamespaces srt pw c s line [] Hsrt Hr Hs) as (names' & I' & N' & O).
    rewrite (increasing_unique names names'); auto. intros n. now rewrite N, N'.
  - eapply answered; [|exact D]. destruct (C25_listVariablesOfNamespace srt pw c s line ns Hsrt Hr Hs V) as (names' & I' & N' & O).
    rewrite (increasing_unique names names'); auto. intros n. now rewrite N, N'.
  - destruct (C25_deleteVariable srt pw c s line n Hsrt Hr Hs L) as (c1 & R & L1 & O1 & S1 & S2).
    destruct O as (L2 & O2 & S3 & S4). exists c1. split; [exact R|]. split; [|split; congruence].
    intros x. destruct (bytes_dec x n) as [->|X]; [congruence|]. now rewrite O1, O2.
  - destruct (C25_deleteVariablesOfNamespace srt pw c s line ns Hs V) as (c1 & R & [S1 S2] & L1 & O1).
    destruct S as [S3 S4]. exists c1. split; [exact R|]. split; [|split; congruence].
    intros x. destruct (classic (exists i, x = qualified ns i)) as [(i & ->)|X]; [now rewrite L, L1|].
    rewrite O, O1; [reflexivity|..]; intros i Hi; apply X; eauto.
  - eapply answered; [|exact D]. destruct (C38_getFloatPrecision srt pw c s line [] Hs) as (t & O & P').
    now rewrite (prints_int_unique _ _ _ P P').
  - destruct (C38_setFloatPrecision srt pw c s line a z Hs Iz Z) as (c1 & R & P1 & T1 & L1). exists c1. split; [exact R|].
    split; [intros n; now rewrite L, L1|split; congruence].
  - eapply answered; [|exact D]. destruct (C38_getFloatComparisonTolerance srt pw c s line [] Hs) as (t & O & P').
    now rewrite (prints_float_unique _ _ _ _ P P').
  - destruct (C38_setFloatComparisonTolerance srt pw c s line a f Hs F Z) as (c1 & R & P1 & T1 & L1). exists c1. split; [exact R|].
    split; [intros n; now rewrite L, L1|split; congruence].
  - destruct (C49_connection_messages srt pw c z line _ _ _ _ Hs (con_close pw z)) as (c1 & R & L & S1 & S2).
    destruct D as (L' & S3 & S4). exists c1. split; [exact R|]. split; [intros n; now rewrite L, L'|split; congruence].
  - destruct (C49_connection_messages srt pw c z line _ _ _ _ Hs (con_right pw a z Dn)) as (c1 & R & L & S1 & S2).
    destruct D as (L' & S3 & S4). exists c1. split; [exact R|]. split; [intros n; now rewrite L, L'|split; congruence].
Qed.

(** Sorting a vector of Floats: any arrangement the relation allows is as good as any other; one of them happens. *)
Theorem C66_float_vectors_are_sorted : forall srt pw c s line n v, sort_contract srt -> reachable srt pw c ->
  statement line n (B "sort") [] -> lookup c n = Some (IVector (B "Float") v) -> weak_order (tolerance c) v ->
  exists c' v', runs srt pw c s line c' s (B "null") /\ lookup c' n = Some (IVector (B "Float") v') /\
    effect pw c s n (B "sort") [] c' s (B "null").
Proof.
  intros srt pw c s line n v Hsrt Hr Hs Hl W.
  destruct (C16_sort_of_weakly_ordered_values srt pw c s line n _ v [] Hsrt Hr Hs Hl W) as (v' & (c' & R & L & O) & P & I).
  exists c', v'. split; [exact R|]. split; [exact L|]. eapply eff_message; [exact Hl| |split; [exact L|exact O]]. now apply msg_sort.
Qed.

Ltac texts E := repeat match goal with
  | H : prints_int _ _ |- _ => apply prints_int_iff in H; subst
  | H : shows_list _ _ _ |- _ => apply (shows_list_iff E) in H; subst
  | H : shows_set _ _ _ |- _ => apply (shows_set_iff E) in H; subst
  | H : shows_dictionary _ _ _ |- _ => apply (shows_dictionary_iff E) in H; subst
  | H : shows _ _ _ |- _ => apply (shows_iff E) in H; subst
  end.
Lemma text_truth b : success_text (truth b). Proof. destruct b; [exact (success_btext true)|exact (success_btext false)]. Qed.
Lemma text_string v : success_text (printed_string v). Proof. apply success_wrap; [reflexivity|discriminate]. Qed.
Lemma text_character x : success_text (printed_character x). Proof. apply (success_apos x). Qed.
Lemma text_listing l : success_text (listing l). Proof. apply success_bracket. Qed.
Ltac harmless := first [apply success_null|apply text_truth|apply text_string|apply text_character|apply text_listing|apply success_to_string
  |apply success_vector_representation|apply success_set_representation|apply success_dict_representation|apply success_obj_repr].
Lemma message_text (srt : sorter) c i m args i' ans : message_effect (float_precision c) (tolerance c) i m args i' ans -> success_text ans.
Proof.
  change (float_precision c) with (e_precision (env_of srt c)). intros H.
  destruct H as [x m args x' ans V|m Q ch b Hq Hb|t q l a b r Ho Ha Hop Hrel|o a z d r Hd Fd Er Fr|o a neg x z zd d res r Iv Hx Fz Vz Hd Hi Tr
    |o a neg x f d res g Hx Hd Hi Hn Sg|m args v v' ans V|t m args v v' ans V|t m args v v' ans V|t v v' W Pm Io
    |t v ans V|t v b Hb|t v ans V|t v a x b Hx U Hb|t v v' a x Hx U A|t v v' a x Hx U A|t v
    |kt vt d ans V|kt vt d b Hb|kt vt d ans V|kt vt d ans V|kt vt d ans V|kt vt d a k b Hk U Hb|kt vt d a k k' v ans Hk U Hin Heq Hsh
    |kt vt d a k Hk U F|kt vt d d' a b x k Hx Hk U A|kt vt d d' a k Hk U A|kt vt d]; texts (env_of srt c); try harmless;
    destruct V; texts (env_of srt c); harmless.
Qed.
Lemma effect_answers (srt : sorter) pw c s a m args c' s' ans : effect pw c s a m args c' s' ans -> ~ error_answer ans.
Proof.
  intros H X. apply error_answer_looks in X. revert X. apply success_not_error.
  destruct H as [n m args i i' ans c' L M O|t m args n i c' Cr L O|t m args n i c' Cr L M D|names c' I N D|names c' I N D|ns names c' V I N D
    |n c' L O|ns c' V S L O|c' ans P D|a z c' Iz Z L P T|c' ans P D|a f c' F Z L P T|z c' E D|a z c' E Dn D]; texts (env_of srt c); try harmless.
  - exact (message_text srt _ _ _ _ _ _ M).
  - rewrite (prints_float_unique _ _ _ _ P (fixed_repr_prints _ _)). apply success_fixed_repr.
Qed.

Theorem C66_succeeds_iff : forall srt pw c s line a m args,
  sort_contract srt -> reachable srt pw c -> statement line a m args ->
  ((exists c' s' ans, runs srt pw c s line c' s' ans /\ ~ error_answer ans) <-> (exists c' s' ans, effect pw c s a m args c' s' ans)).
Proof.
  intros srt pw c s line a m args Hsrt Hr Hs. split.
  - intros (c' & s' & ans & R & N). exists c', s', ans. eapply C66_every_success_is_an_effect; eauto.
  - intros (c' & s' & ans & E). assert (N := effect_answers srt _ _ _ _ _ _ _ _ _ E).
    destruct (classic (forall v, lookup c a = Some (IVector (B "Float") v) -> m <> B "sort")) as [F|F].
    + destruct (C66_every_effect_happens srt pw c s line a m args c' s' ans Hsrt Hr Hs E F) as (c1 & R & _). exists c1, s', ans. now split.
    + apply not_all_ex_not in F as (v & F). apply imply_to_and in F as [L M]. apply NNPP in M. subst m.
      assert (args = []) as -> by (eapply no_arguments; [exact Hs|vm_compute; reflexivity..]).
      assert (W : weak_order (tolerance c) v).
      { inversion E as [n0 m0 args0 i0 i1 ans0 c0 L0 M0 O0|t0 m0 args0 n0 i0 c0 Cr L0 O0|t0 m0 args0 n0 i0 c0 Cr L0 M0 D0| | | | | | | | | | | ]; subst.
        - rewrite L in L0. injection L0 as <-.
          inversion M0 as [| | | | | | |t1 m1 args1 v1 v2 ans1 V|t1 m1 args1 v1 v2 ans1 V| | | | | | | | | | | | | | | | | | | ]; subst; auto;
            exfalso; inversion V.
        - exfalso. apply creates_type, is_type_iff in Cr. rewrite variable_not_type in Cr; [discriminate Cr|]. eapply C25_live_names_are_variables; eauto. unfold live. congruence.
        - exfalso. apply creates_type, is_type_iff in Cr. rewrite variable_not_type in Cr; [discriminate Cr|]. eapply C25_live_names_are_variables; eauto. unfold live. congruence. }
      destruct (C66_float_vectors_are_sorted srt pw c s line a v Hsrt Hr Hs L W) as (c1 & v1 & R & _). exists c1, s, (B "null").
      split; [exact R|]. intros X. apply error_answer_looks in X. revert X. apply success_not_error, success_null.
Qed.
Theorem C66_effects_are_unique : forall srt pw c s line a m args c1 s1 ans1 c2 s2 ans2,
  sort_contract srt -> reachable srt pw c -> statement line a m args ->
  (forall v, lookup c a = Some (IVector (B "Float") v) -> m <> B "sort") ->
  effect pw c s a m args c1 s1 ans1 -> effect pw c s a m args c2 s2 ans2 -> ans1 = ans2 /\ s1 = s2 /\ same_data c1 c2.
Proof.
  intros srt pw c s line a m args c1 s1 ans1 c2 s2 ans2 Hsrt Hr Hs F E1 E2.
  destruct (C66_every_effect_happens srt pw c s line a m args _ _ _ Hsrt Hr Hs E1 F) as (c3 & R1 & L1 & S1 & T1).
  destruct (C66_every_effect_happens srt pw c s line a m args _ _ _ Hsrt Hr Hs E2 F) as (c4 & R2 & L2 & S2 & T2).
  destruct (runs_unique _ _ _ _ _ _ _ _ _ _ _ R1 R2) as (-> & -> & ->). split; [reflexivity|]. split; [reflexivity|].
  split; [|split; congruence]. intros n. now rewrite <- L2, L1.
Qed.

(** ** Whole servers *)
Lemma run_line srt pw c s line c' s' ans : sort_contract srt -> reachable srt pw c ->
  is_authenticated s = true \/ connection_line line -> runs srt pw c (Some s) line c' (Some s') ans ->
  line_effect pw c s line c' s' (if is_connected s' then Answered ans else Closed ans).
Proof.
  intros Hsrt Hr A R. destruct (classic (error_answer ans)) as [X|X].
  - destruct (C27_errors_change_nothing _ _ _ _ _ _ _ _ Hsrt Hr R (error_answer_looks _ X)) as (_ & D & E). injection E as ->.
    apply line_error; auto. intros (a & m & args & c1 & s1 & ans1 & Hs & Ef).
    destruct (proj2 (C66_succeeds_iff srt pw c (Some s) line a m args Hsrt Hr Hs)) as (c2 & s2 & ans2 & R2 & N2); [eauto|].
    destruct (runs_unique _ _ _ _ _ _ _ _ _ _ _ R R2) as (_ & _ & <-). contradiction.
  - destruct (statement_dec line) as [(a & m & args & Hs)|No].
    + eapply line_done; eauto. eapply C66_every_success_is_an_effect; eauto.
    + exfalso. apply X. rewrite (proj2 (C27_syntax_error_iff_not_a_statement _ _ _ _ _ _ _ _ Hsrt Hr R) No). err.
Qed.
Lemma processes_line srt pw c s line c' s' o : sort_contract srt -> reachable srt pw c ->
  processes srt pw c s line c' s' o -> line_effect pw c s line c' s' o /\ reachable srt pw c'.
Proof.
  intros Hsrt Hr H. destruct H as [A Cn|c' s' ans A R K|c' s' ans A R K].
  - split; [|assumption]. apply line_refused; auto. repeat split.
  - split; [|econstructor; eauto]. assert (Y := run_line _ _ _ _ _ _ _ _ Hsrt Hr A R). now rewrite K in Y.
  - split; [|econstructor; eauto]. assert (Y := run_line _ _ _ _ _ _ _ _ Hsrt Hr A R). now rewrite K in Y.
Qed.
Theorem C66_every_line_has_its_effect : forall srt pw c s line c' s' o,
  sort_contract srt -> reachable srt pw c ->
  processes srt pw c s line c' s' o -> line_effect pw c s line c' s' o.
Proof. intros. eapply processes_line; eauto. Qed.
Lemma serial_specified srt pw c ss h c' ss' : sort_contract srt -> reachable srt pw c ->
  serial srt pw c ss h c' ss' -> specified pw c ss h c' ss' /\ reachable srt pw c'.
Proof.
  intros Hsrt Hr. induction 1 as [|h c1 ss1 sid line c2 s2 o H (IH & R1) P]; [split; [constructor|assumption]|].
  destruct (processes_line _ _ _ _ _ _ _ _ Hsrt R1 P) as (E & R2). split; [|assumption]. econstructor; eauto.
Qed.
Theorem C66_every_schedule_follows_the_specification : forall srt pw c0 es, sort_contract srt -> reachable srt pw c0 ->
  sv_crash (run srt (start pw c0) es) = None ->
  exists h ss, explains srt pw c0 es h /\ specified pw c0 (fun _ => fresh pw) h (sv_ctx (run srt (start pw c0) es)) ss.
Proof.
  intros srt pw c0 es Hsrt Hr Hc. destruct (C35_every_schedule_is_serialisable srt pw c0 es Hc) as (h & X). assert (Y := X).
  destruct Y as (ss & S & _). exists h, ss. split; [exact X|]. eapply serial_specified; eauto.
Qed.
(** "x subtract: 12;" on a server that holds x = 5, a statement without an effect, and a schedule of two clients. *)
Example C66_ex :
  (reachable insertion_sort [] one_integer /\
   statement (B "x subtract: 12;") (B "x") (B "subtract:") [B "12"] /\
   exists c', runs insertion_sort [] one_integer None (B "x subtract: 12;") c' None (B "null") /\ lookup c' (B "x") = Some (IObj (OInt (-7))) /\
     effect [] one_integer None (B "x") (B "subtract:") [B "12"] c' None (B "null")) /\
  (statement (B "x subtract: true;") (B "x") (B "subtract:") [B "true"] /\ ~ has_effect [] one_integer None (B "x subtract: true;")) /\
  (reachable insertion_sort [] empty_server /\
   sv_crash (run insertion_sort (start [] empty_server) two_clients) = None).
Proof.
  assert (Hr := one_integer_reachable).
  assert (Hs : statement (B "x subtract: 12;") (B "x") (B "subtract:") [B "12"]) by stmt.
  assert (Hs' : statement (B "x subtract: true;") (B "x") (B "subtract:") [B "true"]) by stmt.
  split; [|split].
  - split; [exact Hr|]. split; [exact Hs|].
    assert (R : exists c', runs insertion_sort [] one_integer None (B "x subtract: 12;") c' None (B "null") /\ lookup c' (B "x") = Some (IObj (OInt (-7)))).
    { eexists. split; [unfold runs; vm_compute; reflexivity|vm_compute; reflexivity]. }
    destruct R as (c' & R & L). exists c'. split; [exact R|]. split; [exact L|].
    eapply C66_every_success_is_an_effect; eauto; [apply C16_a_sort_exists|].
    intros X. apply error_answer_looks in X. revert X. apply success_not_error, success_null.
  - split; [exact Hs'|]. intros (a & m & args & c' & s' & ans & Hst & E).
    destruct (statement_unique _ _ _ _ _ _ _ Hs' Hst) as (<- & <- & <-).
    destruct (proj2 (C66_succeeds_iff insertion_sort [] one_integer None _ _ _ _ C16_a_sort_exists Hr Hs')) as (c1 & s1 & a1 & R & N); [eauto|].
    assert (X : exists c2, runs insertion_sort [] one_integer None (B "x subtract: true;") c2 None ERR_ARGUMENT).
    { eexists. unfold runs. vm_compute. reflexivity. }
    destruct X as (c2 & R2). destruct (runs_unique _ _ _ _ _ _ _ _ _ _ _ R R2) as (_ & _ & ->). apply N, err_argument.
  - split; [constructor; vm_compute; reflexivity|]. vm_compute; reflexivity.
Qed.

Print Assumptions C66_every_success_is_an_effect.
Print Assumptions C66_every_effect_happens.
Print Assumptions C66_float_vectors_are_sorted.
Print Assumptions C66_succeeds_iff.
Print Assumptions C66_effects_are_unique.
Print Assumptions C66_every_line_has_its_effect.
Print Assumptions C66_every_schedule_follows_the_specification.
