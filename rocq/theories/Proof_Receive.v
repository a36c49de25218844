(** Every message of every instance: typing is preserved, failures leave the value unchanged, only some failures and
    some undefined behaviours are possible, answers have a recognisable shape, no newline appears from nowhere. *)
From Verif Require Import Bytes StrUtils Grammar Outcome Parser Num Containers Instance Context.
From Verif Require Import Lemmas StringLit Proof_Grammar Proof_Parser Proof_Exec WP Proof_Inv.
From Verif Require Import Spec_Grammar Spec_State.
From Coq Require Import Sorting.Sorted Permutation ZifyBool.
Open Scope Z_scope.

Lemma zlen_nonneg {A} (l : list A) : 0 <= zlen l. Proof. unfold zlen. lia. Qed.

(** ** checked primitives inside their ranges *)
Lemma str_at_ok nl s i : clean nl s -> 0 <= i <= zlen s -> exists c, str_at s i = Ok c /\ cln nl c.
Proof.
  intros Hc H. unfold str_at. replace ((i <? 0) || (zlen s <? i)) with false by (unfold zlen in *; lia).
  eexists. split; [reflexivity|]. now apply clean_nth.
Qed.
Lemma str_substr_ok nl s p n : clean nl s -> 0 <= p <= zlen s -> exists r, str_substr s p n = Ok r /\ clean nl r.
Proof.
  intros Hc H. unfold str_substr. replace ((p <? 0) || (zlen s <? p)) with false by (unfold zlen in *; lia).
  destruct (n <? 0); eexists; (split; [reflexivity|]); [|apply clean_firstn]; now apply clean_skipn.
Qed.
Lemma str_substr_from_ok nl s p : clean nl s -> 0 <= p <= zlen s -> exists r, str_substr_from s p = Ok r /\ clean nl r.
Proof.
  intros Hc H. unfold str_substr_from. replace ((p <? 0) || (zlen s <? p)) with false by (unfold zlen in *; lia).
  eexists; (split; [reflexivity|]). now apply clean_skipn.
Qed.
Lemma str_erase_from_ok nl s p : clean nl s -> 0 <= p <= zlen s -> exists r, str_erase_from s p = Ok r /\ clean nl r.
Proof.
  intros Hc H. unfold str_erase_from. replace ((p <? 0) || (zlen s <? p)) with false by (unfold zlen in *; lia).
  eexists; (split; [reflexivity|]). now apply clean_firstn.
Qed.
Lemma str_erase_ok nl s p n : clean nl s -> 0 <= p <= zlen s -> exists r, str_erase s p n = Ok r /\ clean nl r.
Proof.
  intros Hc H. unfold str_erase. replace ((p <? 0) || (zlen s <? p)) with false by (unfold zlen in *; lia).
  destruct (n <? 0); eexists; (split; [reflexivity|]); [now apply clean_firstn|].
  apply clean_app. split; [now apply clean_firstn|now apply clean_skipn].
Qed.
Lemma str_insert_ok nl s p t : clean nl s -> clean nl t -> 0 <= p <= zlen s -> exists r, str_insert s p t = Ok r /\ clean nl r.
Proof.
  intros Hc Ht H. unfold str_insert. replace ((p <? 0) || (zlen s <? p)) with false by (unfold zlen in *; lia).
  eexists; (split; [reflexivity|]). rewrite !clean_app. repeat split; auto; [now apply clean_firstn|now apply clean_skipn].
Qed.
Lemma vec_at_ok {A} (P : A -> Prop) v i : Forall P v -> 0 <= i < zlen v -> exists x, vec_at v i = Ok x /\ P x.
Proof.
  intros Hv H. unfold vec_at. replace (i <? 0) with false by lia.
  destruct (nth_error v (Z.to_nat i)) as [x|] eqn:E.
  - exists x. split; [reflexivity|]. rewrite Forall_forall in Hv. apply Hv. eapply nth_error_In; eauto.
  - apply nth_error_None in E. unfold zlen in H. lia.
Qed.
Lemma vec_set_ok {A} (P : A -> Prop) v i x : Forall P v -> P x -> 0 <= i < zlen v -> exists r, vec_set v i x = Ok r /\ Forall P r.
Proof.
  intros Hv Hx H. unfold vec_set. replace ((i <? 0) || (zlen v <=? i)) with false by lia.
  eexists. split; [reflexivity|]. apply Forall_app. split; [now apply Forall_firstn|].
  constructor; [exact Hx|]. now apply Forall_skipn.
Qed.
Lemma vec_range_ok {A} (P : A -> Prop) v a b : Forall P v -> 0 <= a <= b /\ b <= zlen v -> exists r, vec_range v a b = Ok r /\ Forall P r /\ zlen r = b - a.
Proof.
  intros Hv H. unfold vec_range. replace ((a <? 0) || (b <? a) || (zlen v <? b)) with false by lia.
  eexists. split; [reflexivity|]. split; [now apply Forall_firstn, Forall_skipn|].
  unfold zlen in *. rewrite firstn_length, skipn_length. lia.
Qed.
Lemma vec_erase_at_ok {A} (P : A -> Prop) v i : Forall P v -> 0 <= i < zlen v -> exists r, vec_erase_at v i = Ok r /\ Forall P r.
Proof.
  intros Hv H. unfold vec_erase_at. replace ((i <? 0) || (zlen v <=? i)) with false by lia.
  eexists. split; [reflexivity|]. apply Forall_app. split; [now apply Forall_firstn|now apply Forall_skipn].
Qed.
Lemma vec_erase_range_ok {A} (P : A -> Prop) v a b : Forall P v -> 0 <= a <= b /\ b <= zlen v -> exists r, vec_erase_range v a b = Ok r /\ Forall P r.
Proof.
  intros Hv H. unfold vec_erase_range. replace ((a <? 0) || (b <? a) || (zlen v <? b)) with false by lia.
  eexists. split; [reflexivity|]. apply Forall_app. split; [now apply Forall_firstn|now apply Forall_skipn].
Qed.
Lemma vec_insert_ok {A} (P : A -> Prop) v i x : Forall P v -> P x -> 0 <= i <= zlen v -> exists r, vec_insert v i x = Ok r /\ Forall P r.
Proof.
  intros Hv Hx H. unfold vec_insert. replace ((i <? 0) || (zlen v <? i)) with false by lia.
  eexists. split; [reflexivity|]. apply Forall_app. split; [now apply Forall_firstn|].
  constructor; [exact Hx|now apply Forall_skipn].
Qed.
Lemma vec_pop_back_ok {A} (P : A -> Prop) (v : list A) : Forall P v -> zlen v <> 0 -> exists r, vec_pop_back v = Ok r /\ Forall P r.
Proof.
  intros Hv H. destruct v as [|x v]; [now cbn in H|]. eexists. split; [reflexivity|].
  rewrite removelast_firstn_len. now apply Forall_firstn.
Qed.

(** ** comparators *)
Definition comparable (a b : obj) : Prop :=
  match a, b with
  | OBool _, OBool _ | OChar _, OChar _ | OStr _, OStr _ => True
  | OInt _, OInt _ | OInt _, OFloat _ | OFloat _, OInt _ | OFloat _, OFloat _ => True
  | _, _ => False
  end.
Lemma same_type_comparable t a b : has_type t a -> has_type t b -> comparable a b.
Proof. destruct a, b; cbn; auto; intros -> H; discriminate. Qed.
Definition cmp_total (cmp : obj -> obj -> res bool) : Prop := forall a b, comparable a b -> exists r, cmp a b = Ok r.
Lemma is_less_than_total eps : cmp_total (is_less_than eps).
Proof. intros [] []; cbn; intros H; try contradiction; eauto. Qed.
Lemma is_greater_than_total eps : cmp_total (is_greater_than eps).
Proof. intros [] []; cbn; intros H; try contradiction; eauto. Qed.
Lemma is_equal_to_total eps : cmp_total (is_equal_to eps).
Proof.
  intros a b H. unfold is_equal_to. destruct (is_less_than_total eps a b H) as [l ->]. cbn.
  destruct (is_greater_than_total eps a b H) as [g ->]. destruct l; cbn; eauto.
Qed.
Lemma is_less_than_or_equal_to_total eps : cmp_total (is_less_than_or_equal_to eps).
Proof.
  intros a b H. unfold is_less_than_or_equal_to. destruct (is_less_than_total eps a b H) as [l ->]. cbn.
  destruct l; eauto. now apply is_equal_to_total.
Qed.
Lemma is_greater_than_or_equal_to_total eps : cmp_total (is_greater_than_or_equal_to eps).
Proof.
  intros a b H. unfold is_greater_than_or_equal_to. destruct (is_greater_than_total eps a b H) as [l ->]. cbn.
  destruct l; eauto. now apply is_equal_to_total.
Qed.

(** ** strict weak orders *)
Lemma ltb_true {A} (lt : A -> A -> option bool) a b : ltb lt a b = true <-> lt a b = Some true.
Proof. unfold ltb. destruct (lt a b) as [[]|]; split; congruence. Qed.
Lemma ltb_false {A} (lt : A -> A -> option bool) a b : ltb lt a b = false <-> lt a b <> Some true.
Proof. unfold ltb. destruct (lt a b) as [[]|]; split; congruence. Qed.
Lemma incomparable_true {A} (lt : A -> A -> option bool) a b :
  incomparable lt a b = true <-> lt a b <> Some true /\ lt b a <> Some true.
Proof. unfold incomparable. rewrite andb_true_iff, !negb_true_iff, !ltb_false. tauto. Qed.
Lemma swo_iff lt l : strict_weak_order_on lt l = true <-> strict_weak_order lt l.
Proof.
  unfold strict_weak_order_on, strict_weak_order, defined_on. rewrite !andb_true_iff, !forallb_forall.
  assert (D : (forall x, In x l -> forallb (fun b => match lt x b with Some _ => true | None => false end) l = true) <->
              (forall a b, In a l -> In b l -> lt a b <> None)).
  { split.
    - intros H a b Ha Hb. specialize (H a Ha). rewrite forallb_forall in H. specialize (H b Hb). destruct (lt a b); congruence.
    - intros H a Ha. apply forallb_forall. intros b Hb. specialize (H a b Ha Hb). destruct (lt a b); congruence. }
  assert (R : (forall x, In x l -> negb (ltb lt x x) = true) <-> (forall a, In a l -> lt a a <> Some true)).
  { split; intros H a Ha; specialize (H a Ha); [rewrite negb_true_iff, ltb_false in H|rewrite negb_true_iff, ltb_false]; auto. }
  rewrite D, R. clear D R. split.
  - intros ((H1 & H2) & H3). split; [exact H1|]. split; [exact H2|].
    assert (K : forall a b c, In a l -> In b l -> In c l ->
      implb (ltb lt a b && ltb lt b c) (ltb lt a c) && implb (incomparable lt a b && incomparable lt b c) (incomparable lt a c) = true).
    { intros a b c Ha Hb Hc. specialize (H3 a Ha). rewrite forallb_forall in H3. specialize (H3 b Hb).
      rewrite forallb_forall in H3. exact (H3 c Hc). }
    split; intros a b c Ha Hb Hc; specialize (K a b c Ha Hb Hc); apply andb_prop in K as [K1 K2].
    + intros E1 E2. rewrite <- ltb_true in *. now rewrite E1, E2 in K1.
    + intros E1 E2 E3 E4. rewrite <- incomparable_true.
      assert (incomparable lt a b = true) as I1 by now apply incomparable_true.
      assert (incomparable lt b c = true) as I2 by now apply incomparable_true. now rewrite I1, I2 in K2.
  - intros (H1 & H2 & H3 & H4). split; [split; assumption|]. intros a Ha. apply forallb_forall. intros b Hb.
    apply forallb_forall. intros c Hc. apply andb_true_iff. split.
    + destruct (ltb lt a b) eqn:E1; [|reflexivity]. destruct (ltb lt b c) eqn:E2; [|reflexivity]. cbn. rewrite ltb_true in *. eauto.
    + destruct (incomparable lt a b) eqn:E1; [|reflexivity]. destruct (incomparable lt b c) eqn:E2; [|reflexivity]. cbn.
      rewrite incomparable_true in *. destruct E1, E2. eauto.
Qed.

(** ** the postcondition of operations *)
Section Post.
Context (nl : bool).
Definition op_exc (n : nat) (args : list str) (e : exc) : Prop :=
  e = InvalidArgument \/ (e = WrongNumberOfArguments /\ length args <> n).
Definition opg {S} (inv : S -> Prop) (n : nat) (args : list str) (s s' : S) (r : res str) : Prop :=
  inv s' /\ match r with Ok a => answer_ok nl a | Throw e => s' = s /\ op_exc n args e | UB u => ok_ub u end.

Definition count_delims (s : str) : nat := length (filter is_kw_delim s).
Definition single_q (msg : str) : Prop := exists i, identifier i /\ msg = (i ++ B "?")%list.
Definition nargs_excuse (msg : str) (args : list str) : Prop := length args <> count_delims msg \/ single_q msg.
Definition msg_exc (msg : str) (args : list str) (e : exc) : Prop :=
  e = InvalidArgument \/ e = InvalidMessage \/ (e = WrongNumberOfArguments /\ nargs_excuse msg args).
Definition msgg {S} (inv : S -> Prop) (msg : str) (args : list str) (s s' : S) (r : res str) : Prop :=
  inv s' /\ match r with Ok a => answer_ok nl a | Throw e => s' = s /\ msg_exc msg args e | UB u => ok_ub u end.

Lemma dispatch_good {S} (inv : S -> Prop) table msg args (s : S) :
  inv s ->
  Forall (fun p => exists n, (n = count_delims (fst p) \/ single_q (fst p)) /\ wp (snd p args) s (opg inv n args s)) table ->
  wp (dispatch table msg args) s (msgg inv msg args s).
Proof.
  intros Hi H. induction H as [|[name op] table (n & Hn & Hop) Ht IH]; cbn [dispatch].
  - apply wp_throw. split; auto. split; auto. right. now left.
  - destruct (seq_eqb msg name) eqn:E; [|exact IH]. apply seq_eqb_eq in E. subst name. cbn [fst snd] in *.
    eapply wp_consequence; [exact Hop|]. intros s' [a|e|u] [H1 H2]; split; auto.
    destruct H2 as [-> [->|[-> H2]]]; split; auto; [now left|]. right. right. split; auto.
    unfold nargs_excuse. destruct Hn as [->|Hn]; auto.
Qed.
End Post.

Lemma single_q_by_bool s : (match rev s with c :: r => ceq c c_qmark && is_identifier (rev r) | [] => false end) = true -> single_q s.
Proof.
  destruct (rev s) as [|c r] eqn:E; [discriminate|]. intros H. apply andb_prop in H as [H1 H2].
  apply ceq_eq in H1. subst c. apply is_identifier_iff in H2. exists (rev r). split; auto.
  rewrite <- (rev_involutive s), E. reflexivity.
Qed.

Lemma in_clean nl args a : Forall (clean nl) args -> In a args -> clean nl a.
Proof. intros H. rewrite Forall_forall in H. auto. Qed.
Lemma char_clean nl a c : clean nl a -> is_character_value a = true -> str_at a 1 = Ok c -> cln nl c.
Proof.
  intros Ha Hc E. destruct (str_at_character a Hc) as (c' & E' & ->). rewrite E in E'. inversion E'; subst.
  apply clean_cons in Ha as [_ Ha]. now apply clean_cons in Ha.
Qed.
Lemma char_at_cases a : is_character_value a = true -> exists c, str_at a 1 = Ok c.
Proof. intros H. destruct (str_at_character a H) as (c & E & _). eauto. Qed.
Lemma character_of_ok a : is_character_value a = true -> exists c, character_of a = Ok c.
Proof. intros H. unfold character_of. rewrite H. now apply char_at_cases. Qed.
Lemma float_of_ok a : is_float_value a = true -> float_of a = Ok (to_float (atof a)).
Proof. intros H. unfold float_of. now rewrite H. Qed.
Lemma unquote_clean nl a : clean nl a -> is_string_value a = true -> exists s, unquote a = Ok s /\ clean nl s.
Proof.
  intros Ha H. assert (X := string_of_cases nl a Ha). unfold string_of in X. rewrite H in X. cbn [negb] in X.
  destruct (unquote_ok a H) as (b & _ & E). rewrite E in *. eauto.
Qed.
Lemma string_of_ok nl a : clean nl a -> is_string_value a = true -> exists s, string_of a = Ok s /\ clean nl s.
Proof. intros Ha H. unfold string_of. rewrite H. now apply unquote_clean. Qed.

Global Hint Resolve success_btext success_null success_to_string success_fixed_repr success_quoted success_apos
  success_obj_repr success_vector_representation success_set_representation success_dict_representation
  success_bracket : ans.
Global Hint Resolve clean_btext clean_to_string clean_fixed_repr clean_quoted clean_apos clean_obj_repr
  clean_vector_representation clean_set_representation clean_dict_representation : ans.
Lemma answer_null nl : answer_ok nl null.
Proof. split; [apply success_null|apply clean_lit; reflexivity]. Qed.
Global Hint Resolve answer_null : ans.


Lemma negb_false_r b : negb b = false -> b = true. Proof. now destruct b. Qed.
Lemma nn_false_r a b : negb a && negb b = false -> a = true \/ b = true. Proof. destruct a, b; auto. Qed.

Definition good (nl : bool) (et : str) (x : obj) : Prop := has_type et x /\ obj_clean nl x /\ from_literal x.
Definition goodp (nl : bool) (kt vt : str) (p : obj * obj) : Prop := good nl kt (fst p) /\ good nl vt (snd p).

(** ** symbolic execution *)
Ltac clean_args nl := repeat match goal with
  | H : Forall (clean nl) ?args, J : In ?a ?args |- _ =>
      lazymatch goal with K : clean nl a |- _ => fail | _ => pose proof (in_clean nl args a H J) end
  end.
Ltac bools := repeat match goal with
  | H : negb (_ _) = false |- _ => apply negb_false_r in H
  | H : negb (_ _) && negb (_ _) = false |- _ => apply nn_false_r in H
  end.
Ltac lifted X := apply wp_lift; destruct X as [?|?|?] eqn:?; intros ? <-; cbv beta iota in *; [|subst|].
Ltac wpn := lazymatch goal with |- wp (lift _) _ _ => fail | _ => wp_step end.
Ltac lift_step nl :=
  lazymatch goal with
  | |- wp (lift (integer_of ?a)) _ _ => let X := fresh "X" in pose proof (integer_of_cases a) as X; lifted (integer_of a)
  | |- wp (lift (let! d := number_of ?a in double_to_int d)) _ _ =>
      let X := fresh "X" in pose proof (number_int_ub a) as X; lifted (let! d := number_of a in double_to_int d); [|contradiction|]
  | Ht : object_type ?t |- wp (lift (get_shared_instance ?t ?a)) _ _ =>
      let X := fresh "X" in assert (X := get_shared_instance_cases nl t a Ht ltac:(assumption)); lifted (get_shared_instance t a)
  | H : is_character_value ?a = true, Hc : clean nl ?a |- wp (lift (str_at ?a 1)) _ _ =>
      let E := fresh "E" in let c := fresh "c" in let Hcl := fresh "Hcl" in
      destruct (char_at_cases a H) as [c E]; assert (Hcl := char_clean nl a c Hc H E); rewrite E; apply wp_lift; intros ? <-
  | |- wp (lift (str_at _ _)) _ _ =>
      edestruct (str_at_ok nl) as (? & -> & ?); [eassumption| |apply wp_lift; intros ? <-]; [try lia|]
  | |- wp (lift (str_substr _ _ _)) _ _ =>
      edestruct (str_substr_ok nl) as (? & -> & ?); [eassumption| |apply wp_lift; intros ? <-]; [try lia|]
  | |- wp (lift (str_substr_from _ _)) _ _ =>
      edestruct (str_substr_from_ok nl) as (? & -> & ?); [eassumption| |apply wp_lift; intros ? <-]; [try lia|]
  | |- wp (lift (str_erase_from _ _)) _ _ =>
      edestruct (str_erase_from_ok nl) as (? & -> & ?); [eassumption| |apply wp_lift; intros ? <-]; [try lia|]
  | |- wp (lift (str_erase _ _ _)) _ _ =>
      edestruct (str_erase_ok nl) as (? & -> & ?); [eassumption| |apply wp_lift; intros ? <-]; [try lia|]
  | |- wp (lift (str_insert _ _ _)) _ _ =>
      edestruct (str_insert_ok nl) as (? & -> & ?); [eassumption|eassumption| |apply wp_lift; intros ? <-]; [try lia|]
  | H : is_string_value ?a = true, Hc : clean nl ?a |- wp (lift (string_of ?a)) _ _ =>
      destruct (string_of_ok nl a Hc H) as (? & -> & ?); apply wp_lift; intros ? <-
  | H : is_string_value ?a = true, Hc : clean nl ?a |- wp (lift (unquote ?a)) _ _ =>
      destruct (unquote_clean nl a Hc H) as (? & -> & ?); apply wp_lift; intros ? <-
  | |- wp (lift (vec_at _ _)) _ _ =>
      edestruct @vec_at_ok as (? & -> & ?); [eassumption| |apply wp_lift; intros ? <-]; [try lia|]
  | |- wp (lift (vec_set _ _ _)) _ _ =>
      edestruct @vec_set_ok as (? & -> & ?); [eassumption|eassumption| |apply wp_lift; intros ? <-]; [try lia|]
  | |- wp (lift (vec_range _ _ _)) _ _ =>
      edestruct @vec_range_ok as (? & -> & ? & ?); [eassumption| |apply wp_lift; intros ? <-]; [try lia|]
  | |- wp (lift (vec_erase_at _ _)) _ _ =>
      edestruct @vec_erase_at_ok as (? & -> & ?); [eassumption| |apply wp_lift; intros ? <-]; [try lia|]
  | |- wp (lift (vec_erase_range _ _ _)) _ _ =>
      edestruct @vec_erase_range_ok as (? & -> & ?); [eassumption| |apply wp_lift; intros ? <-]; [try lia|]
  | |- wp (lift (vec_insert _ _ _)) _ _ =>
      edestruct @vec_insert_ok as (? & -> & ?); [eassumption|eassumption| |apply wp_lift; intros ? <-]; [try lia|]
  | |- wp (lift (vec_pop_back _)) _ _ =>
      edestruct @vec_pop_back_ok as (? & -> & ?); [eassumption| |apply wp_lift; intros ? <-]; [try lia|]
  end; cbv beta iota zeta.
Ltac fin := match goal with
  | |- opg _ _ _ _ _ _ (Throw _) =>
      split; [first [assumption|exact I]|]; split; [reflexivity|]; first [left; reflexivity | left; assumption | right; split; [reflexivity|lia]]
  | |- opg _ _ _ _ _ _ (UB _) => split; [first [assumption|exact I]|]; first [left; assumption | right; reflexivity]
  | |- opg _ _ _ _ _ _ (Ok _) => split; [first [assumption|exact I|now constructor|idtac]|first [apply answer_null | split; auto with ans; fail | idtac]]
  end.
Ltac crush nl :=
  repeat (first [ lift_step nl | lazymatch goal with |- wp (lift _) _ _ => fail | _ => wp_step end ]; bools; clean_args nl); try fin.

Section Ops.
Context (nl : bool) (E : env).
Notation eps := (e_tolerance E).
Notation T := (fun _ => True).
Notation Zok := (fun z => in_int z = true).
Notation Fok := (fun f => exists x, f = to_float x).
Ltac qm := right; apply single_q_by_bool; reflexivity.
Ltac row n tac := exists n; split; [first [now left|qm]|tac].

(** ** Boolean *)
Lemma boolean_good msg args s : Forall (clean nl) args -> wp (boolean_receive msg args) s (msgg nl T msg args s).
Proof.
  intros Ha. apply dispatch_good; [exact I|]. repeat apply Forall_cons; try apply Forall_nil; cbn [fst snd].
  - row 0%nat ltac:(unfold boolean_get; crush nl).
  - row 1%nat ltac:(unfold boolean_set; crush nl).
  - row 0%nat ltac:(unfold boolean_isTrue; crush nl).
  - row 0%nat ltac:(unfold boolean_isFalse; crush nl).
Qed.

(** ** Character *)
Lemma character_test_good p args c : cln nl c -> wp (character_test p args) c (opg nl (cln nl) 0 args c).
Proof. intros Hc. unfold character_test. crush nl. Qed.
Lemma character_compare_good cmp args c : cmp_total cmp -> cln nl c -> Forall (clean nl) args ->
  wp (character_compare cmp args) c (opg nl (cln nl) 1 args c).
Proof.
  intros Ht Hc Ha. unfold character_compare. crush nl.
  destruct (character_of_ok a ltac:(assumption)) as [c' E']. rewrite E'. cbn [rbind].
  destruct (Ht (OChar c) (OChar c')) as [b ->]; [exact I|]. apply wp_lift; intros ? <-. crush nl.
Qed.
Lemma character_good msg args c : cln nl c -> Forall (clean nl) args ->
  wp (character_receive E msg args) c (msgg nl (cln nl) msg args c).
Proof.
  intros Hc Ha. apply dispatch_good; [exact Hc|]. repeat apply Forall_cons; try apply Forall_nil; cbn [fst snd].
  - row 0%nat ltac:(unfold character_get; crush nl).
  - row 1%nat ltac:(unfold character_set; crush nl).
  - row 0%nat ltac:(now apply character_test_good).
  - row 0%nat ltac:(now apply character_test_good).
  - row 0%nat ltac:(now apply character_test_good).
  - row 0%nat ltac:(now apply character_test_good).
  - row 1%nat ltac:(apply character_compare_good; auto using is_equal_to_total).
  - row 1%nat ltac:(apply character_compare_good; auto using is_less_than_total).
  - row 1%nat ltac:(apply character_compare_good; auto using is_less_than_or_equal_to_total).
  - row 1%nat ltac:(apply character_compare_good; auto using is_greater_than_total).
  - row 1%nat ltac:(apply character_compare_good; auto using is_greater_than_or_equal_to_total).
Qed.

(** ** Integer *)
Lemma integer_compare_good cmp args z : cmp_total cmp -> Zok z -> wp (integer_compare cmp args) z (opg nl Zok 1 args z).
Proof.
  intros Ht Hz. unfold integer_compare. crush nl. destruct (is_integer_value a) eqn:Ei.
  - assert (X := integer_of_cases a). destruct (integer_of a) as [o|e'|u']; cbn [rbind].
    + destruct (Ht (OInt z) (OInt o)) as [b ->]; [exact I|]. apply wp_lift; intros ? <-. crush nl.
    + apply wp_lift; intros ? <-. fin.
    + apply wp_lift; intros ? <-. fin.
  - assert (Hf : is_float_value a = true) by intuition congruence.
    rewrite float_of_ok by auto. cbn [rbind]. destruct (Ht (OInt z) (OFloat (to_float (atof a)))) as [b ->]; [exact I|].
    apply wp_lift; intros ? <-. crush nl.
Qed.
Lemma integer_arith_good op args z : Zok z -> wp (integer_arith op args) z (opg nl Zok 1 args z).
Proof.
  intros Hz. unfold integer_arith. crush nl.
  assert (X := number_of_ub a). destruct (number_of a) as [d|e'|u']; cbn [rbind]; [|contradiction|].
  - assert (Y := double_to_int_ub (op (int_to_double z) d)).
    apply wp_lift. destruct (double_to_int (op (int_to_double z) d)); intros ? <-; [|contradiction|]; crush nl.
  - apply wp_lift; intros ? <-. fin.
Qed.
Lemma integer_good msg args z : Zok z -> Forall (clean nl) args -> wp (integer_receive E msg args) z (msgg nl Zok msg args z).
Proof.
  intros Hz Ha. apply dispatch_good; [exact Hz|]. repeat apply Forall_cons; try apply Forall_nil; cbn [fst snd].
  - row 0%nat ltac:(unfold integer_get; crush nl).
  - row 1%nat ltac:(unfold integer_set; crush nl).
  - row 1%nat ltac:(apply integer_compare_good; auto using is_equal_to_total).
  - row 1%nat ltac:(apply integer_compare_good; auto using is_less_than_total).
  - row 1%nat ltac:(apply integer_compare_good; auto using is_less_than_or_equal_to_total).
  - row 1%nat ltac:(apply integer_compare_good; auto using is_greater_than_total).
  - row 1%nat ltac:(apply integer_compare_good; auto using is_greater_than_or_equal_to_total).
  - row 1%nat ltac:(now apply integer_arith_good).
  - row 1%nat ltac:(now apply integer_arith_good).
  - row 1%nat ltac:(now apply integer_arith_good).
  - row 1%nat ltac:(now apply integer_arith_good).
Qed.

(** ** Float *)
Lemma float_compare_good cmp args f : cmp_total cmp -> Fok f -> wp (float_compare cmp args) f (opg nl Fok 1 args f).
Proof.
  intros Ht Hf. unfold float_compare. crush nl. rewrite float_of_ok by auto. cbn [rbind].
  destruct (Ht (OFloat f) (OFloat (to_float (atof a)))) as [b ->]; [exact I|]. apply wp_lift; intros ? <-. crush nl.
Qed.
Lemma float_arith_good op args f : Fok f -> wp (float_arith op args) f (opg nl Fok 1 args f).
Proof. intros Hf. unfold float_arith. crush nl. eauto. Qed.
Lemma float_good msg args f : Fok f -> Forall (clean nl) args -> wp (float_receive E msg args) f (msgg nl Fok msg args f).
Proof.
  intros Hf Ha. apply dispatch_good; [exact Hf|]. repeat apply Forall_cons; try apply Forall_nil; cbn [fst snd].
  - row 0%nat ltac:(unfold float_get; crush nl).
  - row 1%nat ltac:(unfold float_set; crush nl). eauto.
  - row 1%nat ltac:(apply float_compare_good; auto using is_equal_to_total).
  - row 1%nat ltac:(apply float_compare_good; auto using is_less_than_total).
  - row 1%nat ltac:(apply float_compare_good; auto using is_less_than_or_equal_to_total).
  - row 1%nat ltac:(apply float_compare_good; auto using is_greater_than_total).
  - row 1%nat ltac:(apply float_compare_good; auto using is_greater_than_or_equal_to_total).
  - row 1%nat ltac:(now apply float_arith_good).
  - row 1%nat ltac:(now apply float_arith_good).
  - row 1%nat ltac:(now apply float_arith_good).
  - row 1%nat ltac:(now apply float_arith_good).
Qed.

(** ** String *)
Lemma string_affix_good p args s : clean nl s -> Forall (clean nl) args -> wp (string_affix p args) s (opg nl (clean nl) 1 args s).
Proof. intros Hs Ha. unfold string_affix. crush nl. Qed.
Lemma string_compare_good cmp args s : cmp_total cmp -> clean nl s -> Forall (clean nl) args ->
  wp (string_compare cmp args) s (opg nl (clean nl) 1 args s).
Proof.
  intros Ht Hs Ha. unfold string_compare. crush nl.
  destruct (string_of_ok nl a) as (t & -> & _); auto. cbn [rbind].
  destruct (Ht (OStr s) (OStr t)) as [b ->]; [exact I|]. apply wp_lift; intros ? <-. crush nl.
Qed.
Lemma string_good msg args s : clean nl s -> Forall (clean nl) args ->
  wp (string_receive E msg args) s (msgg nl (clean nl) msg args s).
Proof.
  intros Hs Ha. pose proof (zlen_nonneg s). apply dispatch_good; [exact Hs|].
  repeat apply Forall_cons; try apply Forall_nil; cbn [fst snd].
  - row 0%nat ltac:(unfold string_get; crush nl).
  - row 1%nat ltac:(unfold string_set; crush nl).
  - row 0%nat ltac:(unfold string_isEmpty; crush nl).
  - row 1%nat ltac:(now apply string_affix_good).
  - row 1%nat ltac:(now apply string_affix_good).
  - row 1%nat ltac:(apply string_compare_good; auto using is_equal_to_total).
  - row 1%nat ltac:(apply string_compare_good; auto using is_less_than_total).
  - row 1%nat ltac:(apply string_compare_good; auto using is_less_than_or_equal_to_total).
  - row 1%nat ltac:(apply string_compare_good; auto using is_greater_than_total).
  - row 1%nat ltac:(apply string_compare_good; auto using is_greater_than_or_equal_to_total).
  - row 0%nat ltac:(unfold string_length; crush nl).
  - row 1%nat ltac:(unfold string_atIndex; crush nl).
  - row 1%nat ltac:(unfold string_first; crush nl).
  - row 1%nat ltac:(unfold string_last; crush nl).
  - row 1%nat ltac:(unfold string_substringFromIndex; crush nl).
  - row 2%nat ltac:(unfold string_substringFromIndex_toIndex; crush nl).
  - row 1%nat ltac:(unfold string_pushBack; crush nl).
    apply clean_app. split; auto. now repeat constructor.
  - row 1%nat ltac:(unfold string_pushFront; crush nl).
  - row 0%nat ltac:(unfold string_popBack; crush nl).
  - row 0%nat ltac:(unfold string_popFront; crush nl).
  - row 1%nat ltac:(unfold string_popAtIndex; crush nl).
  - row 1%nat ltac:(unfold string_concatenate; crush nl). now apply clean_app.
  - row 2%nat ltac:(unfold string_insert_beforeIndex; crush nl).
  - row 1%nat ltac:(unfold string_eraseFromIndex; crush nl).
  - row 2%nat ltac:(unfold string_eraseFromIndex_toIndex; crush nl).
  - row 0%nat ltac:(unfold string_clear; crush nl).
Qed.

(** ** Vector *)
Section VecOps.
Context (et : str) (Het : object_type et) (Hsort : sort_contract (e_sort E)).
Notation G := (Forall (good nl et)).

Lemma good_equal x y : good nl et x -> good nl et y -> exists r, is_equal_to eps x y = Ok r.
Proof. intros [H1 _] [H2 _]. apply is_equal_to_total. eapply same_type_comparable; eauto. Qed.
Lemma contains_loop_good v x : G v -> good nl et x -> exists r, contains_loop E v x = Ok r.
Proof.
  intros Hv Hx. induction Hv as [|y v Hy Hv IH]; cbn [contains_loop]; [eauto|].
  destruct (good_equal y x Hy Hx) as [[] ->]; cbn [rbind]; eauto.
Qed.
Lemma count_loop_good v x : G v -> good nl et x -> forall n, exists r, count_loop E v x n = Ok r.
Proof.
  intros Hv Hx. induction Hv as [|y v Hy Hv IH]; cbn [count_loop]; [eauto|]. intros n.
  destruct (good_equal y x Hy Hx) as [b ->]; cbn [rbind]; eauto.
Qed.
Lemma first_index_loop_good v x : G v -> good nl et x -> forall i,
  exists r, first_index_loop E v x i = Ok r /\ match r with Some j => i <= j < i + zlen v | None => True end.
Proof.
  intros Hv Hx. induction Hv as [|y v Hy Hv IH]; cbn [first_index_loop]; [now exists None|]. intros i.
  destruct (good_equal y x Hy Hx) as [[] ->]; cbn [rbind]; unfold zlen in *; cbn [length].
  - eexists; split; [reflexivity|]. cbv iota beta. lia.
  - destruct (IH (i + 1)) as (r & -> & H). exists r. split; [reflexivity|]. destruct r; [lia|exact I].
Qed.
Lemma all_indexes_loop_good v x : G v -> good nl et x -> forall i acc, clean nl acc ->
  exists r, all_indexes_loop E v x i acc = Ok r /\ clean nl r.
Proof.
  intros Hv Hx. induction Hv as [|y v Hy Hv IH]; cbn [all_indexes_loop]; [eauto|]. intros i acc Hacc.
  destruct (good_equal y x Hy Hx) as [b ->]; cbn [rbind]. apply IH.
  destruct b; [|exact Hacc]. destruct (0 <? zlen acc); rewrite !clean_app; repeat split; auto using clean_to_string.
  apply clean_lit. reflexivity.
Qed.
Definition ok_with (s0 : list obj) (s' : list obj) (r : res unit) : Prop :=
  G s' /\ match r with Ok _ => True | _ => False end.
Lemma remove_all_loop_good x : good nl et x -> forall fuel i v, G v -> 0 <= i -> zlen v - i <= Z.of_nat fuel ->
  wp (remove_all_loop E fuel i x) v (ok_with v).
Proof.
  intros Hx. induction fuel as [|f IH]; intros i v Hv Hi Hf; cbn [remove_all_loop]; repeat wpn.
  - apply Z.ltb_lt in Heqb. lia.
  - split; auto.
  - apply Z.ltb_lt in Heqb. destruct (vec_at_ok _ v i Hv) as (y & -> & Hy); [lia|]. apply wp_lift; intros ? <-. wp_step.
    destruct (good_equal y x Hy Hx) as [b ->]. apply wp_lift; intros ? <-. destruct b; repeat wpn.
    + destruct (vec_erase_at_ok _ v i Hv) as (r & Er & Hr); [lia|]. rewrite Er. apply wp_lift; intros ? <-. repeat wpn.
      eapply wp_consequence; [apply IH; auto|].
      * unfold vec_erase_at in Er. destruct (_ || _); [discriminate|]. assert (Er' := f_equal (fun z => match z with Ok q => length q | _ => O end) Er). cbv beta iota in Er'. unfold zlen in *.
        rewrite app_length, firstn_length, skipn_length in Er'. lia.
      * intros s' r' [H1 H2]. split; auto.
    + eapply wp_consequence; [apply IH; auto; lia|]. intros s' r' [H1 H2]. split; auto.
  - split; auto.
Qed.
Lemma replace_loop_good x w z : good nl et x -> get_shared_instance et w = Ok z -> good nl et z ->
  forall fuel once i v, G v -> 0 <= i -> zlen v - i <= Z.of_nat fuel ->
  wp (replace_loop E et fuel once i x w) v (ok_with v).
Proof.
  intros Hx Hw Hz. induction fuel as [|f IH]; intros once i v Hv Hi Hf; cbn [replace_loop]; repeat wpn.
  - apply Z.ltb_lt in Heqb. lia.
  - split; auto.
  - apply Z.ltb_lt in Heqb. destruct (vec_at_ok _ v i Hv) as (y & -> & Hy); [lia|]. apply wp_lift; intros ? <-. wp_step.
    destruct (good_equal y x Hy Hx) as [b ->]. apply wp_lift; intros ? <-. destruct b; repeat wpn.
    + rewrite Hw. apply wp_lift; intros ? <-. wp_step.
      destruct (vec_set_ok _ v i z Hv Hz) as (r & Er & Hr); [lia|]. rewrite Er. apply wp_lift; intros ? <-. repeat wpn.
      * split; auto.
      * eapply wp_consequence; [apply IH; auto; try lia|].
        -- unfold vec_set in Er. destruct (_ || _); [discriminate|]. assert (Er' := f_equal (fun z => match z with Ok q => length q | _ => O end) Er). cbv beta iota in Er'. unfold zlen in *.
           rewrite app_length, firstn_length in Er'. cbn [length] in Er'. rewrite skipn_length in Er'. lia.
        -- intros s' r' [H1 H2]. split; auto.
    + eapply wp_consequence; [apply IH; auto; lia|]. intros s' r' [H1 H2]. split; auto.
  - split; auto.
Qed.

Lemma G_clean v : G v -> Forall (obj_clean nl) v.
Proof. intros H. eapply Forall_impl; [|exact H]. now intros ? []. Qed.
Lemma answer_vector v : G v -> answer_ok nl (vector_representation E v).
Proof. intros H. split; [apply success_vector_representation|apply clean_vector_representation; now apply G_clean]. Qed.
Lemma answer_set v : G v -> answer_ok nl (set_representation E v).
Proof. intros H. split; [apply success_set_representation|apply clean_set_representation; now apply G_clean]. Qed.
Lemma answer_obj t o : good nl t o -> answer_ok nl (obj_repr E o).
Proof. intros [_ H]. split; [apply success_obj_repr|now apply clean_obj_repr]. Qed.
Lemma answer_index i : answer_ok nl (index_text i).
Proof.
  destruct i; cbn [index_text].
  - split; [apply success_to_string|apply clean_to_string].
  - split; [apply success_cons; [reflexivity|discriminate]|apply clean_lit; reflexivity].
Qed.
Hint Resolve answer_vector answer_set answer_obj answer_index : core.
Lemma vector_good msg args v : G v -> Forall (clean nl) args ->
  wp (vector_receive E et msg args) v (msgg nl G msg args v).
Proof.
  intros Hv Ha. pose proof (zlen_nonneg v). unfold vector_receive. apply dispatch_good; [exact Hv|].
  repeat apply Forall_cons; try apply Forall_nil; cbn [fst snd].
  - row 0%nat ltac:(unfold vector_get; crush nl). auto.
  - row 0%nat ltac:(unfold vector_isEmpty; crush nl).
  - row 1%nat ltac:(unfold vector_contains; crush nl).
    destruct (contains_loop_good v a0) as [b ->]; auto. apply wp_lift; intros ? <-. crush nl.
  - row 2%nat ltac:(unfold vector_contains_fromIndex; crush nl).
    destruct (contains_loop_good x a0) as [b ->]; auto. apply wp_lift; intros ? <-. crush nl.
  - row 1%nat ltac:(unfold vector_count; crush nl).
    destruct (count_loop_good v a0 Hv X 0) as [b ->]. apply wp_lift; intros ? <-. crush nl.
  - row 1%nat ltac:(unfold vector_atIndex; crush nl). eauto.
  - row 1%nat ltac:(unfold vector_firstIndexOf; crush nl).
    destruct (first_index_loop_good v a0 Hv X 0) as (b & -> & _). apply wp_lift; intros ? <-. crush nl. auto.
  - row 2%nat ltac:(unfold vector_firstIndexOf_fromIndex; crush nl).
    edestruct (first_index_loop_good x a0) as (b & -> & _); auto. apply wp_lift; intros ? <-. crush nl. auto.
  - row 1%nat ltac:(unfold vector_allIndexesOf; crush nl).
    destruct (all_indexes_loop_good v a0 Hv X 0 []) as (b & -> & Hb); [constructor|]. apply wp_lift; intros ? <-. crush nl.
    split; [apply success_wrap; [reflexivity|discriminate]|]. rewrite !clean_app. repeat split; auto; apply clean_lit; reflexivity.
  - row 0%nat ltac:(unfold vector_size; crush nl).
  - row 1%nat ltac:(unfold vector_first; crush nl). auto.
  - row 1%nat ltac:(unfold vector_last; crush nl). auto.
  - row 1%nat ltac:(unfold vector_sliceFromIndex; crush nl). auto.
  - row 2%nat ltac:(unfold vector_sliceFromIndex_toIndex; crush nl). auto.
  - row 1%nat ltac:(unfold vector_pushBack; crush nl). apply Forall_app. split; auto.
  - row 1%nat ltac:(unfold vector_pushFront; crush nl).
  - row 0%nat ltac:(unfold vector_popBack; crush nl). eauto.
  - row 0%nat ltac:(unfold vector_popFront; crush nl). eauto.
  - row 1%nat ltac:(unfold vector_popAtIndex; crush nl). eauto.
  - row 2%nat ltac:(unfold vector_insert_beforeIndex; crush nl).
  - row 1%nat ltac:(unfold vector_eraseFromIndex; crush nl).
  - row 2%nat ltac:(unfold vector_eraseFromIndex_toIndex; crush nl).
  - row 1%nat ltac:(unfold vector_removeFirst; crush nl).
    destruct (first_index_loop_good v a0 Hv X 0) as (b & -> & Hb). apply wp_lift; intros ? <-. cbv beta iota. destruct b; crush nl.
  - row 2%nat ltac:(unfold vector_removeFirst_fromIndex; crush nl).
    destruct (first_index_loop_good x a0 ltac:(assumption) X a2) as (b & -> & Hb). apply wp_lift; intros ? <-. cbv beta iota. destruct b; crush nl.
  - row 1%nat ltac:(unfold vector_removeAll; crush nl).
    eapply wp_consequence; [apply remove_all_loop_good; auto; unfold zlen in *; lia|].
    intros s' [|e|u] [? ?]; try contradiction. crush nl.
  - row 2%nat ltac:(unfold vector_replaceFirst_with; crush nl).
    eapply wp_consequence; [eapply replace_loop_good; eauto; unfold zlen in *; lia|].
    intros s' [|e|u] [? ?]; try contradiction. crush nl.
  - row 3%nat ltac:(unfold vector_replaceFirst_fromIndex_with; crush nl).
    eapply wp_consequence; [eapply replace_loop_good; eauto; unfold zlen in *; lia|].
    intros s' [|e|u] [? ?]; try contradiction. crush nl.
  - row 2%nat ltac:(unfold vector_replaceAll_with; crush nl).
    eapply wp_consequence; [eapply replace_loop_good; eauto; unfold zlen in *; lia|].
    intros s' [|e|u] [? ?]; try contradiction. crush nl.
  - row 0%nat ltac:(unfold vector_sort; crush nl).
    apply swo_iff in Heqb. destruct (Hsort _ _ Heqb) as [P _]. eapply Permutation_Forall; eauto.
  - row 0%nat ltac:(unfold vector_reverse; crush nl). now apply Forall_rev.
  - row 0%nat ltac:(unfold vector_clear; crush nl).
Qed.

(** ** Set *)
Lemma Forall_filter {A} (P : A -> Prop) f l : Forall P l -> Forall P (filter f l).
Proof. rewrite !Forall_forall. intros H x Hx. apply filter_In in Hx as [Hx _]. auto. Qed.
Lemma insert_sorted_Forall {A} (P : A -> Prop) lt l k : Forall P l -> P k -> Forall P (insert_sorted lt l k).
Proof.
  intros Hl Hk. induction Hl; cbn [insert_sorted]; auto. destruct (ltb lt x k); auto. destruct (ltb lt k x); auto.
Qed.
Lemma set_good msg args v : G v -> Forall (clean nl) args -> wp (set_receive E et msg args) v (msgg nl G msg args v).
Proof.
  intros Hv Ha. unfold set_receive. apply dispatch_good; [exact Hv|].
  repeat apply Forall_cons; try apply Forall_nil; cbn [fst snd].
  - row 0%nat ltac:(unfold set_get; crush nl). auto.
  - row 0%nat ltac:(unfold set_isEmpty; crush nl).
  - row 1%nat ltac:(unfold set_contains; crush nl).
    unfold set_find. destruct (tree_ok _ _ _); apply wp_lift; intros ? <-; crush nl.
  - row 0%nat ltac:(unfold set_size; crush nl).
  - row 1%nat ltac:(unfold set_add; crush nl).
    unfold set_insert. destruct (tree_ok _ _ _); apply wp_lift; intros ? <-; crush nl. now apply insert_sorted_Forall.
  - row 1%nat ltac:(unfold set_remove; crush nl).
    unfold set_erase. destruct (tree_ok _ _ _); apply wp_lift; intros ? <-; crush nl. now apply Forall_filter.
  - row 0%nat ltac:(unfold set_clear; crush nl).
Qed.
End VecOps.

(** ** Dictionary *)
Lemma assign_sorted_Forall {A V} (P : A * V -> Prop) lt l k v :
  Forall P l -> P (k, v) -> (forall x w, P (x, w) -> P (x, v)) -> Forall P (assign_sorted lt l k v).
Proof.
  intros Hl Hk Hr. induction Hl as [|[x w] l Hx Hl IH]; cbn [assign_sorted]; auto.
  destruct (ltb lt x k); auto. destruct (ltb lt k x); auto. constructor; eauto.
Qed.
Lemma find_Forall {A} (P : A -> Prop) f l x : Forall P l -> find f l = Some x -> P x.
Proof. intros H Hf. apply find_some in Hf as [Hf _]. rewrite Forall_forall in H. auto. Qed.
Lemma dict_good kt vt msg args d : object_type kt -> object_type vt -> Forall (goodp nl kt vt) d -> Forall (clean nl) args ->
  wp (dict_receive E kt vt msg args) d (msgg nl (Forall (goodp nl kt vt)) msg args d).
Proof.
  intros Hk Hvt Hv Ha. unfold dict_receive. apply dispatch_good; [exact Hv|].
  assert (K : Forall (good nl kt) (map fst d)) by (apply Forall_map; eapply Forall_impl; [|exact Hv]; now intros ? []).
  assert (W : Forall (good nl vt) (map snd d)) by (apply Forall_map; eapply Forall_impl; [|exact Hv]; now intros ? []).
  repeat apply Forall_cons; try apply Forall_nil; cbn [fst snd].
  - row 0%nat ltac:(unfold dict_get; crush nl). split; [apply success_dict_representation|apply clean_dict_representation].
    eapply Forall_impl; [|exact Hv]. now intros ? [[] []].
  - row 0%nat ltac:(unfold dict_isEmpty; crush nl).
  - row 1%nat ltac:(unfold dict_containsKey; crush nl).
    unfold map_find. destruct (tree_ok _ _ _); apply wp_lift; intros ? <-; crush nl.
  - row 0%nat ltac:(unfold dict_size; crush nl).
  - row 0%nat ltac:(unfold dict_keys; crush nl). eapply answer_vector; eauto.
  - row 0%nat ltac:(unfold dict_values; crush nl). eapply answer_vector; eauto.
  - row 1%nat ltac:(unfold dict_getValueForKey; crush nl).
    unfold map_find. destruct (tree_ok _ _ _); apply wp_lift; intros ? <-; cbv beta iota; [|fin].
    destruct (find _ d) as [p|] eqn:Ef; crush nl. apply (answer_obj vt). apply (find_Forall _ _ _ _ Hv Ef).
  - row 2%nat ltac:(unfold dict_associateValue_withKey; crush nl).
    unfold map_assign. destruct (tree_ok _ _ _); apply wp_lift; intros ? <-; crush nl.
    apply assign_sorted_Forall; auto; [now split|]. intros x w [? ?]. now split.
  - row 1%nat ltac:(unfold dict_removeKey; crush nl).
    unfold map_erase. destruct (tree_ok _ _ _); apply wp_lift; intros ? <-; crush nl. now apply Forall_filter.
  - row 0%nat ltac:(unfold dict_clear; crush nl).
Qed.
End Ops.

(** ** All instances *)
Definition inst_good (nl : bool) (i : inst) : Prop :=
  match i with
  | IObj o => obj_clean nl o
  | IVector t v | ISet t v => object_type t /\ Forall (good nl t) v
  | IDict k v d => object_type k /\ object_type v /\ Forall (goodp nl k v) d
  end.
(** The class of the instance and its element types never change. *)
Definition same_class (i j : inst) : Prop :=
  match i, j with
  | IObj a, IObj b => obj_type a = obj_type b
  | IVector s _, IVector t _ => s = t
  | ISet s _, ISet t _ => s = t
  | IDict k v _, IDict k' v' _ => k = k' /\ v = v'
  | _, _ => False
  end.
Lemma same_class_refl i : same_class i i.
Proof. destruct i; cbn; auto. Qed.
Definition recv_post (nl : bool) (msg : str) (args : list str) (i i' : inst) (r : res str) : Prop :=
  inst_good nl i' /\ same_class i i' /\
  match r with Ok a => answer_ok nl a | Throw e => i' = i /\ msg_exc msg args e | UB u => ok_ub u end.
Lemma receive_good nl E i msg args : sort_contract (e_sort E) -> inst_good nl i -> Forall (clean nl) args ->
  recv_post nl msg args i (fst (receive E i msg args)) (snd (receive E i msg args)).
Proof.
  intros Hs Hi Ha. unfold recv_post. destruct i as [[b|c|z|f|s]|t v|t v|k v d]; cbn [receive on fst snd inst_good obj_clean same_class obj_type] in *.
  - destruct (boolean_good nl msg args b Ha) as [H1 H2]. destruct (boolean_receive msg args b) as [s' [a|e|u]]; cbn [fst snd] in *; intuition congruence.
  - destruct (character_good nl E msg args c Hi Ha) as [H1 H2]. destruct (character_receive E msg args c) as [s' [a|e|u]]; cbn [fst snd] in *; intuition congruence.
  - destruct (integer_good nl E msg args z Hi Ha) as [H1 H2]. destruct (integer_receive E msg args z) as [s' [a|e|u]]; cbn [fst snd] in *; intuition congruence.
  - destruct (float_good nl E msg args f Hi Ha) as [H1 H2]. destruct (float_receive E msg args f) as [s' [a|e|u]]; cbn [fst snd] in *; intuition congruence.
  - destruct (string_good nl E msg args s Hi Ha) as [H1 H2]. destruct (string_receive E msg args s) as [s' [a|e|u]]; cbn [fst snd] in *; intuition congruence.
  - destruct Hi as [Ht Hv]. destruct (vector_good nl E t Ht Hs msg args v Hv Ha) as [H1 H2].
    destruct (vector_receive E t msg args v) as [s' [a|e|u]]; cbn [fst snd] in *; intuition congruence.
  - destruct Hi as [Ht Hv]. destruct (set_good nl E t Ht msg args v Hv Ha) as [H1 H2].
    destruct (set_receive E t msg args v) as [s' [a|e|u]]; cbn [fst snd] in *; intuition congruence.
  - destruct Hi as [Hk [Ht Hv]]. destruct (dict_good nl E k v msg args d Hk Ht Hv Ha) as [H1 H2].
    destruct (dict_receive E k v msg args d) as [s' [a|e|u]]; cbn [fst snd] in *; intuition congruence.
Qed.
Print Assumptions receive_good.
