(** The name table as a finite map, and the execution of one statement addressed to a variable. *)
From Verif Require Import Bytes StrUtils Grammar Outcome Parser Num Containers Instance Context.
From Verif Require Import Lemmas StringLit Proof_Grammar Proof_Parser.
From Verif Require Import Spec_Grammar Spec_State.
From Coq Require Import Sorting.Sorted.

(** ** the order of strings *)
Lemma uchar_code c : uchar c = N.of_nat (code c).
Proof. unfold uchar, code, nat_of_ascii. now rewrite N2Nat.id. Qed.
Lemma uchar_inj a b : uchar a = uchar b -> a = b.
Proof. unfold uchar. intros H. rewrite <- (ascii_N_embedding a), <- (ascii_N_embedding b). now rewrite H. Qed.

Lemma str_ltb_irrefl a : str_ltb a a = false.
Proof. induction a as [|x a IH]; cbn; [reflexivity|]. now rewrite N.ltb_irrefl. Qed.
Lemma str_ltb_trans a : forall b c, str_ltb a b = true -> str_ltb b c = true -> str_ltb a c = true.
Proof.
  induction a as [|x a IH]; intros [|y b] [|z c]; cbn; try easy.
  destruct (N.ltb_spec (uchar x) (uchar y)), (N.ltb_spec (uchar y) (uchar z)), (N.ltb_spec (uchar x) (uchar z)),
    (N.ltb_spec (uchar y) (uchar x)), (N.ltb_spec (uchar z) (uchar y)), (N.ltb_spec (uchar z) (uchar x)); try easy; try lia.
  apply IH.
Qed.
Lemma str_ltb_total a : forall b, str_ltb a b = false -> str_ltb b a = false -> a = b.
Proof.
  induction a as [|x a IH]; intros [|y b]; cbn; try easy.
  destruct (N.ltb_spec (uchar x) (uchar y)), (N.ltb_spec (uchar y) (uchar x)); try easy.
  intros H1 H2. f_equal; [apply uchar_inj; lia|]. now apply IH.
Qed.
Lemma str_ltb_asym a b : str_ltb a b = true -> str_ltb b a = false.
Proof.
  intros H. destruct (str_ltb b a) eqn:E; [|reflexivity].
  rewrite <- (str_ltb_irrefl a). symmetry. eapply str_ltb_trans; eauto.
Qed.
Lemma str_ltb_iff a : forall b, str_ltb a b = true <-> precedes a b.
Proof.
  intros b. split.
  - revert b; induction a as [|x a IH]; intros [|y b]; cbn; try easy.
    + intros _. apply (pre_prefix [] y b).
    + destruct (N.ltb_spec (uchar x) (uchar y)) as [H|H].
      * intros _. apply (pre_differ [] x a y b). rewrite !uchar_code in H. lia.
      * destruct (N.ltb_spec (uchar y) (uchar x)) as [H'|H']; [easy|]. intros H2.
        assert (x = y) by (apply uchar_inj; lia). subst y. apply IH in H2.
        inversion H2; subst; [apply (pre_prefix (x :: a))|apply (pre_differ (x :: p))]; auto.
  - intros H. destruct H as [p x r|p x r y r' H].
    + induction p as [|z p IH]; cbn; [reflexivity|]. now rewrite N.ltb_irrefl.
    + induction p as [|z p IH]; cbn; [|now rewrite N.ltb_irrefl].
      assert (L : (uchar x <? uchar y)%N = true) by (apply N.ltb_lt; rewrite !uchar_code; lia). now rewrite L.
Qed.

(** ** the name table *)
Definition keys_sorted {V} (l : list (str * V)) : Prop := StronglySorted (fun a b => str_ltb a b = true) (map fst l).

Lemma assoc_smap_find {V} (l : list (str * V)) n : assoc l n = smap_find l n.
Proof.
  induction l as [|[k v] l IH]; cbn; [reflexivity|].
  destruct (bytes_dec k n) as [->|H]; [now rewrite seq_eqb_refl|].
  apply seq_eqb_neq in H. now rewrite H.
Qed.
Lemma assoc_none {V} (l : list (str * V)) n : assoc l n = None <-> ~ In n (map fst l).
Proof.
  induction l as [|[k v] l IH]; cbn; [easy|]. destruct (bytes_dec k n) as [->|H].
  - split; [discriminate|]. intros H. exfalso; auto.
  - rewrite IH. split; [intros H1 [H2|H2]|]; auto.
Qed.
Lemma assoc_some_in {V} (l : list (str * V)) n v : assoc l n = Some v -> In (n, v) l.
Proof.
  induction l as [|[k w] l IH]; cbn; [discriminate|]. destruct (bytes_dec k n) as [->|H].
  - intros E; inversion E; subst; auto.
  - auto.
Qed.
Lemma Forall_str_ltb_notin x l : Forall (fun b => str_ltb x b = true) l -> ~ In x l.
Proof. intros H Hin. rewrite Forall_forall in H. specialize (H _ Hin). rewrite str_ltb_irrefl in H. discriminate. Qed.
Lemma assoc_in {V} (l : list (str * V)) n v : keys_sorted l -> In (n, v) l -> assoc l n = Some v.
Proof.
  unfold keys_sorted. induction l as [|[k w] l IH]; cbn; [easy|]. intros Hs H. inversion Hs; subst.
  destruct (bytes_dec k n) as [->|Hn].
  - destruct H as [H|H]; [congruence|]. exfalso. apply (Forall_str_ltb_notin n (map fst l)); auto.
    apply in_map_iff. now exists (n, v).
  - destruct H as [H|H]; [congruence|]. auto.
Qed.

Lemma assoc_before {V} (l : list (str * V)) k : Forall (fun b => str_ltb k b = true) (map fst l) -> assoc l k = None.
Proof. intros H. apply assoc_none. now apply Forall_str_ltb_notin. Qed.

Lemma smap_assign_assoc {V} (l : list (str * V)) k v m : keys_sorted l ->
  assoc (smap_assign l k v) m = if bytes_dec k m then Some v else assoc l m.
Proof.
  unfold keys_sorted. induction l as [|[x w] l IH]; cbn; intros Hs; [reflexivity|]. inversion Hs; subst.
  destruct (str_ltb x k) eqn:E1.
  - cbn. rewrite IH by auto. destruct (bytes_dec x m) as [->|H]; [|reflexivity].
    destruct (bytes_dec k m) as [->|H]; [|reflexivity]. rewrite str_ltb_irrefl in E1. discriminate.
  - destruct (str_ltb k x) eqn:E2; cbn; [reflexivity|].
    assert (x = k) by now apply str_ltb_total. subst x. destruct (bytes_dec k m); reflexivity.
Qed.
Lemma smap_assign_keys {V} (l : list (str * V)) k v x : In x (map fst (smap_assign l k v)) <-> x = k \/ In x (map fst l).
Proof.
  induction l as [|[y w] l IH]; cbn; [intuition|].
  destruct (str_ltb y k) eqn:E1; cbn.
  - rewrite IH. intuition.
  - destruct (str_ltb k y) eqn:E2; cbn; [intuition|].
    assert (y = k) by now apply str_ltb_total. intuition; subst; auto.
Qed.
Lemma smap_assign_sorted {V} (l : list (str * V)) k v : keys_sorted l -> keys_sorted (smap_assign l k v).
Proof.
  unfold keys_sorted. induction l as [|[x w] l IH]; cbn; intros Hs; [repeat constructor|]. inversion Hs; subst.
  destruct (str_ltb x k) eqn:E1; cbn.
  - constructor; [now apply IH|]. apply Forall_forall. intros y Hy. apply smap_assign_keys in Hy as [->|Hy]; auto.
    rewrite Forall_forall in H2. auto.
  - destruct (str_ltb k x) eqn:E2; cbn; [|now constructor].
    constructor; [now constructor|]. constructor; auto.
    eapply Forall_impl; [|exact H2]. intros y Hy. eapply str_ltb_trans; eauto.
Qed.
Lemma smap_assign_in {V} (l : list (str * V)) k v n i : In (n, i) (smap_assign l k v) -> (n = k /\ i = v) \/ In (n, i) l.
Proof.
  induction l as [|[y w] l IH]; cbn; [intros [H|H]; [inversion H; auto|easy]|].
  destruct (str_ltb y k) eqn:E1; cbn; [intros [H|H]; auto; destruct (IH H); auto|].
  destruct (str_ltb k y) eqn:E2; cbn; intros [H|H]; auto; try (inversion H; subst; auto).
  - left. split; auto. now apply str_ltb_total.
Qed.
Lemma smap_assign_existing {V} (l : list (str * V)) k v : keys_sorted l -> In k (map fst l) ->
  map fst (smap_assign l k v) = map fst l.
Proof.
  unfold keys_sorted. induction l as [|[x w] l IH]; cbn; intros Hs Hin; [easy|]. inversion Hs; subst.
  destruct (str_ltb x k) eqn:E1; cbn.
  - f_equal. apply IH; auto. destruct Hin as [->|]; auto. rewrite str_ltb_irrefl in E1. discriminate.
  - destruct (str_ltb k x) eqn:E2; cbn; [|reflexivity]. exfalso. destruct Hin as [->|Hin].
    + rewrite str_ltb_irrefl in E2. discriminate.
    + rewrite Forall_forall in H2. specialize (H2 _ Hin). rewrite (str_ltb_asym _ _ E2) in H2. discriminate.
Qed.

Lemma lookup_set_instances c l m : lookup (set_instances c l) m = assoc l m.
Proof. reflexivity. Qed.

(** ** logging changes nothing but the log *)
Lemma write_log_instances input out c : instances (write_log input out c) = instances c.
Proof. unfold write_log. destruct (log_is_open c); [reflexivity|]. destruct (quiet c); reflexivity. Qed.
Lemma write_log_precision input out c : float_precision (write_log input out c) = float_precision c.
Proof. unfold write_log. destruct (log_is_open c); [reflexivity|]. destruct (quiet c); reflexivity. Qed.
Lemma write_log_tolerance input out c : tolerance (write_log input out c) = tolerance c.
Proof. unfold write_log. destruct (log_is_open c); [reflexivity|]. destruct (quiet c); reflexivity. Qed.
Lemma write_log_lookup input out c n : lookup (write_log input out c) n = lookup c n.
Proof. unfold lookup. now rewrite write_log_instances. Qed.

(** ** kinds of actors are disjoint *)
Lemma variable_not_type n : variable n -> is_type n = false.
Proof.
  intros H. destruct (is_type n) eqn:E; [|reflexivity]. apply is_type_iff in E as [E|E]; exfalso.
  - destruct H as [(c & r & -> & _ & _ & Hr)|(a & b & -> & _)].
    + apply Hr. unfold reserved_word. destruct E as [E|[E|[E|[E|E]]]]; rewrite E; cbn; auto 20.
    + assert (~ In c_colon (a ++ B "::" ++ b)) by (destruct E as [E|[E|[E|[E|E]]]]; rewrite E; apply not_in_by_bool; reflexivity).
      apply H. apply in_app_iff. right. now left.
  - destruct (container_shape _ E) as (p & u & -> & _). apply variable_no_lt in H. apply H.
    apply in_app_iff. right. now left.
Qed.
Lemma variable_no_reserved n w : variable n -> reserved_word w -> ~ In c_colon w -> n <> w.
Proof.
  intros H Hw Hc ->. destruct H as [(c & r & -> & _ & _ & Hr)|(a & b & -> & _)]; [contradiction|].
  apply Hc. apply in_app_iff. right. now left.
Qed.
Lemma variable_not_context n : variable n -> is_context n = false.
Proof.
  intros H. apply seq_eqb_neq. apply variable_no_reserved; auto; [cbn; auto 20|]. apply not_in_by_bool. reflexivity.
Qed.
Lemma variable_not_connection n : variable n -> is_connection n = false.
Proof.
  intros H. apply seq_eqb_neq. apply variable_no_reserved; auto; [cbn; auto 20|]. apply not_in_by_bool. reflexivity.
Qed.
Lemma type_not_context t : type t -> is_context t = false /\ is_connection t = false.
Proof.
  intros H. split; apply seq_eqb_neq; intros ->; apply is_type_iff in H; vm_compute in H; discriminate.
Qed.

(** The body of [execute] by kind of actor. *)
Lemma run_variable srt pw line n msg args w : statement line n msg args -> variable n ->
  run_statement srt pw line w = in_ctx (execute_in_variable srt {| p_actor := n; p_message := msg; p_args := args |}) w.
Proof.
  intros H Hv. unfold run_statement, bind, lift. rewrite (parse_statement _ _ _ _ H). cbn [p_actor].
  rewrite variable_not_type, variable_not_context by auto. apply is_variable_iff in Hv. now rewrite Hv.
Qed.
Lemma run_type srt pw line t msg args w : statement line t msg args -> type t ->
  run_statement srt pw line w = in_ctx (execute_in_type {| p_actor := t; p_message := msg; p_args := args |}) w.
Proof.
  intros H Hv. unfold run_statement, bind, lift. rewrite (parse_statement _ _ _ _ H). cbn [p_actor].
  apply is_type_iff in Hv. now rewrite Hv.
Qed.
Lemma run_context srt pw line msg args w : statement line (B "Context") msg args ->
  run_statement srt pw line w = in_ctx (execute_in_context {| p_actor := B "Context"; p_message := msg; p_args := args |}) w.
Proof.
  intros H. unfold run_statement, bind, lift. rewrite (parse_statement _ _ _ _ H). reflexivity.
Qed.
Lemma run_connection srt pw line msg args w : statement line (B "Connection") msg args ->
  run_statement srt pw line w = in_session (session_receive pw msg args) w.
Proof.
  intros H. unfold run_statement, bind, lift. rewrite (parse_statement _ _ _ _ H). reflexivity.
Qed.

Definition text_of (r : res str) : str := match r with Ok o => o | Throw e => exc_text e | UB _ => [] end.
Definition is_ub (r : res str) : Prop := match r with UB _ => True | _ => False end.

Lemma execute_ok srt pw line w w1 r : run_statement srt pw line w = (w1, r) -> ~ is_ub r ->
  execute srt pw line w = ({| w_ctx := write_log line (text_of r) (w_ctx w1); w_session := w_session w1 |}, Ok (text_of r)).
Proof. intros E H. unfold execute. rewrite E. cbn [fst snd]. destruct r as [o|e|u]; cbn in *; tauto. Qed.
Lemma execute_ub srt pw line w w1 u : run_statement srt pw line w = (w1, UB u) -> snd (execute srt pw line w) = UB u.
Proof. intros E. unfold execute. rewrite E. reflexivity. Qed.

(** A message to an existing variable. *)
Lemma exec_variable srt pw c s line n msg args i i' r :
  keys_sorted (instances c) -> statement line n msg args -> variable n -> lookup c n = Some i ->
  receive (env_of srt c) i msg args = (i', r) -> ~ is_ub r ->
  becomes srt pw c s line n (text_of r) i'.
Proof.
  intros Hk Hs Hv Hl Hr Hu. unfold becomes, runs.
  assert (R := run_variable srt pw line n msg args {| w_ctx := c; w_session := s |} Hs Hv).
  unfold in_ctx, execute_in_variable in R. cbn [w_ctx w_session p_actor p_message p_args] in R.
  unfold lookup in Hl. rewrite assoc_smap_find in Hl. rewrite Hl, Hr in R. cbn [fst snd] in R.
  rewrite (execute_ok _ _ _ _ _ _ R Hu). cbn [w_ctx w_session].
  eexists. split; [reflexivity|]. rewrite !write_log_lookup, !lookup_set_instances, smap_assign_assoc by auto.
  split; [destruct (bytes_dec n n); congruence|]. split.
  - intros m Hm. rewrite write_log_lookup, lookup_set_instances, smap_assign_assoc by auto.
    destruct (bytes_dec n m); [congruence|reflexivity].
  - split; [now rewrite write_log_precision|now rewrite write_log_tolerance].
Qed.
Lemma exec_variable_ub srt pw c s line n msg args i i' u :
  statement line n msg args -> variable n -> lookup c n = Some i ->
  receive (env_of srt c) i msg args = (i', UB u) -> undefined_behaviour srt pw c s line u.
Proof.
  intros Hs Hv Hl Hr. unfold undefined_behaviour.
  assert (R := run_variable srt pw line n msg args {| w_ctx := c; w_session := s |} Hs Hv).
  unfold in_ctx, execute_in_variable in R. cbn [w_ctx w_session p_actor p_message p_args] in R.
  unfold lookup in Hl. rewrite assoc_smap_find in Hl. rewrite Hl, Hr in R. cbn [fst snd] in R.
  eapply execute_ub; eauto.
Qed.
