(** Lemmas for C81: a statement and the renamed statement on corresponding data. *)
From Coq Require Import ZArith Reals QArith Sorting.Sorted Sorting.Permutation.
From Verif Require Import Bytes StrUtils Grammar Outcome Parser Num Containers Instance Context Server Platform.
From Verif Require Import Lemmas StringLit Proof_Grammar Proof_Parser Proof_Exec WP Proof_Inv Proof_Literal Proof_Receive Proof_Context Proof_Names Api Proof_Local Props_State Props_Local Props_Alone.
From Verif Require Import Spec_Grammar Spec_State Spec_Names Spec_Local Spec_Rename.
Local Open Scope list_scope.

(** ** construction under another name *)
Definition under (x : str) (r : res inst) : res creation := match r with Ok i => Ok (x, i) | Throw e => Throw e | UB u => UB u end.
Definition named (k : str -> M context creation) : Prop := exists r, forall x c, is_variable x = true -> k x c = (c, under x r).
Lemma named_throw e : named (fun _ => throw e).
Proof. now exists (Throw e). Qed.
Lemma named_ub u : named (fun _ => undefined u).
Proof. now exists (UB u). Qed.
Lemma named_ret i : named (fun x => ret (x, i)).
Proof. now exists (Ok i). Qed.
Lemma named_lift {A} (q : res A) (f : A -> str -> M context creation) : (forall a, named (f a)) -> named (fun x => bind (lift q) (fun a => f a x)).
Proof.
  intros H. destruct q as [a|e|u].
  - destruct (H a) as [r Hr]. exists r. intros x c V. unfold bind, lift. now apply Hr.
  - now exists (Throw e).
  - now exists (UB u).
Qed.
Ltac named := repeat match goal with
  | |- named (fun x => bind (lift ?q) (fun a => @?f a x)) => apply (named_lift q (fun a x => f a x)); intros
  | |- named (fun x => if ?b then _ else _) => destruct b
  | |- named (fun x => throw _) => apply named_throw
  | |- named (fun x => undefined _) => apply named_ub
  | |- named (fun x => ret (x, _)) => apply named_ret end.
Definition named_container (e : inst) (m : str) (args : list str) : res inst :=
  if is_create m then match args with [] => Ok e | _ => Throw WrongNumberOfArguments end else Throw InvalidMessage.
Lemma container_named e m args x (c : context) : is_variable x = true -> container_create e m (x :: args) c = (c, under x (named_container e m args)).
Proof.
  intros V. unfold container_create, named_container. destruct (is_create m); [|reflexivity]. unfold check_nargs, bind, arg, throw_if, ret, throw, lift. cbn [nth_error].
  destruct args as [|y args]; cbn [List.length Nat.eqb negb]; [|reflexivity]. rewrite V. reflexivity.
Qed.
Lemma dict_named m args : forall rest before acc, exists r, forall x c, is_variable x = true ->
  dict_type_loop rest before m (x :: args) (option_map (pair x) acc) c = (c, match r with Ok i => Ok (option_map (pair x) i) | Throw e => Throw e | UB u => UB u end).
Proof.
  induction rest as [|ch r IH]; intros before acc; cbn [dict_type_loop]; [now exists (Ok acc)|]. destruct (ceq ch c_comma); [|apply IH].
  assert (N := container_named (IDict (rev before) r []) m args). destruct (named_container _ m args) as [i|e|u] eqn:Q.
  - destruct (IH (ch :: before) (Some i)) as [q Hq]. exists q. intros x c V. unfold bind. rewrite (N x c V). cbn [under]. now apply Hq.
  - exists (Throw e). intros x c V. unfold bind. now rewrite (N x c V).
  - exists (UB u). intros x c V. unfold bind. now rewrite (N x c V).
Qed.
Lemma with_named (g : str -> bool) (k : str -> str -> M context creation) (args : list str) : (forall y, named (k y)) ->
  named (fun x => check_nargs (x :: args) 2 ;;; a0 <- arg (x :: args) 0 ;; a1 <- arg (x :: args) 1 ;;
    throw_if (negb (is_variable a0) || g a1)%bool InvalidArgument ;;; k a1 a0).
Proof.
  intros H. destruct args as [|y [|z args]].
  - now exists (Throw WrongNumberOfArguments).
  - destruct (H y) as [r Hr]. exists (if g y then Throw InvalidArgument else r).
    intros x c V. unfold check_nargs, bind, arg, throw_if, ret, throw, lift. cbn [nth_error List.length Nat.eqb negb]. rewrite V. cbn [negb orb].
    destruct (g y); [reflexivity|]. now apply Hr.
  - now exists (Throw WrongNumberOfArguments).
Qed.
Lemma without_named (i : inst) (args : list str) :
  named (fun x => check_nargs (x :: args) 1 ;;; a0 <- arg (x :: args) 0 ;; throw_if (negb (is_variable a0)) InvalidArgument ;;; ret (a0, i)).
Proof.
  destruct args as [|y args].
  - exists (Ok i). intros x c V. unfold check_nargs, bind, arg, throw_if, ret, throw, lift. cbn [nth_error List.length Nat.eqb negb]. now rewrite V.
  - now exists (Throw WrongNumberOfArguments).
Qed.
Lemma construct_named t m args : named (fun x => construct t m (x :: args)).
Proof.
  unfold construct. destruct (seq_eqb t _); [|destruct (seq_eqb t _); [|destruct (seq_eqb t _); [|destruct (seq_eqb t _); [|destruct (seq_eqb t _)]]]].
  - unfold boolean_create. destruct (is_create_with m); [|apply named_throw]. apply (with_named (fun a => negb (is_boolean_value a)) (fun a1 a0 => ret (a0, _))). intros y. apply named_ret.
  - unfold character_create. destruct (is_create_with m); [|apply named_throw]. apply (with_named (fun a => negb (is_character_value a)) (fun a1 a0 => c <- lift (str_at a1 1) ;; ret (a0, _))). intros y.
    apply (named_lift (str_at y 1) (fun c x => ret (x, IObj (OChar c)))). intros a. apply named_ret.
  - unfold integer_create. destruct (is_create_with m); [|apply named_throw]. apply (with_named (fun a => negb (is_integer_value a) && negb (is_float_value a))%bool (fun a1 a0 => z <- lift (let! d := number_of a1 in double_to_int d) ;; ret (a0, _))). intros y.
    apply (named_lift _ (fun z x => ret (x, IObj (OInt z)))). intros a. apply named_ret.
  - unfold float_create. destruct (is_create_with m); [|apply named_throw]. apply (with_named (fun a => negb (is_float_value a)) (fun a1 a0 => ret (a0, _))). intros y. apply named_ret.
  - unfold string_create. destruct (is_create m); [apply without_named|]. destruct (is_create_with m); [|apply named_throw].
    apply (with_named (fun a => negb (is_string_value a)) (fun a1 a0 => s <- lift (unquote a1) ;; ret (a0, _))). intros y.
    apply (named_lift (unquote y) (fun c x => ret (x, IObj (OStr c)))). intros a. apply named_ret.
  - destruct (starts_with t _); [|destruct (starts_with t _); [|destruct (starts_with t _); [|apply named_ub]]].
    + apply (named_lift _ (fun et x => container_create (IVector et []) m (x :: args))). intros a. eexists. intros x c V. now apply container_named.
    + apply (named_lift _ (fun et x => container_create (ISet et []) m (x :: args))). intros a. eexists. intros x c V. now apply container_named.
    + apply (named_lift _ (fun ts x => i <- dict_type_loop ts [] m (x :: args) None ;; match i with Some i => ret i | None => undefined NullDeref end)). intros ts.
      destruct (dict_named m args ts [] None) as [[[i|]|e|u] Hr]; cbn [option_map] in Hr; change (str * inst)%type with creation in Hr.
      * exists (Ok i). intros x c V. cbv beta. unfold bind. now rewrite (Hr x c V).
      * exists (UB NullDeref). intros x c V. cbv beta. unfold bind. now rewrite (Hr x c V).
      * exists (Throw e). intros x c V. cbv beta. unfold bind. now rewrite (Hr x c V).
      * exists (UB u). intros x c V. cbv beta. unfold bind. now rewrite (Hr x c V).
Qed.

(** ** one statement *)
Definition alike (f : bytes -> bytes) (w w' : world * res str) : Prop :=
  correspond f (w_ctx (fst w)) (w_ctx (fst w')) /\ w_session (fst w) = w_session (fst w') /\ snd w = snd w'.
Lemma settings_instances c d l l' : same_settings c d -> same_settings (set_instances c l) (set_instances d l').
Proof. intros [P T]. now split. Qed.
Lemma env_same srt c d : same_settings c d -> env_of srt d = env_of srt c.
Proof. intros [P T]. unfold env_of. now rewrite P, T. Qed.
Lemma assign_correspond f c d n i : renaming f -> keys_sorted (instances c) -> keys_sorted (instances d) -> variable n -> correspond f c d ->
  correspond f (set_instances c (smap_assign (instances c) n i)) (set_instances d (smap_assign (instances d) (f n) i)).
Proof.
  intros [_ J] Kc Kd V [L S]. split; [|now apply settings_instances]. intros k Hk. rewrite !lookup_set_instances, !smap_assign_assoc by assumption.
  destruct (bytes_dec n k) as [->|N]; destruct (bytes_dec (f _) (f k)) as [E|E]; [reflexivity|congruence|destruct N; now apply J|]. now apply L.
Qed.
Lemma erase_some l a : assoc l a <> None -> exists l', erase_name l a = Some l'.
Proof. intros H. destruct (erase_name l a) eqn:E; [eauto|]. now apply erase_name_none in E. Qed.
Lemma erase_some_inv l a l' : erase_name l a = Some l' -> assoc l a <> None.
Proof.
  revert l'. induction l as [|[k i] l IH]; cbn; intros l' H; [discriminate H|]. destruct (bytes_dec k a) as [->|Hn]; [discriminate|].
  apply seq_eqb_neq in Hn. rewrite Hn in H. destruct (erase_name l a) as [q|]; [|discriminate H]. now apply (IH q).
Qed.
Lemma delete_alike f c d n : renaming f -> keys_sorted (instances c) -> keys_sorted (instances d) -> variable n -> correspond f c d ->
  match erase_name (instances c) n, erase_name (instances d) (f n) with
  | Some l, Some l' => correspond f (set_instances c l) (set_instances d l')
  | None, None => True | _, _ => False
  end.
Proof.
  intros [_ J] Kc Kd V [L S]. assert (E := L n V). unfold lookup in E.
  destruct (erase_name (instances c) n) as [l|] eqn:Ec; destruct (erase_name (instances d) (f n)) as [l'|] eqn:Ed; [| | |exact I].
  - apply erase_name_filter in Ec, Ed; try assumption. subst l l'. split; [|now apply settings_instances]. intros k Hk.
    rewrite !lookup_set_instances, (assoc_filter (fun x => negb (seq_eqb x n))), (assoc_filter (fun x => negb (seq_eqb x (f n)))).
    destruct (seq_eqb k n) eqn:Q1; destruct (seq_eqb (f k) (f n)) eqn:Q2; cbn [negb]; [reflexivity| | |now apply L].
    + apply seq_eqb_eq in Q1. subst k. rewrite seq_eqb_refl in Q2. discriminate Q2.
    + apply seq_eqb_eq in Q2. apply J in Q2; try assumption. subst k. rewrite seq_eqb_refl in Q1. discriminate Q1.
  - apply erase_some_inv in Ec. apply erase_name_none in Ed. congruence.
  - apply erase_some_inv in Ed. apply erase_name_none in Ec. congruence.
Qed.
Lemma delete_run a args c : is_variable a = true ->
  op_deleteVariable (a :: args) c =
  match args with
  | [] => match erase_name (instances c) a with Some l => (set_instances c l, Ok null) | None => (c, Throw UnexistentVariable) end
  | _ => (c, Throw WrongNumberOfArguments)
  end.
Proof.
  intros V. unfold op_deleteVariable, check_nargs, bind, arg, throw_if, ret, throw, lift, get, put. cbn [nth_error List.length Nat.eqb negb].
  destruct args; cbn [List.length Nat.eqb negb]; [|reflexivity]. rewrite V. cbn [negb]. destruct (erase_name _ _); reflexivity.
Qed.
Lemma context_no_name f m args c d : ~ In m naming_messages -> correspond f c d ->
  correspond f (fst (execute_in_context {| p_actor := B "Context"; p_message := m; p_args := args |} c))
               (fst (execute_in_context {| p_actor := B "Context"; p_message := m; p_args := args |} d)) /\
  snd (execute_in_context {| p_actor := B "Context"; p_message := m; p_args := args |} c) = snd (execute_in_context {| p_actor := B "Context"; p_message := m; p_args := args |} d).
Proof.
  intros N [L [P T]]. unfold execute_in_context. cbn [p_message p_args].
  assert (D : forall table, (forall k op, In (k, op) table -> In k naming_messages \/ forall a, correspond f (fst (op a c)) (fst (op a d)) /\ snd (op a c) = snd (op a d)) ->
     correspond f (fst (dispatch table m args c)) (fst (dispatch table m args d)) /\ snd (dispatch table m args c) = snd (dispatch table m args d)).
  { induction table as [|[k op] t IH]; intros H; cbn [dispatch]; [split; [now split|reflexivity]|]. destruct (seq_eqb m k) eqn:Q.
    - apply seq_eqb_eq in Q. subst k. destruct (H m op) as [X|X]; [now left|contradiction|apply X].
    - apply IH. intros k' op' I. apply (H k' op'). now right. }
  apply D. intros k op H.
  assert (S : forall A (x : A), (correspond f c d /\ x = x)) by (intros; split; [now split|reflexivity]).
  repeat destruct H as [H|H]; try contradiction; inversion H; subst; clear H; try (left; cbn [naming_messages In]; tauto); right; intros a.
  - unfold op_getFloatPrecision, bind, get, ret. cbn [fst snd]. rewrite P. apply S.
  - unfold op_setFloatPrecision, check_nargs, arg, throw_if, bind, get, put, ret, throw, lift. destruct (negb _); [apply S|]. destruct (nth_error a 0); [|apply S].
    destruct (integer_of _) as [z|e|u]; [|apply S|apply S]. destruct (z <=? 0)%Z; [apply S|]. cbn [fst snd]. split; [|reflexivity]. split; [exact L|]. now split.
  - unfold op_getFloatComparisonTolerance, bind, get, ret. cbn [fst snd]. rewrite P, T. apply S.
  - unfold op_setFloatComparisonTolerance, check_nargs, arg, throw_if, bind, get, put, ret, throw, lift. destruct (negb _); [apply S|]. destruct (nth_error a 0); [|apply S].
    destruct (float_of _) as [z|e|u]; [|apply S|apply S]. destruct (f_lt z _); [apply S|]. cbn [fst snd]. split; [|reflexivity]. split; [exact L|]. now split.
Qed.
Lemma made_not_variable t m x args r n i : made t m (x :: args) r -> ~ variable x -> r <> Ok (n, i).
Proof. intros M N ->. cbn in M. inversion M; subst; contradiction. Qed.
Lemma made_nothing t m r n i : made t m [] r -> r <> Ok (n, i).
Proof. intros M ->. cbn in M. inversion M. Qed.
(** Nothing is created whatever the data are. *)
Lemma type_alike_none srt pw f l l' t m args c d s : statement l t m args -> statement l' t m args -> type t ->
  (forall r n i, made t m args r -> r <> Ok (n, i)) -> correspond f c d ->
  alike f (run_statement srt pw l {| w_ctx := c; w_session := s |}) (run_statement srt pw l' {| w_ctx := d; w_session := s |}).
Proof.
  intros S S' Ht X C. destruct (pure_construct (remove_spaces t) m args) as [r Hr].
  destruct (construct_made t m args c Ht) as (r1 & E1 & M1). rewrite Hr in E1. injection E1 as <-.
  rewrite (run_type srt pw l t m args _ S Ht), (run_type srt pw l' t m args _ S' Ht). unfold in_ctx, execute_in_type, bind. cbn [w_ctx w_session p_actor p_message p_args]. rewrite !Hr.
  destruct r as [[n i]|e|v]; [destruct (X _ n i M1 eq_refl)| |]; (split; [exact C|now split]).
Qed.
Lemma statement_alike srt pw f l l' c d s : renaming f -> keys_sorted (instances c) -> keys_sorted (instances d) -> correspond f c d -> renamed f l l' ->
  alike f (run_statement srt pw l {| w_ctx := c; w_session := s |}) (run_statement srt pw l' {| w_ctx := d; w_session := s |}).
Proof.
  intros Hf Kc Kd C R. destruct R as [l l' n m args V S S'|l l' t m x x' args Ht X S S'|l l' x x' args X S S'|l l' a m args S S' K|l l' N N'].
  - assert (V' : variable (f n)) by now apply Hf.
    rewrite (run_variable srt pw l n m args _ S V), (run_variable srt pw l' (f n) m args _ S' V').
    unfold alike, in_ctx, execute_in_variable. cbn [w_ctx w_session p_actor p_message p_args fst snd].
    destruct C as [L T] eqn:EC. assert (E := L n V). unfold lookup in E. rewrite !assoc_smap_find in E. rewrite E.
    destruct (smap_find (instances c) n) as [i|]; [|split; [exact C|now split]]. rewrite (env_same srt c d T). cbn [fst snd].
    split; [|now split]. now apply assign_correspond.
  - destruct X as [n V|x N].
    + assert (V' : variable (f n)) by now apply Hf. destruct (construct_named (remove_spaces t) m args) as [r Hr].
      assert (B1 := Hr n c (proj2 (is_variable_iff n) V)). assert (B2 := Hr (f n) d (proj2 (is_variable_iff (f n)) V')). cbn beta in B1, B2.
      rewrite (run_type srt pw l t m _ _ S Ht), (run_type srt pw l' t m _ _ S' Ht). unfold alike, in_ctx, execute_in_type, bind. cbn [w_ctx w_session p_actor p_message p_args fst snd].
      change (@cons bytes) with (@cons str). rewrite B1, B2. destruct r as [i|e|u]; cbn [under]; [|split; [exact C|now split]|split; [exact C|now split]].
      unfold get, put, ret, throw. cbn [fst snd]. assert (E := proj1 C n V). unfold lookup in E. rewrite !assoc_smap_find in E. rewrite E.
      destruct (smap_find (instances c) n).
      * destruct (starts_with m _); (split; [exact C|now split]).
      * split; [now apply assign_correspond|now split].
    + apply (type_alike_none srt pw f l l' t m (x :: args)); try assumption. intros r n i M. exact (made_not_variable _ _ _ _ _ _ _ M N).
  - rewrite (run_context srt pw l _ _ _ S), (run_context srt pw l' _ _ _ S').
    assert (D : forall y z, execute_in_context {| p_actor := B "Context"; p_message := B "deleteVariable:"; p_args := y |} z = op_deleteVariable y z) by reflexivity.
    unfold alike, in_ctx. cbn [w_ctx w_session fst snd]. rewrite !D. destruct X as [n V|x N].
    + assert (V' : variable (f n)) by now apply Hf.
      rewrite !delete_run by (now apply is_variable_iff). destruct args; [|split; [exact C|now split]].
      assert (E := delete_alike f c d n Hf Kc Kd V C). destruct (erase_name (instances c) n), (erase_name (instances d) (f n)); try contradiction; cbn [fst snd]; (split; [assumption|now split]).
    + assert (Q : exists e, forall z, op_deleteVariable (x :: args) z = (z, Throw e)).
      { unfold op_deleteVariable, check_nargs, bind, arg, throw_if, ret, throw, lift, get, put. cbn [nth_error]. destruct args; cbn [List.length Nat.eqb negb]; [|eexists; reflexivity].
        destruct (is_variable x) eqn:Y; [apply is_variable_iff in Y; contradiction|]. eexists. reflexivity. }
      destruct Q as [e Q]. rewrite !Q. split; [exact C|now split].
  - destruct K as [[Ht ->]|[[-> N]| ->]].
    + apply (type_alike_none srt pw f l l' a m []); try assumption. intros r n i M. exact (made_nothing _ _ _ _ _ M).
    + rewrite (run_context srt pw l _ _ _ S), (run_context srt pw l' _ _ _ S'). unfold alike, in_ctx. cbn [w_ctx w_session fst snd].
      destruct (context_no_name f m args c d N C) as [A B]. split; [exact A|]. now split.
    + rewrite (run_connection srt pw l _ _ _ S), (run_connection srt pw l' _ _ _ S'). unfold alike, in_session. cbn [w_ctx w_session]. destruct s; cbn [fst snd w_ctx w_session]; (split; [exact C|now split]).
  - unfold run_statement, bind, lift.
    rewrite (parse_not_statement l N), (parse_not_statement l' N'). split; [exact C|now split].
Qed.
