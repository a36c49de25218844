(** Every statement: what it can change, which failures are possible, and the invariant of all reachable data. *)
From Verif Require Import Bytes StrUtils Grammar Outcome Parser Num Containers Instance Context.
From Verif Require Import Lemmas StringLit Proof_Grammar Proof_Parser Proof_Exec WP Proof_Inv Proof_Literal Proof_Receive.
From Verif Require Import Spec_Grammar Spec_State.
From Coq Require Import Sorting.Sorted Permutation ZifyBool.
Open Scope Z_scope.

(** ** the number of arguments is fixed by the message name *)
Lemma count_delims_app a b : count_delims (a ++ b) = (count_delims a + count_delims b)%nat.
Proof. unfold count_delims. now rewrite filter_app, app_length. Qed.
Lemma count_delims_identifier i : identifier i -> count_delims i = 0%nat.
Proof.
  intros H. apply identifier_no_delim in H. unfold count_delims. induction H as [|c l Hc Hl IH]; cbn; [reflexivity|].
  now rewrite Hc.
Qed.
Lemma count_delims_token tok : keyword_message_token tok -> count_delims tok = 1%nat.
Proof.
  intros (i & [->| ->] & Hi); rewrite count_delims_app, (count_delims_identifier i Hi); reflexivity.
Qed.
Lemma keyword_args m name args : keyword_message m name args -> length args = count_delims name.
Proof.
  induction 1; cbn [length].
  - now rewrite count_delims_token.
  - rewrite count_delims_app, (count_delims_token tok), IHkeyword_message; auto.
Qed.
Lemma message_args m name args : message m name args -> length args = count_delims name \/ single_q name.
Proof.
  intros [s H|s n r H].
  - destruct H as [H|(i & -> & H)]; [left|right; now exists i]. now rewrite count_delims_identifier.
  - left. eapply keyword_args; eauto.
Qed.
Lemma statement_args line a name args : statement line a name args -> length args = count_delims name \/ single_q name.
Proof. intros (sp0 & s & sp1 & msg & sp2 & sp3 & _ & _ & _ & _ & _ & H & _). eapply message_args; eauto. Qed.
Lemma nargs_excuse_single line a name args : statement line a name args -> nargs_excuse name args -> single_q name.
Proof. intros H [H1|H1]; auto. apply statement_args in H as [H|H]; auto. contradiction. Qed.

(** ** the arguments are pieces of the line *)
Lemma keyword_bytes m name args : keyword_message m name args -> forall a x, In a args -> In x a -> In x m.
Proof.
  induction 1; intros b x Hb Hx.
  - destruct Hb as [<-|[]]. rewrite !in_app_iff. auto.
  - destruct Hb as [<-|Hb]; rewrite !in_app_iff; auto. right. right. right. right. right. eauto.
Qed.
Lemma statement_bytes line a name args : statement line a name args -> forall b x, In b args -> In x b -> In x line.
Proof.
  intros (sp0 & s & sp1 & msg & sp2 & sp3 & -> & _ & _ & _ & _ & H & _) b x Hb Hx.
  assert (In x msg) by (destruct H; [easy|eapply keyword_bytes; eauto]). rewrite !in_app_iff. auto 10.
Qed.
Lemma statement_clean nl line a name args : statement line a name args -> clean nl line -> Forall (clean nl) args.
Proof.
  intros H Hc. apply Forall_forall. intros b Hb. apply Forall_forall. intros x Hx.
  unfold clean in Hc. rewrite Forall_forall in Hc. apply Hc. eapply statement_bytes; eauto.
Qed.

(** ** names contain no newline *)
Lemma variable_clean nl n : variable n -> clean nl n.
Proof.
  intros H. apply variable_nsp in H. apply Forall_forall. intros c Hc _ ->.
  rewrite Forall_forall in H. apply (H _ Hc). left. cbn. lia.
Qed.

(** ** type names without their spaces *)
Lemma remove_spaces_app a b : remove_spaces (a ++ b) = (remove_spaces a ++ remove_spaces b)%list.
Proof. induction a as [|c a IH]; cbn; [reflexivity|]. destruct (is_space c); cbn; now rewrite IH. Qed.
Lemma remove_spaces_spaces a : spaces a -> remove_spaces a = [].
Proof. induction 1 as [|c a Hc Ha IH]; cbn; [reflexivity|]. apply is_space_iff in Hc. now rewrite Hc. Qed.
Lemma remove_spaces_nsp a : Forall nsp a -> remove_spaces a = a.
Proof. induction 1 as [|c a Hc Ha IH]; cbn; [reflexivity|]. apply is_space_false in Hc. now rewrite Hc, IH. Qed.
Lemma remove_spaces_vector s t : vector_type s t -> remove_spaces s = (B "Vector<" ++ t ++ B ">")%list.
Proof.
  intros (s1 & s2 & -> & H1 & H2 & Ht). rewrite !remove_spaces_app, (remove_spaces_spaces s1), (remove_spaces_spaces s2) by auto.
  rewrite (remove_spaces_nsp t) by now apply object_type_nsp. reflexivity.
Qed.
Lemma remove_spaces_set s t : set_type s t -> remove_spaces s = (B "Set<" ++ t ++ B ">")%list.
Proof.
  intros (s1 & s2 & -> & H1 & H2 & Ht). rewrite !remove_spaces_app, (remove_spaces_spaces s1), (remove_spaces_spaces s2) by auto.
  rewrite (remove_spaces_nsp t) by now apply object_type_nsp. reflexivity.
Qed.
Lemma remove_spaces_dictionary s k v : dictionary_type s k v -> remove_spaces s = (B "Dictionary<" ++ k ++ B "," ++ v ++ B ">")%list.
Proof.
  intros (s1 & s2 & s3 & s4 & -> & H1 & H2 & H3 & H4 & Hk & Hv).
  rewrite !remove_spaces_app, (remove_spaces_spaces s1), (remove_spaces_spaces s2), (remove_spaces_spaces s3), (remove_spaces_spaces s4) by auto.
  rewrite (remove_spaces_nsp k), (remove_spaces_nsp v) by now apply object_type_nsp. reflexivity.
Qed.

Lemma cases_object (P : str -> Prop) t : P $"Boolean" -> P $"Character" -> P $"Integer" -> P $"Float" -> P $"String" -> object_type t -> P t.
Proof. intros H1 H2 H3 H4 H5 [->|[->|[->|[->| ->]]]]; assumption. Qed.

Lemma construct_vector t m args : object_type t ->
  construct (B "Vector<" ++ t ++ B ">") m args = (et <- lift (Ok t) ;; container_create (IVector et []) m args).
Proof. apply (cases_object (fun t => construct (B "Vector<" ++ t ++ B ">") m args = (et <- lift (Ok t) ;; container_create (IVector et []) m args)) t); reflexivity. Qed.
Lemma construct_set t m args : object_type t ->
  construct (B "Set<" ++ t ++ B ">") m args = (et <- lift (Ok t) ;; container_create (ISet et []) m args).
Proof. apply (cases_object (fun t => construct (B "Set<" ++ t ++ B ">") m args = (et <- lift (Ok t) ;; container_create (ISet et []) m args)) t); reflexivity. Qed.
Lemma construct_dictionary k v m args c : object_type k -> object_type v ->
  construct (B "Dictionary<" ++ k ++ B "," ++ v ++ B ">") m args c = container_create (IDict k v []) m args c.
Proof.
  intros Hk Hv. destruct Hk as [->|[->|[->|[->| ->]]]], Hv as [->|[->|[->|[->| ->]]]].
  all: match goal with |- construct _ ?m ?args ?c = container_create ?e ?m ?args ?c =>
    change (bind (bind (container_create e m args) (fun i => ret (Some i)))
                 (fun i => match i with Some i => ret i | None => undefined NullDeref end) c = container_create e m args c) end.
  all: unfold bind, ret; match goal with |- context [container_create ?e ?m ?a ?c] => destruct (container_create e m a c) as [? [?|?|?]] end; reflexivity.
Qed.


(** ** creation *)
Lemma is_create_iff m : is_create m = true <-> without_value m.
Proof. unfold is_create, without_value. rewrite orb_true_iff, !seq_eqb_eq. reflexivity. Qed.
Lemma is_create_with_iff m : is_create_with m = true <-> with_value m.
Proof. unfold is_create_with, with_value. rewrite orb_true_iff, !seq_eqb_eq. reflexivity. Qed.

(** Outcome of a constructor. *)
Definition made (t m : bytes) (args : list bytes) (r : res creation) : Prop :=
  match r with
  | Ok (n, i) => creates t m args n i
  | Throw e => msg_exc m args e /\ (forall n i, ~ creates t m args n i) /\ (e = InvalidMessage <-> ~ understands t m)
  | UB u => num_ub u /\ object_type t /\ with_value m /\
            exists n l, args = [n; l] /\ variable n /\ get_shared_instance t l = UB u
  end.
Lemma count_with m : with_value m -> count_delims m = 2%nat.
Proof. intros [->| ->]; reflexivity. Qed.
Lemma count_without m : without_value m -> count_delims m = 1%nat.
Proof. intros [->| ->]; reflexivity. Qed.
Lemma with_not_without m : with_value m -> ~ without_value m.
Proof. intros [->| ->] [H|H]; discriminate. Qed.
Lemma vector_type_not_object t e : vector_type t e -> ~ object_type t.
Proof. intros (s1 & s2 & -> & _) [H|[H|[H|[H|H]]]]; discriminate. Qed.
Lemma set_type_not_object t e : set_type t e -> ~ object_type t.
Proof. intros (s1 & s2 & -> & _) [H|[H|[H|[H|H]]]]; try discriminate. Qed.
Lemma dictionary_type_not_object t k v : dictionary_type t k v -> ~ object_type t.
Proof. intros (s1 & s2 & s3 & s4 & -> & _) [H|[H|[H|[H|H]]]]; discriminate. Qed.
Lemma vector_not_set t e e' : vector_type t e -> ~ set_type t e'.
Proof. intros (s1 & s2 & -> & _) (s1' & s2' & H & _). discriminate. Qed.
Lemma vector_not_dictionary t e k v : vector_type t e -> ~ dictionary_type t k v.
Proof. intros (s1 & s2 & -> & _) (a & b & c & d & H & _). discriminate. Qed.
Lemma set_not_dictionary t e k v : set_type t e -> ~ dictionary_type t k v.
Proof. intros (s1 & s2 & -> & _) (a & b & c & d & H & _). discriminate. Qed.
Lemma vector_type_unique t e e' : vector_type t e -> vector_type t e' -> e = e'.
Proof.
  intros H H'. apply remove_spaces_vector in H, H'. rewrite H in H'. apply app_inv_head in H'. now apply app_inv_tail in H'.
Qed.
Lemma set_type_unique t e e' : set_type t e -> set_type t e' -> e = e'.
Proof.
  intros H H'. apply remove_spaces_set in H, H'. rewrite H in H'. apply app_inv_head in H'. now apply app_inv_tail in H'.
Qed.
Lemma dictionary_types_objects t k v : dictionary_type t k v -> object_type k /\ object_type v.
Proof. intros (a & b & c & d & _ & _ & _ & _ & _ & Hk & Hv). auto. Qed.
Lemma dictionary_type_unique t k v k' v' : dictionary_type t k v -> dictionary_type t k' v' -> k = k' /\ v = v'.
Proof.
  intros H H'. destruct (dictionary_types_objects _ _ _ H) as [Ok Ov]. destruct (dictionary_types_objects _ _ _ H') as [Ok' Ov'].
  apply remove_spaces_dictionary in H, H'. rewrite H in H'. clear H. apply app_inv_head in H'.
  assert (K : forall a b x y, Forall (fun x => ceq x c_comma = false) a -> Forall (fun x => ceq x c_comma = false) b ->
    (a ++ c_comma :: x = b ++ c_comma :: y)%list -> a = b /\ x = y).
  { induction a as [|p a IH]; intros [|q b] x y Ha Hb E; cbn in E; inversion E; subst; auto.
    - inversion Hb. discriminate.
    - inversion Ha. discriminate.
    - inversion Ha; inversion Hb; subst. destruct (IH b x y) as [-> ->]; auto. }
  destruct (K _ _ _ _ (object_type_no_comma _ Ok) (object_type_no_comma _ Ok') H') as [-> E].
  split; [reflexivity|]. now apply app_inv_tail in E.
Qed.
Ltac not_created :=
  let H := fresh "Hcr" in intros ? ? H; inversion H; subst;
  repeat match goal with
  | A : vector_type ?t _, B : object_type ?t |- _ => exact (vector_type_not_object _ _ A B)
  | A : set_type ?t _, B : object_type ?t |- _ => exact (set_type_not_object _ _ A B)
  | A : dictionary_type ?t _ _, B : object_type ?t |- _ => exact (dictionary_type_not_object _ _ _ A B)
  | A : with_value ?m, B : ~ with_value ?m |- _ => exact (B A)
  | A : without_value ?m, B : ~ without_value ?m |- _ => exact (B A)
  | A : without_value ?m, B : with_value ?m |- _ => exact (with_not_without _ B A)
  | A : variable ?n, B : is_variable ?n = false |- _ => apply is_variable_iff in A; congruence
  end.

Lemma args1 (args : list str) : length args = 1%nat -> exists a, args = [a].
Proof. destruct args as [|a [|]]; try discriminate. eauto. Qed.
Lemma args2 (args : list str) : length args = 2%nat -> exists a b, args = [a; b].
Proof. destruct args as [|a [|b [|]]]; try discriminate. eauto. Qed.

(** The five value constructors are [get_shared_instance] of the type. *)
Definition object_create (t m : str) (args : list str) : res creation :=
  if is_create_with m then
    match args with
    | [a0; a1] => if negb (is_variable a0) then Throw InvalidArgument
                  else let! x := get_shared_instance t a1 in Ok (a0, IObj x)
    | _ => Throw WrongNumberOfArguments
    end
  else Throw InvalidMessage.
Lemma boolean_create_eq {S} m args (s : S) : boolean_create m args s = (s, object_create $"Boolean" m args).
Proof.
  unfold boolean_create, object_create. destruct (is_create_with m); [|reflexivity].
  destruct args as [|a [|b [|]]]; try reflexivity. cbn [length bind check_nargs throw_if negb Nat.eqb arg nth_error ret].
  unfold get_shared_instance. change (seq_eqb $"Boolean" $"Boolean") with true. cbv iota. unfold boolean_of.
  unfold bind, check_nargs, arg, ret, throw_if, throw. cbn [length Nat.eqb negb nth_error].
  destruct (is_variable a); cbn [negb orb]; [|reflexivity]. destruct (is_boolean_value b); reflexivity.
Qed.
Lemma character_create_eq {S} m args (s : S) : character_create m args s = (s, object_create $"Character" m args).
Proof.
  unfold character_create, object_create. destruct (is_create_with m); [|reflexivity].
  destruct args as [|a [|b [|]]]; try reflexivity.
  change (get_shared_instance $"Character" b) with (let! c := character_of b in Ok (OChar c)). unfold character_of.
  unfold bind, check_nargs, arg, ret, throw_if, throw, lift. cbn [length Nat.eqb negb nth_error].
  destruct (is_variable a); cbn [negb orb]; [|reflexivity]. destruct (is_character_value b); cbn [negb]; [|reflexivity].
  destruct (str_at b 1); reflexivity.
Qed.
Lemma integer_create_eq {S} m args (s : S) : integer_create m args s = (s, object_create $"Integer" m args).
Proof.
  unfold integer_create, object_create. destruct (is_create_with m); [|reflexivity].
  destruct args as [|a [|b [|]]]; try reflexivity.
  change (get_shared_instance $"Integer" b) with (let! c := integer_of b in Ok (OInt c)). unfold integer_of.
  unfold bind, check_nargs, arg, ret, throw_if, throw, lift. cbn [length Nat.eqb negb nth_error].
  destruct (is_variable a); cbn [negb orb]; [|reflexivity]. destruct (negb (is_integer_value b) && negb (is_float_value b)); [reflexivity|].
  destruct (let! d := number_of b in double_to_int d); reflexivity.
Qed.
Lemma float_create_eq {S} m args (s : S) : float_create m args s = (s, object_create $"Float" m args).
Proof.
  unfold float_create, object_create. destruct (is_create_with m); [|reflexivity].
  destruct args as [|a [|b [|]]]; try reflexivity.
  change (get_shared_instance $"Float" b) with (let! c := float_of b in Ok (OFloat c)). unfold float_of.
  unfold bind, check_nargs, arg, ret, throw_if, throw, lift. cbn [length Nat.eqb negb nth_error].
  destruct (is_variable a); cbn [negb orb]; [|reflexivity]. destruct (is_float_value b); reflexivity.
Qed.
Lemma string_create_eq {S} m args (s : S) : string_create m args s =
  if is_create m then container_create (IObj (OStr [])) m args s else (s, object_create $"String" m args).
Proof.
  unfold string_create, object_create, container_create. destruct (is_create m); [reflexivity|].
  destruct (is_create_with m); [|reflexivity].
  destruct args as [|a [|b [|]]]; try reflexivity.
  change (get_shared_instance $"String" b) with (let! c := string_of b in Ok (OStr c)). unfold string_of.
  unfold bind, check_nargs, arg, ret, throw_if, throw, lift. cbn [length Nat.eqb negb nth_error].
  destruct (is_variable a); cbn [negb orb]; [|reflexivity]. destruct (is_string_value b); cbn [negb]; [|reflexivity].
  destruct (unquote b); reflexivity.
Qed.
Lemma nargs_bad m (args : list str) n : count_delims m = n -> length args <> n -> nargs_excuse m args.
Proof. intros H1 H2. left. congruence. Qed.
Lemma clean_false a : clean false a.
Proof. apply Forall_forall. intros ? _ ?. discriminate. Qed.
Lemma object_create_made t m args : object_type t -> (t = B "String" -> ~ without_value m) -> made t m args (object_create t m args).
Proof.
  intros Ht Hs. unfold object_create. destruct (is_create_with m) eqn:Em.
  - apply is_create_with_iff in Em. assert (Hw : ~ without_value m) by now apply with_not_without.
    assert (Hu : understands t m) by (left; auto).
    assert (Hi : forall e0, e0 <> InvalidMessage -> (e0 = InvalidMessage <-> ~ understands t m)) by (intros e0 He0; split; [contradiction|tauto]).
    destruct args as [|a [|b [|]]];
      try (split; [right; right; split; [reflexivity|]; apply (nargs_bad m _ 2 (count_with m Em)); cbn; lia|split; [not_created|now apply Hi]]).
    destruct (is_variable a) eqn:Ev; cbn [negb]; [|split; [now left|split; [not_created|now apply Hi]]].
    apply is_variable_iff in Ev. assert (X := get_shared_instance_cases false t b Ht (clean_false b)).
    destruct (get_shared_instance t b) as [x|e|u] eqn:Eg; cbn [rbind made].
    + apply creates_object; auto. now apply get_literal.
    + subst e. split; [now left|]. split; [|now apply Hi]. not_created. lits. congruence.
    + split; [exact X|]. split; [exact Ht|]. split; [exact Em|]. exists a, b. auto.
  - assert (Hw : ~ with_value m) by (rewrite <- is_create_with_iff; congruence).
    assert (Hu : ~ understands t m).
    { intros [[_ H]|[[H|H] H']]; [contradiction|now apply Hs|].
      destruct H as [[e H]|[[e H]|(k & v & H)]];
        [eapply vector_type_not_object|eapply set_type_not_object|eapply dictionary_type_not_object]; eauto. }
    split; [right; now left|]. split; [|tauto]. intros n i H. apply Hu. inversion H; subst; unfold understands, container_type; eauto 8.
Qed.
Lemma container_create_pure {S} e m args (s : S) : fst (container_create e m args s) = s.
Proof.
  unfold container_create. destruct (is_create m); [|reflexivity]. destruct args as [|a [|]]; try reflexivity.
  unfold bind, check_nargs, arg, ret, throw_if, throw. cbn [length Nat.eqb negb nth_error]. destruct (is_variable a); reflexivity.
Qed.
Lemma container_create_made {S} t e m args (s : S) :
  (forall n, without_value m -> variable n -> creates t m [n] n e) ->
  (forall args n i, creates t m args n i -> without_value m /\ exists n, args = [n] /\ variable n) ->
  (understands t m <-> without_value m) ->
  made t m args (snd (container_create e m args s)).
Proof.
  intros H1 H2 H3. unfold container_create. destruct (is_create m) eqn:Em.
  - apply is_create_iff in Em. assert (Hu : understands t m) by now apply H3.
    assert (Hi : forall e0, e0 <> InvalidMessage -> (e0 = InvalidMessage <-> ~ understands t m)) by (intros e0 He0; split; [contradiction|tauto]).
    destruct args as [|a [|]].
    + split; [right; right; split; [reflexivity|]; apply (nargs_bad m _ 1 (count_without m Em)); cbn; lia|].
      split; [|now apply Hi]. intros n i H. apply H2 in H as (_ & x & H & _). discriminate.
    + unfold bind, check_nargs, arg, ret, throw_if, throw. cbn [length Nat.eqb negb nth_error].
      destruct (is_variable a) eqn:Ev; cbn [snd made negb].
      * apply H1; auto. now apply is_variable_iff.
      * split; [now left|]. split; [|now apply Hi]. intros n i H. apply H2 in H as (_ & x & H & Hv). inversion H; subst. apply is_variable_iff in Hv. congruence.
    + split; [right; right; split; [reflexivity|]; apply (nargs_bad m _ 1 (count_without m Em)); cbn; lia|].
      split; [|now apply Hi]. intros n i H. apply H2 in H as (_ & x & H & _). discriminate.
  - assert (Hu : ~ without_value m) by (rewrite <- is_create_iff; congruence).
    split; [right; now left|]. split; [|tauto]. intros n i H. apply H2 in H as (H & _). contradiction.
Qed.
Lemma understands_container t m : container_type t -> (understands t m <-> without_value m).
Proof.
  intros H. split; [intros [[Ho _]|[_ Hw]]; auto|intros Hw; right; auto]. exfalso.
  destruct H as [[e H]|[[e H]|(k & v & H)]];
    [eapply vector_type_not_object|eapply set_type_not_object|eapply dictionary_type_not_object]; eauto.
Qed.
Lemma construct_made t m args c : type t ->
  exists r, construct (remove_spaces t) m args c = (c, r) /\ made t m args r.
Proof.
  intros [Ht|[[e Ht]|[[e Ht]|(k & v & Ht)]]].
  - rewrite (remove_spaces_nsp t) by now apply object_type_nsp.
    destruct Ht as [->|[->|[->|[->| ->]]]].
    + exists (object_create $"Boolean" m args). split; [apply (@boolean_create_eq context)|]. apply object_create_made; [left; reflexivity|discriminate].
    + exists (object_create $"Character" m args). split; [apply (@character_create_eq context)|]. apply object_create_made; [right; left; reflexivity|discriminate].
    + exists (object_create $"Integer" m args). split; [apply (@integer_create_eq context)|]. apply object_create_made; [right; right; left; reflexivity|discriminate].
    + exists (object_create $"Float" m args). split; [apply (@float_create_eq context)|]. apply object_create_made; [right; right; right; left; reflexivity|discriminate].
    + change (exists r, string_create m args c = (c, r) /\ made (B "String") m args r). rewrite string_create_eq.
      assert (Ho : object_type (B "String")) by (right; right; right; right; reflexivity).
      destruct (is_create m) eqn:Em.
      * assert (Hp := container_create_pure (IObj (OStr [])) m args c).
        assert (Hm := container_create_made (B "String") (IObj (OStr [])) m args c).
        destruct (container_create (IObj (OStr [])) m args c) as [c' r]. cbn [fst snd] in *. subst c'. exists r. split; [reflexivity|].
        apply Hm.
        -- intros n Hw Hv. now apply creates_string.
        -- apply is_create_iff in Em. intros ar n i H. inversion H; subst; split; auto; try (eexists; split; [reflexivity|assumption]).
           exfalso. eapply with_not_without; eauto.
        -- apply is_create_iff in Em. split; [auto|]. intros _. right. auto.
      * exists (object_create $"String" m args). split; [reflexivity|]. apply object_create_made; auto. intros _. rewrite <- is_create_iff. congruence.
  - rewrite (remove_spaces_vector t e Ht). assert (He : object_type e) by now destruct Ht as (? & ? & _ & _ & _ & ?).
    rewrite construct_vector by auto. change ((et <- lift (Ok e) ;; container_create (IVector et []) m args) c) with (container_create (IVector e []) m args c).
    assert (Hp := container_create_pure (IVector e []) m args c). assert (Hm := container_create_made t (IVector e []) m args c).
    destruct (container_create (IVector e []) m args c) as [c' r]. cbn [fst snd] in *. subst c'. exists r. split; [reflexivity|]. apply Hm.
    + intros n Hw Hv. now apply creates_vector.
    + intros ar n i H. inversion H; subst; split; auto; try (eexists; split; [reflexivity|assumption]).
      exfalso. eapply vector_type_not_object; eauto. exfalso. eapply vector_type_not_object; eauto.
    + apply understands_container. left; eauto.
  - rewrite (remove_spaces_set t e Ht). assert (He : object_type e) by now destruct Ht as (? & ? & _ & _ & _ & ?).
    rewrite construct_set by auto. change ((et <- lift (Ok e) ;; container_create (ISet et []) m args) c) with (container_create (ISet e []) m args c).
    assert (Hp := container_create_pure (ISet e []) m args c). assert (Hm := container_create_made t (ISet e []) m args c).
    destruct (container_create (ISet e []) m args c) as [c' r]. cbn [fst snd] in *. subst c'. exists r. split; [reflexivity|]. apply Hm.
    + intros n Hw Hv. now apply creates_set.
    + intros ar n i H. inversion H; subst; split; auto; try (eexists; split; [reflexivity|assumption]).
      exfalso. eapply set_type_not_object; eauto. exfalso. eapply set_type_not_object; eauto.
    + apply understands_container. right; left; eauto.
  - rewrite (remove_spaces_dictionary t k v Ht). destruct (dictionary_types_objects _ _ _ Ht) as [Hk Hv].
    rewrite construct_dictionary by auto.
    assert (Hp := container_create_pure (IDict k v []) m args c). assert (Hm := container_create_made t (IDict k v []) m args c).
    destruct (container_create (IDict k v []) m args c) as [c' r]. cbn [fst snd] in *. subst c'. exists r. split; [reflexivity|]. apply Hm.
    + intros n Hw Hn. now apply creates_dictionary.
    + intros ar n i H. inversion H; subst; split; auto; try (eexists; split; [reflexivity|assumption]).
      exfalso. eapply dictionary_type_not_object; eauto. exfalso. eapply dictionary_type_not_object; eauto.
    + apply understands_container. right; right; eauto.
Qed.

(** ** the name table *)
Lemma smap_assign_same {V} (l : list (str * V)) k v : keys_sorted l -> assoc l k = Some v -> smap_assign l k v = l.
Proof.
  unfold keys_sorted. induction l as [|[x w] l IH]; cbn; intros Hs H; [discriminate|]. inversion Hs; subst.
  destruct (bytes_dec x k) as [->|Hn].
  - inversion H; subst. now rewrite str_ltb_irrefl.
  - apply assoc_some_in in H as Hin. assert (Hl : str_ltb x k = true).
    { rewrite Forall_forall in H3. apply H3. apply in_map_iff. now exists (k, v). }
    rewrite Hl. now rewrite IH.
Qed.
Lemma set_instances_same c : set_instances c (instances c) = c.
Proof. now destruct c. Qed.

Lemma dispatch_cases {S} (P : M S str -> Prop) table msg args :
  P (throw InvalidMessage) -> Forall (fun p => msg = fst p -> P (snd p args)) table -> P (dispatch table msg args).
Proof.
  intros H0 H. induction H as [|[name op] table Hop Ht IH]; cbn [dispatch]; [exact H0|].
  destruct (seq_eqb msg name) eqn:E; [|exact IH]. apply seq_eqb_eq in E. now apply Hop.
Qed.

Definition entry_good (nl : bool) (e : str * inst) : Prop := variable (fst e) /\ inst_good nl (snd e).
Definition ctx_good (nl : bool) (c : context) : Prop :=
  keys_sorted (instances c) /\ Forall (entry_good nl) (instances c).
Lemma ctx_good_lookup nl c n i : ctx_good nl c -> lookup c n = Some i -> variable n /\ inst_good nl i.
Proof. intros [_ H] Hl. apply assoc_some_in in Hl. rewrite Forall_forall in H. apply (H _ Hl). Qed.
Lemma ctx_good_assign nl c n i : ctx_good nl c -> variable n -> inst_good nl i ->
  ctx_good nl (set_instances c (smap_assign (instances c) n i)).
Proof.
  intros [H1 H2] Hn Hi. split; cbn [set_instances instances].
  - now apply smap_assign_sorted.
  - apply Forall_forall. intros [m j] Hin. apply smap_assign_in in Hin as [[-> ->]|Hin]; [now split|].
    rewrite Forall_forall in H2. now apply H2.
Qed.
Lemma keys_sorted_sublist {V} (p : str * V -> bool) l : keys_sorted l -> keys_sorted (filter p l).
Proof.
  unfold keys_sorted. induction l as [|[k v] l IH]; cbn; intros H; [exact H|]. inversion H; subst.
  destruct (p (k, v)); cbn; auto. constructor; auto.
  apply Forall_forall. intros x Hx. rewrite Forall_forall in H3. apply H3.
  apply in_map_iff in Hx as (y & <- & Hy). apply filter_In in Hy as [Hy _]. now apply in_map.
Qed.
Lemma erase_name_filter l a l' : keys_sorted l -> erase_name l a = Some l' -> l' = filter (fun e => negb (seq_eqb (fst e) a)) l.
Proof.
  unfold keys_sorted. revert l'. induction l as [|[k i] l IH]; cbn; intros l' Hs H; [discriminate|]. inversion Hs; subst.
  destruct (seq_eqb k a) eqn:E; cbn [negb].
  - inversion H; subst. apply seq_eqb_eq in E. subst k. clear - H3. induction l' as [|[k i] l IH]; [reflexivity|].
    cbn in *. inversion H3; subst. assert (Hk : seq_eqb k a = false).
    { apply seq_eqb_neq. intros ->. rewrite str_ltb_irrefl in H1. discriminate. }
    rewrite Hk. cbn. f_equal. auto.
  - destruct (erase_name l a) as [r|] eqn:Er; [|discriminate]. inversion H; subst. f_equal. auto.
Qed.
Lemma erase_name_none l a : erase_name l a = None -> assoc l a = None.
Proof.
  induction l as [|[k i] l IH]; cbn; [reflexivity|]. destruct (bytes_dec k a) as [->|Hn].
  - now rewrite seq_eqb_refl.
  - apply seq_eqb_neq in Hn. rewrite Hn. destruct (erase_name l a); [discriminate|]. auto.
Qed.
Lemma assoc_filter {V} (p : str -> bool) (l : list (str * V)) n :
  assoc (filter (fun e => p (fst e)) l) n = if p n then assoc l n else None.
Proof.
  induction l as [|[k v] l IH]; cbn; [now destruct (p n)|].
  destruct (p k) eqn:E; cbn; destruct (bytes_dec k n) as [->|Hn]; rewrite ?E; auto.
  - rewrite IH. now rewrite E.
Qed.
Lemma ctx_good_filter nl c p : ctx_good nl c -> ctx_good nl (set_instances c (filter p (instances c))).
Proof. intros [H1 H2]. split; cbn [set_instances instances]; [now apply keys_sorted_sublist|now apply Forall_filter]. Qed.

(** ** messages to Context *)
Lemma clean_names l nl : Forall (clean nl) l -> answer_ok nl ($"[" ++ comma_sep l ++ $"]")%list.
Proof.
  intros H. split; [apply success_wrap; [reflexivity|discriminate]|]. rewrite !clean_app. repeat split; try (apply clean_lit; reflexivity).
  now apply clean_comma_sep.
Qed.
Lemma names_loop_clean nl ns l : Forall (entry_good nl) l -> forall acc, clean nl acc -> clean nl (names_loop ns l acc).
Proof.
  induction 1 as [|[k i] l [Hk _] Hl IH]; intros acc Ha; cbn [names_loop]; [exact Ha|]. apply IH.
  destruct (starts_with _ _); [|exact Ha]. apply (variable_clean nl) in Hk.
  destruct (_ <? _); rewrite !clean_app; repeat split; auto. apply clean_lit. reflexivity.
Qed.
Lemma sset_insert_Forall (P : str -> Prop) l k : Forall P l -> P k -> Forall P (sset_insert l k).
Proof. intros H Hk. induction H; cbn; auto. destruct (str_ltb x k); auto. destruct (str_ltb k x); auto. Qed.
Lemma namespaces_of_clean nl rest : forall before acc, clean nl rest -> clean nl before -> Forall (clean nl) acc ->
  Forall (clean nl) (namespaces_of rest before acc).
Proof.
  induction rest as [|c r IH]; intros before acc Hr Hb Ha; cbn [namespaces_of]; [exact Ha|].
  apply clean_cons in Hr as [Hc Hr]. destruct r as [|d r']; [exact Ha|]. apply IH; auto; [now constructor|].
  destruct (_ && _); [|exact Ha]. apply sset_insert_Forall; auto. now apply Forall_rev.
Qed.
Lemma fold_namespaces_clean nl l : Forall (entry_good nl) l -> forall acc, Forall (clean nl) acc ->
  Forall (clean nl) (fold_left (fun acc e => namespaces_of (fst e) [] acc) l acc).
Proof.
  induction 1 as [|[k i] l [Hk _] Hl IH]; intros acc Ha; cbn [fold_left fst]; [exact Ha|]. apply IH.
  apply namespaces_of_clean; auto; [now apply variable_clean|constructor].
Qed.
Definition ctx_exc (msg : str) (args : list str) (e : exc) : Prop := msg_exc msg args e \/ e = UnexistentVariable.
Definition ctxg (nl : bool) (msg : str) (args : list str) (c c' : context) (r : res str) : Prop :=
  ctx_good nl c' /\ match r with Ok a => answer_ok nl a | Throw e => c' = c /\ ctx_exc msg args e | UB u => num_ub u end.
Lemma float_of_cases a : match float_of a with Ok _ => True | Throw e => e = InvalidArgument | UB _ => False end.
Proof. unfold float_of. destruct (is_float_value a); cbn; auto. Qed.
Lemma context_good nl msg args c : ctx_good nl c ->
  wp (execute_in_context {| p_actor := B "Context"; p_message := msg; p_args := args |}) c (ctxg nl msg args c).
Proof.
  intros Hc. assert (Hc' := Hc). destruct Hc' as [Hk He]. unfold execute_in_context. cbn [p_message p_args].
  assert (Bad : forall n, count_delims msg = n -> length args <> n -> ctxg nl msg args c c (Throw WrongNumberOfArguments)).
  { intros n H1 H2. split; auto. split; auto. left. right. right. split; auto. left. congruence. }
  assert (Inv : ctxg nl msg args c c (Throw InvalidArgument)) by (split; auto; split; auto; left; now left).
  apply dispatch_cases.
  - apply wp_throw. split; auto. split; auto. left. right. now left.
  - repeat apply Forall_cons; try apply Forall_nil; cbn [fst snd]; intros Hm.
    + unfold op_listNamespaces. repeat wpn; [apply (Bad 0%nat); auto; now rewrite Hm|].
      split; auto. apply clean_names. apply fold_namespaces_clean; auto.
    + unfold op_listVariables. repeat wpn; [apply (Bad 0%nat); auto; now rewrite Hm|].
      split; auto. apply clean_names. apply Forall_map. eapply Forall_impl; [|exact He]. intros e [Hv _]. now apply variable_clean.
    + unfold op_listVariablesOfNamespace. repeat wpn; [apply (Bad 1%nat); auto; now rewrite Hm|exact Inv|].
      split; auto. split; [apply success_wrap; [reflexivity|discriminate]|]. rewrite !clean_app. repeat split; try (apply clean_lit; reflexivity).
      apply names_loop_clean; auto. constructor.
    + unfold op_deleteVariable. repeat wpn; [apply (Bad 1%nat); auto; now rewrite Hm|exact Inv| |].
      * split; [|apply answer_null]. apply erase_name_filter in Heqo; auto. subst l. now apply ctx_good_filter.
      * split; auto. split; auto. now right.
    + unfold op_deleteVariablesOfNamespace. repeat wpn; [apply (Bad 1%nat); auto; now rewrite Hm|exact Inv|].
      split; [|apply answer_null]. now apply ctx_good_filter.
    + unfold op_getFloatPrecision. repeat wpn. split; auto. split; [apply success_to_string|apply clean_to_string].
    + unfold op_setFloatPrecision. repeat wpn; [apply (Bad 1%nat); auto; now rewrite Hm|].
      assert (X := integer_of_cases a). apply wp_lift. destruct (integer_of a) as [z|e|u]; intros ? <-; repeat wpn.
      * exact Inv.
      * split; [exact Hc|apply answer_null].
      * rewrite X. exact Inv.
      * split; auto.
    + unfold op_getFloatComparisonTolerance. repeat wpn. split; auto. split; [apply success_fixed_repr|apply clean_fixed_repr].
    + unfold op_setFloatComparisonTolerance. repeat wpn; [apply (Bad 1%nat); auto; now rewrite Hm|].
      assert (X := float_of_cases a). apply wp_lift. destruct (float_of a) as [z|e|u]; intros ? <-; repeat wpn.
      * exact Inv.
      * split; [exact Hc|apply answer_null].
      * rewrite X. exact Inv.
      * contradiction.
Qed.

(** ** messages to a type *)
Lemma creates_good nl t m args n i : creates t m args n i -> Forall (clean nl) args -> variable n /\ inst_good nl i.
Proof.
  intros H Ha. inversion H; subst; (split; [assumption|]); cbn [inst_good].
  - inversion Ha; subst. inversion H7; subst. lits. assert (X := get_shared_instance_cases nl t l H0 H8). rewrite H3 in X. apply X.
  - constructor.
  - destruct H0 as (? & ? & _ & _ & _ & ?). auto.
  - destruct H0 as (? & ? & _ & _ & _ & ?). auto.
  - destruct (dictionary_types_objects _ _ _ H0). auto.
Qed.
Definition type_exc (msg : str) (args : list str) (e : exc) : Prop := msg_exc msg args e \/ e = NameAlreadyUsed.
Lemma type_good nl t msg args c : type t -> ctx_good nl c -> Forall (clean nl) args ->
  wp (execute_in_type {| p_actor := t; p_message := msg; p_args := args |}) c
     (fun c' r => ctx_good nl c' /\ match r with Ok a => answer_ok nl a | Throw e => c' = c /\ type_exc msg args e | UB u => num_ub u end).
Proof.
  intros Ht Hc Ha. unfold execute_in_type. cbn [p_actor p_message p_args].
  destruct (construct_made t msg args c Ht) as (r & Er & Hm). apply wp_bind. unfold wp at 1. rewrite Er. cbn [fst snd].
  destruct r as [[n i]|e|u]; cbn [made] in Hm.
  - destruct (creates_good nl _ _ _ _ _ Hm Ha) as [Hn Hi]. repeat wpn; cbn [fst snd] in *.
    + split; [exact Hc|apply answer_null].
    + split; auto. split; auto. now right.
    + split; [|apply answer_null]. now apply ctx_good_assign.
  - split; auto. destruct Hm as [Hm _]. split; auto. now left.
  - split; auto. apply Hm.
Qed.
Lemma made_ub_not_created t m args u n i : made t m args (UB u) -> ~ creates t m args n i.
Proof.
  intros (_ & Ht & Hw & x & l & -> & _ & Hg) H. inversion H; subst. lits. congruence.
Qed.

(** ** messages to Connection *)
Definition session_exc (msg : str) (args : list str) (e : exc) : Prop := msg_exc msg args e \/ e = WrongPassword.
Lemma session_good pw msg args s :
  wp (session_receive pw msg args) s
     (fun s' r => match r with Ok a => a = null | Throw e => s' = s /\ session_exc msg args e | UB u => False end).
Proof.
  unfold session_receive. apply dispatch_cases.
  - apply wp_throw. split; auto. left. right. now left.
  - repeat apply Forall_cons; try apply Forall_nil; cbn [fst snd]; intros Hm.
    + unfold session_close. repeat wpn. reflexivity.
    + unfold session_authenticate. repeat wpn.
      * split; auto. left. right. right. split; auto. left. rewrite Hm. auto.
      * split; auto. left. now left.
      * apply negb_false_iff in H2. destruct (string_of_ok false a) as (v & -> & _); auto using clean_false.
        apply wp_lift; intros ? <-. repeat wpn; [reflexivity|]. split; auto. now right.
Qed.

(** ** any statement *)
Definition stmt_exc (msg : str) (args : list str) (e : exc) : Prop :=
  e = InvalidArgument \/ e = InvalidMessage \/ e = UnexistentVariable \/ e = NameAlreadyUsed \/ e = WrongPassword \/
  (e = WrongNumberOfArguments /\ single_q msg).
Lemma run_statement_good nl srt pw line a msg args c s :
  sort_contract srt -> ctx_good nl c -> clean nl line -> statement line a msg args ->
  wp (run_statement srt pw line) {| w_ctx := c; w_session := s |}
     (fun w' r => ctx_good nl (w_ctx w') /\ (a <> B "Connection" -> w_session w' = s) /\ (a = B "Connection" -> w_ctx w' = c) /\
        match r with
        | Ok t => answer_ok nl t
        | Throw e => w' = {| w_ctx := c; w_session := s |} /\ stmt_exc msg args e
        | UB u => ok_ub u \/ (u = NullDeref /\ s = None /\ a = B "Connection")
        end).
Proof.
  intros Hsrt Hc Hcl Hs. assert (Ha := statement_clean nl _ _ _ _ Hs Hcl).
  assert (Hm : forall e, msg_exc msg args e -> stmt_exc msg args e).
  { intros e [->|[->|[-> H]]]; unfold stmt_exc; auto. do 5 right. split; auto. eapply nargs_excuse_single; eauto. }
  assert (Hact : actor a) by (destruct Hs as (? & ? & ? & ? & ? & ? & _ & _ & H & _); exact H).
  unfold wp. destruct Hact as [->|[->|[Ht|Hv]]].
  - rewrite (run_connection srt pw line msg args _ Hs). unfold in_session. cbn [w_session w_ctx].
    destruct s as [s|]; cbn [fst snd w_session w_ctx].
    + assert (X := session_good pw msg args s). unfold wp in X. destruct (session_receive pw msg args s) as [s' r]. cbn [fst snd] in *.
      split; [exact Hc|]. split; [congruence|]. split; [reflexivity|].
      destruct r as [t|e|u]; [subst t; apply answer_null| |contradiction].
      destruct X as [-> [He| ->]]; split; auto. unfold stmt_exc; auto 10.
    + split; [exact Hc|]. split; [congruence|]. split; [reflexivity|]. right. auto.
  - rewrite (run_context srt pw line msg args _ Hs). unfold in_ctx. cbn [w_session w_ctx fst snd].
    assert (X := context_good nl msg args c Hc). unfold wp in X.
    destruct (execute_in_context {| p_actor := B "Context"; p_message := msg; p_args := args |} c) as [c' r]. cbn [fst snd] in *.
    destruct X as [X1 X2]. split; [exact X1|]. split; [reflexivity|]. split; [discriminate|].
    destruct r as [t|e|u]; auto.
    + destruct X2 as [-> [He| ->]]; split; auto. unfold stmt_exc; auto.
    + left. now left.
  - assert (Hnc : a <> B "Connection").
    { intros ->. apply is_type_iff in Ht. vm_compute in Ht. discriminate. }
    rewrite (run_type srt pw line a msg args _ Hs Ht). unfold in_ctx. cbn [w_session w_ctx fst snd].
    assert (X := type_good nl a msg args c Ht Hc Ha). unfold wp in X.
    destruct (execute_in_type {| p_actor := a; p_message := msg; p_args := args |} c) as [c' r]. cbn [fst snd] in *.
    destruct X as [X1 X2]. split; [exact X1|]. split; [reflexivity|]. split; [intros ->; congruence|].
    destruct r as [t|e|u]; auto.
    + destruct X2 as [-> [He| ->]]; split; auto. unfold stmt_exc; auto.
    + left. now left.
  - assert (Hnc : a <> B "Connection").
    { intros ->. apply is_variable_iff in Hv. vm_compute in Hv. discriminate. }
    rewrite (run_variable srt pw line a msg args _ Hs Hv). unfold in_ctx, execute_in_variable. cbn [w_session w_ctx fst snd p_actor p_message p_args].
    destruct (smap_find (instances c) a) as [i|] eqn:Ei; cbn [fst snd].
    + rewrite <- assoc_smap_find in Ei. destruct (ctx_good_lookup nl c a i Hc Ei) as [_ Hi].
      assert (X := receive_good nl (env_of srt c) i msg args Hsrt Hi Ha).
      destruct (receive (env_of srt c) i msg args) as [i' r]. cbn [fst snd] in *. destruct X as (X1 & X2 & X3).
      split; [now apply ctx_good_assign|]. split; [reflexivity|]. split; [congruence|].
      destruct r as [t|e|u]; auto. destruct X3 as [-> He]. split; auto.
      rewrite smap_assign_same, set_instances_same; auto. apply Hc.
    + split; [exact Hc|]. split; [reflexivity|]. split; [congruence|]. split; auto. unfold stmt_exc; auto.
Qed.

Lemma ctx_good_log nl input out c : ctx_good nl c -> ctx_good nl (write_log input out c).
Proof. unfold ctx_good. now rewrite write_log_instances. Qed.
(** The outcome of any line. *)
Lemma execute_good nl srt pw line c s : sort_contract srt -> ctx_good nl c -> clean nl line ->
  (exists c' s' t, runs srt pw c s line c' s' t /\ ctx_good nl c' /\ answer_ok nl t /\
     exists a msg args, statement line a msg args /\ (a <> B "Connection" -> s' = s) /\
                        (a = B "Connection" -> c' = write_log line t c)) \/
  (exists e, runs srt pw c s line (write_log line (exc_text e) c) s (exc_text e) /\
     ((e = InvalidStatement /\ forall a msg args, ~ statement line a msg args) \/
      exists a msg args, statement line a msg args /\ stmt_exc msg args e)) \/
  (exists u, undefined_behaviour srt pw c s line u /\
     (ok_ub u \/ (u = NullDeref /\ s = None /\ exists msg args, statement line (B "Connection") msg args))).
Proof.
  intros Hsrt Hc Hcl. unfold runs, undefined_behaviour.
  destruct (statement_dec line) as [(a & msg & args & Hs)|Hn].
  - assert (X := run_statement_good nl srt pw line a msg args c s Hsrt Hc Hcl Hs). unfold wp in X.
    destruct (run_statement srt pw line {| w_ctx := c; w_session := s |}) as [w' r] eqn:Er. cbn [fst snd] in X.
    destruct X as (X1 & X2 & X3 & X4). destruct r as [t|e|u].
    + left. rewrite (execute_ok _ _ _ _ _ _ Er) by (cbn; auto). cbn [text_of]. do 3 eexists. split; [reflexivity|].
      split; [now apply ctx_good_log|]. split; [exact X4|]. exists a, msg, args. split; [exact Hs|]. split; [exact X2|].
      intros E. now rewrite X3.
    + right. left. exists e. rewrite (execute_ok _ _ _ _ _ _ Er) by (cbn; auto). cbn [text_of]. destruct X4 as [-> He].
      cbn [w_ctx w_session]. split; [reflexivity|]. right. now exists a, msg, args.
    + right. right. exists u. split; [eapply execute_ub; eauto|]. destruct X4 as [X4|(-> & -> & ->)]; [now left|].
      right. eauto.
  - right. left. exists InvalidStatement. split; [|left; auto].
    unfold execute, run_statement, bind, lift. rewrite parse_not_statement by auto. reflexivity.
Qed.

(** ** reachable data *)
Lemma new_context_good nl o p t q : ctx_good nl (new_context o p t q).
Proof. split; constructor. Qed.
Lemma reachable_good srt pw c : sort_contract srt -> reachable srt pw c -> ctx_good false c.
Proof.
  intros Hsrt. induction 1 as [o p t q|c s line c' s' ans Hr IH Hrun]; [apply new_context_good|].
  destruct (execute_good false srt pw line c s Hsrt IH (clean_false _)) as [(c1 & s1 & t & H & Hg & _)|[(e & H & _)|(u & H & _)]].
  - unfold runs in *. rewrite Hrun in H. inversion H; subst. exact Hg.
  - unfold runs in *. rewrite Hrun in H. inversion H; subst. now apply ctx_good_log.
  - unfold runs, undefined_behaviour in *. rewrite Hrun in H. discriminate.
Qed.
Lemma inst_good_typed nl i : inst_good nl i -> well_typed i.
Proof.
  destruct i as [o|t v|t v|k v d]; cbn; auto.
  - intros [H1 H2]. split; auto. eapply Forall_impl; [|exact H2]. now intros ? [].
  - intros [H1 H2]. split; auto. eapply Forall_impl; [|exact H2]. now intros ? [].
  - intros (H1 & H2 & H3). split; auto. split; auto. eapply Forall_impl; [|exact H3]. now intros ? [[] []].
Qed.
Print Assumptions execute_good.
