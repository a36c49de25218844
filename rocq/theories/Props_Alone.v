(** Property C63: clients that keep to their own variables do not notice the others.
    Specification: [Spec_Alone]; model: [Context], [Server]. *)
From Coq Require Import ZArith Lia.
From Verif Require Import Bytes StrUtils Grammar Outcome Parser Num Containers Instance Context Server Platform.
From Verif Require Import Lemmas StringLit Proof_Grammar Proof_Parser Proof_Exec Proof_Inv Proof_Literal Proof_Receive Proof_Context Proof_Names Api Proof_Text Proof_Server Proof_Set Proof_Storable Proof_Local Props_State Props_Local Props_Server Props_Clients Proof_Order.
From Verif Require Import Spec_Grammar Spec_State Spec_Names Spec_Text Spec_Local Spec_Set Spec_Server Spec_Clients Spec_Alone.
Local Open Scope list_scope.

Lemma agree_trans_right (N : bytes -> Prop) c d c' d' : agree N c d -> (forall n, N n -> lookup c' n = lookup c n) -> same_settings c c' ->
  (forall n, N n -> lookup d' n = lookup d n) -> same_settings d d' -> agree N c' d'.
Proof. intros [A [P T]] L [P1 T1] L' [P2 T2]. split; [intros n Hn; rewrite L, L', A; auto|]. split; congruence. Qed.
Lemma only_answers_same srt pw c s line ans c' s' ans' : only_answers srt pw c s line ans -> runs srt pw c s line c' s' ans' ->
  s' = s /\ ans' = ans /\ same_data c c'.
Proof.
  intros (c1 & R1 & L & S) R. destruct (runs_unique _ _ _ _ _ _ _ _ _ _ _ R1 R) as (<- & <- & <-). split; auto. split; auto. split; auto.
Qed.
Lemma both_answer (N : bytes -> Prop) srt pw c d s line ans c' s' ans' : agree N c d -> only_answers srt pw c s line ans -> only_answers srt pw d s line ans ->
  runs srt pw c s line c' s' ans' -> exists d', runs srt pw d s line d' s' ans' /\ agree N c' d'.
Proof.
  intros A O (d' & R' & L' & S') R. destruct (only_answers_same _ _ _ _ _ _ _ _ _ O R) as (-> & -> & [L S]). exists d'. split; auto.
  eapply agree_trans_right; eauto.
Qed.
Lemma live_agree (N : bytes -> Prop) c d n : agree N c d -> N n -> (live d n <-> live c n).
Proof. intros [A _] Hn. unfold live. rewrite (A n Hn). tauto. Qed.
Lemma precedes_irrefl a : ~ precedes a a.
Proof. intros H. apply str_ltb_iff in H. rewrite str_ltb_irrefl in H. discriminate. Qed.
Lemma precedes_asym a b : precedes a b -> ~ precedes b a.
Proof. intros H1%str_ltb_iff H2%str_ltb_iff. assert (H3 := str_ltb_trans _ _ _ H1 H2). rewrite str_ltb_irrefl in H3. discriminate. Qed.
Lemma names_unique l l' : increasing l -> increasing l' -> (forall n, In n l <-> In n l') -> l = l'.
Proof. intros H1 H2 H. apply (sorted_unique precedes); auto. intros a b _ _. apply precedes_asym. Qed.

(** The same computation on two contexts that agree on [N]. *)
Definition both (N : bytes -> Prop) (m : M context str) (c d : context) : Prop := agree N (fst (m c)) (fst (m d)) /\ snd (m c) = snd (m d).
Lemma both_runs (N : bytes -> Prop) srt pw c d s line m c' s' ans :
  (forall x, run_statement srt pw line {| w_ctx := x; w_session := s |} = in_ctx m {| w_ctx := x; w_session := s |}) ->
  both N m c d -> runs srt pw c s line c' s' ans -> exists d', runs srt pw d s line d' s' ans /\ agree N c' d'.
Proof.
  intros E [A B] R. destruct (runs_statement _ _ _ _ _ _ _ _ R) as (w1 & r & E1 & U & -> & -> & ->). rewrite E in E1. unfold in_ctx in E1. cbn [w_ctx w_session] in E1.
  injection E1 as <- <-. assert (E2 := E d). unfold in_ctx in E2. cbn [w_ctx w_session] in E2. rewrite <- B in E2.
  eexists. split; [unfold runs; rewrite (execute_ok _ _ _ _ _ _ E2 U); reflexivity|]. cbn [w_ctx w_session].
  destruct A as [L [P T]]. split; [intros n Hn; rewrite !write_log_lookup; auto|]. split; [now rewrite !write_log_precision|now rewrite !write_log_tolerance].
Qed.
Lemma erase_name_some l a l' : erase_name l a = Some l' -> assoc l a <> None.
Proof.
  revert l'. induction l as [|[k i] l IH]; cbn [erase_name assoc]; intros l' H; [discriminate|]. destruct (bytes_dec k a) as [->|Hn]; [discriminate|].
  destruct (seq_eqb k a) eqn:E; [apply seq_eqb_eq in E; contradiction|]. destruct (erase_name l a) eqn:E2; [|discriminate]. eapply IH; eauto.
Qed.
Lemma context_both N m args c d : agree N c d -> keys_sorted (instances c) -> keys_sorted (instances d) ->
  m <> B "listNamespaces" -> m <> B "listVariables" -> (m = B "listVariablesOfNamespace:" -> forall ns, args <> [ns]) ->
  (m = B "deleteVariable:" -> Forall N args) ->
  both N (execute_in_context {| p_actor := B "Context"; p_message := m; p_args := args |}) c d.
Proof.
  intros A Kc Kd N1 N2 N3 N4. assert (A' := A). destruct A' as [L [P T]]. unfold execute_in_context. cbn [p_message p_args].
  match goal with |- both N (dispatch ?l m args) c d => pattern (dispatch l m args) end.
  apply dispatch_cases; [now split|]. repeat apply Forall_cons; try apply Forall_nil; cbn [fst snd]; intros Hm.
  - now destruct N1.
  - now destruct N2.
  - unfold both, op_listVariablesOfNamespace. unfold bind, check_nargs, arg, throw_if, throw, ret, get, put, undefined.
    destruct args as [|a [|b args]]; cbn [length Nat.eqb negb nth_error fst snd]; try (now split). destruct (N3 Hm a). reflexivity.
  - unfold both, op_deleteVariable. unfold bind, check_nargs, arg, throw_if, throw, ret, get, put, undefined.
    destruct args as [|a [|b args]]; cbn [length Nat.eqb negb nth_error fst snd]; try (now split).
    destruct (is_variable a); cbn [negb fst snd]; [|now split].
    assert (Na : N a) by (specialize (N4 Hm); inversion N4; auto).
    assert (X : forall x, keys_sorted (instances x) -> (erase_name (instances x) a = None /\ lookup x a = None) \/
              (erase_name (instances x) a = Some (filter (fun e => negb (seq_eqb (fst e) a)) (instances x)) /\ lookup x a <> None)).
    { intros x Kx. unfold lookup. destruct (erase_name (instances x) a) as [l|] eqn:E.
      - right. rewrite (erase_name_filter _ _ _ Kx E). split; [reflexivity|]. eapply erase_name_some; eauto.
      - left. split; auto. now apply erase_name_none. }
    specialize (L a Na) as La. destruct (X c Kc) as [[-> X1]|[-> X1]], (X d Kd) as [[-> X2]|[-> X2]]; try congruence; cbn [fst snd]; [now split|].
    split; [|reflexivity]. split; [|now split]. intros x Hx. rewrite !lookup_set_instances, !(assoc_filter (fun k => negb (seq_eqb k a))).
    destruct (negb _); auto. now apply L.
  - unfold both, op_deleteVariablesOfNamespace. unfold bind, check_nargs, arg, throw_if, throw, ret, get, put, undefined.
    destruct args as [|a [|b args]]; cbn [length Nat.eqb negb nth_error fst snd]; try (now split).
    destruct (is_namespace a); cbn [negb fst snd]; [|now split].
    split; [|reflexivity]. split; [|now split]. intros x Hx. rewrite !lookup_set_instances, !(assoc_filter (fun k => negb (starts_with k (a ++ $"::")))).
    destruct (negb _); auto. now apply L.
  - unfold both, op_getFloatPrecision, bind, get, ret. cbn [fst snd]. now rewrite P.
  - unfold both, op_setFloatPrecision. unfold bind, check_nargs, arg, throw_if, throw, ret, get, put, undefined, lift.
    destruct args as [|a [|b args]]; cbn [length Nat.eqb negb nth_error fst snd]; try (now split).
    destruct (integer_of a) as [z| |]; cbn [fst snd]; try (now split). destruct (z <=? 0)%Z; cbn [fst snd]; try (now split).
  - unfold both, op_getFloatComparisonTolerance, bind, get, ret. cbn [fst snd]. now rewrite P, T.
  - unfold both, op_setFloatComparisonTolerance. unfold bind, check_nargs, arg, throw_if, throw, ret, get, put, undefined, lift.
    destruct args as [|a [|b args]]; cbn [length Nat.eqb negb nth_error fst snd]; try (now split).
    destruct (float_of a) as [z| |]; cbn [fst snd]; try (now split). destruct (f_lt z _); cbn [fst snd]; try (now split).
Qed.

(** Creating an object looks at no context. *)
Definition pure_m {A} (m : M context A) : Prop := exists r, forall c, m c = (c, r).
Lemma pure_ret {A} (r : res A) : pure_m (fun c : context => (c, r)). Proof. now exists r. Qed.
Lemma pure_bind {A B} (m : M context A) (f : A -> M context B) : pure_m m -> (forall a, pure_m (f a)) -> pure_m (bind m f).
Proof.
  intros [r Hr] Hf. destruct r as [a|e|u].
  - destruct (Hf a) as [r' Hr']. exists r'. intros c. unfold bind. now rewrite Hr.
  - exists (Throw e). intros c. unfold bind. now rewrite Hr.
  - exists (UB u). intros c. unfold bind. now rewrite Hr.
Qed.
Lemma pure_check args n : pure_m (@check_nargs context args n).
Proof. unfold check_nargs, throw_if. destruct (_ : bool); apply pure_ret. Qed.
Lemma pure_throw_if b e : pure_m (@throw_if context b e).
Proof. unfold throw_if. destruct b; apply pure_ret. Qed.
Lemma pure_arg args n : pure_m (@arg context args n).
Proof. unfold arg. destruct (nth_error args n); apply pure_ret. Qed.
Ltac pure := repeat first [apply pure_check | apply pure_throw_if | apply pure_arg | apply pure_ret
  | apply pure_bind; [|intros] | match goal with |- pure_m (if ?b then _ else _) => destruct b end].
Lemma pure_dict_loop m args : forall rest before acc, pure_m (dict_type_loop rest before m args acc).
Proof.
  induction rest as [|c r IH]; intros before acc; cbn [dict_type_loop]; [apply pure_ret|]. destruct (ceq c c_comma); [|apply IH].
  apply pure_bind; [unfold container_create; pure|intros; apply IH].
Qed.
Lemma pure_construct t m args : pure_m (construct t m args).
Proof.
  unfold construct, boolean_create, character_create, integer_create, float_create, string_create, container_create. pure.
  - apply pure_dict_loop.
  - destruct a0; pure.
Qed.
Lemma type_ub_anywhere srt pw c d s s1 line t m args u : statement line t m args -> type t -> undefined_behaviour srt pw d s line u ->
  (forall n i, ~ creates t m args n i) -> exists u', undefined_behaviour srt pw c s1 line u'.
Proof.
  intros Hs Ht U X. destruct (pure_construct (remove_spaces t) m args) as [r Hr].
  destruct (construct_made t m args c Ht) as (r1 & E1 & M1). rewrite Hr in E1. injection E1 as <-.
  assert (E : forall x s, run_statement srt pw line {| w_ctx := x; w_session := s |} =
     match r with Ok (n, i) => run_statement srt pw line {| w_ctx := x; w_session := s |} | Throw e => ({| w_ctx := x; w_session := s |}, Throw e) | UB u => ({| w_ctx := x; w_session := s |}, UB u) end).
  { intros x s0. destruct r as [[n i]|e|v]; [reflexivity| |]; rewrite (run_type srt pw line t m args _ Hs Ht); unfold in_ctx, execute_in_type, bind; cbn [w_ctx w_session p_actor p_message p_args]; now rewrite Hr. }
  destruct r as [[n i]|e|v].
  - destruct (X n i M1).
  - unfold undefined_behaviour, execute in U. rewrite E in U. cbn in U. discriminate.
  - exists v. unfold undefined_behaviour, execute. rewrite E. reflexivity.
Qed.

(** A line that is private to [N] is answered in the same way by two servers that agree on [N], and they still agree afterwards. *)
Lemma private_step srt pw N c d s line c' s' ans : sort_contract srt -> reachable srt pw c -> reachable srt pw d -> agree N c d -> private N line ->
  runs srt pw c s line c' s' ans -> exists d', runs srt pw d s line d' s' ans /\ agree N c' d'.
Proof.
  intros H1 Hc Hd A Pr R. assert (Kc := reachable_keys srt pw c H1 Hc). assert (Kd := reachable_keys srt pw d H1 Hd).
  destruct (statement_dec line) as [(a & m & args & Hs)|Hn].
  - destruct (Pr a m args Hs) as (P1 & P2 & P3). assert (Ha := statement_actor _ _ _ _ Hs). destruct Ha as [->|[->|[Ty|V]]].
    + (* Connection *)
      destruct (runs_statement _ _ _ _ _ _ _ _ R) as (w1 & r & E1 & U & -> & -> & ->).
      assert (E := run_connection srt pw line m args {| w_ctx := c; w_session := s |} Hs). rewrite E1 in E.
      assert (E' := run_connection srt pw line m args {| w_ctx := d; w_session := s |} Hs). unfold in_session in E, E'. cbn [w_session w_ctx] in E, E'.
      destruct s as [s|]; [|injection E as _ ->; destruct U; exact I]. injection E as -> ->.
      eexists. split; [unfold runs; rewrite (execute_ok _ _ _ _ _ _ E' U); reflexivity|]. cbn [w_ctx w_session].
      destruct A as [L [P T]]. split; [intros n Hn; rewrite !write_log_lookup; auto|]. split; [now rewrite !write_log_precision|now rewrite !write_log_tolerance].
    + (* Context *)
      destruct (P3 eq_refl) as (Q1 & Q3 & Q4).
      destruct (bytes_dec m (B "listNamespaces")) as [->|M1].
      { assert (Nn := Q1 (or_introl eq_refl)). destruct (C25_listNamespaces srt pw c s line args H1 Hc Hs) as (l & I1 & I2 & O1).
        destruct (C25_listNamespaces srt pw d s line args H1 Hd Hs) as (l' & J1 & J2 & O2). assert (l' = l) as ->.
        { apply names_unique; auto. intros n. rewrite I2, J2. split; intros (i & X); exists i; apply (live_agree N c d _ A (Nn _)); auto. }
        eapply both_answer; eauto. }
      destruct (bytes_dec m (B "listVariables")) as [->|M2].
      { assert (Nn := Q1 (or_intror (or_introl eq_refl))). destruct (C25_listVariables srt pw c s line args H1 Hc Hs) as (l & I1 & I2 & O1).
        destruct (C25_listVariables srt pw d s line args H1 Hd Hs) as (l' & J1 & J2 & O2). assert (l' = l) as ->.
        { apply names_unique; auto. intros n. rewrite I2, J2. apply (live_agree N c d _ A (Nn _)). }
        eapply both_answer; eauto. }
      destruct (Classical_Prop.classic (m = B "listVariablesOfNamespace:" /\ exists ns, args = [ns])) as [[-> [ns ->]]|NL].
      * assert (Nn : forall i, N (qualified ns i)) by (specialize (Q4 (or_introl eq_refl)); inversion Q4; auto).
        destruct (Classical_Prop.classic (namespace ns)) as [Hns|Hns].
        -- destruct (C25_listVariablesOfNamespace srt pw c s line ns H1 Hc Hs Hns) as (l & I1 & I2 & O1).
           destruct (C25_listVariablesOfNamespace srt pw d s line ns H1 Hd Hs Hns) as (l' & J1 & J2 & O2).
           assert (l' = l) as ->.
           { apply names_unique; auto. intros n. rewrite I2, J2. split; intros [X (i & ->)]; (split; [|eauto]); apply (live_agree N c d _ A (Nn i)); auto. }
           eapply both_answer; eauto.
        -- eapply both_answer; [exact A|eapply C25_bad_names; [exact Hs|]; auto|eapply C25_bad_names; [exact Hs|]; auto|exact R].
      * eapply both_runs; [intros x; apply (run_context srt pw _ _ _ _ Hs)| |exact R]. apply context_both; auto.
        intros -> ns ->. apply NL. eauto.
    + (* a type *)
      assert (V : ~ variable a) by (intros V; apply variable_not_type in V; apply is_type_iff in Ty; congruence).
      destruct (Classical_Prop.classic (understands a m)) as [Hu|Hu].
      * destruct (Classical_Prop.classic (exists n i, creates a m args n i)) as [(n & i & Hcr)|Hcr].
        -- assert (Nn := P2 n i Hcr).
           assert (E : forall x, run_statement srt pw line {| w_ctx := x; w_session := s |} =
             in_ctx (fun x => match lookup x n with None => (set_instances x (smap_assign (instances x) n i), Ok null)
                              | Some _ => (x, if starts_with m $"createIfNotExists:" then Ok null else Throw NameAlreadyUsed) end) {| w_ctx := x; w_session := s |}).
           { intros x. rewrite (run_creation srt pw x s line a m args n i Hs Hcr). unfold in_ctx. cbn [w_ctx w_session]. destruct (lookup x n); reflexivity. }
           eapply both_runs; [exact E| |exact R]. assert (A' := A). destruct A' as [L [P T]]. unfold both. rewrite (L n Nn). destruct (lookup c n) eqn:El; cbn [fst snd]; [now split|].
           split; [|reflexivity]. split; [|now split]. intros x Hx. rewrite !lookup_set_instances, !smap_assign_assoc by assumption. destruct (bytes_dec n x); auto. now apply L.
        -- assert (X : forall n i, ~ creates a m args n i) by (intros n i X; apply Hcr; eauto).
           destruct (C24_bad_creation srt pw c s line a m args Hs Ty Hu X) as [O1|(-> & Hw & u & U)]; [|destruct (runs_ub _ _ _ _ _ _ _ _ _ R U)].
           destruct (C24_bad_creation srt pw d s line a m args Hs Ty Hu X) as [O2|(-> & Hw & u & U)]; [eapply both_answer; eauto|].
           exfalso. destruct (type_ub_anywhere srt pw c d s s line _ m args u Hs Ty U X) as [u' U']. eapply runs_ub; eauto.
      * eapply both_answer; [exact A| | |exact R]; eapply C24_other_messages_to_a_type; eauto.
    + (* a variable *)
      assert (Na := P1 V). destruct A as [L St]. destruct (C52_locality srt pw pw pw c d s s line line a m args c' s' ans H1 Hc Hd Hs Hs V (L a Na) St R) as (d' & Rd & Ld).
      destruct (C26_message_to_a_variable srt pw c s line a m args c' s' ans H1 Hc Hs V R) as (-> & S1 & O1 & _).
      destruct (C26_message_to_a_variable srt pw d s line a m args d' s ans H1 Hd Hs V Rd) as (_ & S2 & O2 & _).
      exists d'. split; auto. destruct St, S1, S2. split; [|split; congruence].
      intros x Hx. destruct (bytes_dec x a) as [->|Nx]; [exact Ld|]. rewrite (O1 _ Nx), (O2 _ Nx). now apply L.
  - destruct (C26_not_a_statement srt pw c s line c' s' ans Hn R) as [[L S] ->].
    destruct (runs_statement _ _ _ _ _ _ _ _ R) as (w1 & r & E1 & U & -> & _ & ->).
    assert (E : forall x, run_statement srt pw line {| w_ctx := x; w_session := s |} = ({| w_ctx := x; w_session := s |}, Throw InvalidStatement)).
    { intros x. unfold run_statement, bind, lift. now rewrite (parse_not_statement _ Hn). }
    rewrite E in E1. injection E1 as <- <-. eexists. split; [unfold runs; rewrite (execute_ok _ _ _ _ _ _ (E d) U); reflexivity|]. cbn [w_ctx].
    destruct A as [LA [P T]]. split; [intros n Hx; rewrite !write_log_lookup; auto|]. split; [now rewrite !write_log_precision|now rewrite !write_log_tolerance].
Qed.

(** A line that is foreign to [N] changes nothing in [N]. *)
Lemma foreign_step srt pw N c s line c' s' ans : sort_contract srt -> reachable srt pw c -> foreign N line ->
  runs srt pw c s line c' s' ans -> (forall n, N n -> lookup c' n = lookup c n) /\ same_settings c c'.
Proof.
  intros H1 Hc F R. destruct (statement_dec line) as [(a & m & args & Hs)|Hn].
  2:{ destruct (C26_not_a_statement srt pw c s line c' s' ans Hn R) as [[L S] _]. split; auto. }
  destruct (F a m args Hs) as (F1 & F2 & F3). assert (Ha := statement_actor _ _ _ _ Hs). destruct Ha as [->|[->|[Ty|V]]].
  - destruct (C26_message_to_Connection _ _ _ _ _ _ _ _ _ _ Hs R) as [L S]. split; auto.
  - destruct (F3 eq_refl) as (G1 & G2 & G3). destruct (C26_message_to_Context srt pw c s line m args c' s' ans H1 Hc Hs R) as (_ & D1 & D2 & D3 & D4 & D5).
    split; [|now apply D1]. intros n Hn. destruct (in_dec bytes_dec m deleters) as [Hm|Hm]; [|now apply D2].
    apply Classical_Prop.NNPP. intros X. destruct Hm as [<-|[<-|[]]].
    + rewrite (D4 eq_refl n X) in G2. specialize (G2 eq_refl). inversion G2; subst. contradiction.
    + destruct (D5 eq_refl n X) as (ns & i & -> & ->). specialize (G3 eq_refl). inversion G3 as [|? ? Y]; subst. now apply (Y i).
  - destruct (C26_message_to_a_type srt pw c s line a m args c' s' ans H1 Hc Hs Ty R) as (_ & S & _). split; auto.
    intros n Hn. destruct (step_cases srt pw c s line c' s' ans n H1 Hc R) as [L|[(m1 & args1 & i & Hs1 & _ & Hl)|[(T & m1 & args1 & i & Hs1 & Cr & _)|[L K]]]]; auto; exfalso.
    + destruct (statement_unique _ _ _ _ _ _ _ Hs Hs1) as (<- & _). destruct (ctx_good_lookup false c a i (reachable_good srt pw c H1 Hc) Hl) as [V _].
      apply variable_not_type in V. apply is_type_iff in Ty. congruence.
    + destruct (statement_unique _ _ _ _ _ _ _ Hs Hs1) as (<- & <- & <-). eapply F2; eauto.
    + apply K. split.
      * intros X. destruct (statement_unique _ _ _ _ _ _ _ Hs X) as (-> & _). apply is_type_iff in Ty. discriminate.
      * intros ns i Hq X. destruct (statement_unique _ _ _ _ _ _ _ Hs X) as (-> & _). apply is_type_iff in Ty. discriminate.
  - destruct (C26_message_to_a_variable srt pw c s line a m args c' s' ans H1 Hc Hs V R) as (_ & S & O & O' & _). split; auto.
    intros n Hn. destruct (bytes_dec n a) as [->|Nx]; auto.
Qed.

Lemma agree_sym N c d : agree N c d -> agree N d c.
Proof. intros [L [P T]]. split; [intros n Hn; symmetry; auto|]. split; congruence. Qed.
Lemma agree_refl N c : agree N c c. Proof. split; auto. split; reflexivity. Qed.
Lemma processes_private srt pw N c d s line c' s' o : sort_contract srt -> reachable srt pw c -> reachable srt pw d -> agree N c d ->
  (o <> Refused -> private N line) -> processes srt pw c s line c' s' o -> exists d', processes srt pw d s line d' s' o /\ agree N c' d'.
Proof.
  intros H1 Hc Hd A Pr P. inversion P; subst.
  - exists d. split; auto. now constructor.
  - destruct (private_step srt pw N c d (Some s) line c' (Some s') ans) as (d' & R' & A'); auto; [apply Pr; discriminate|]. exists d'. split; auto. now constructor.
  - destruct (private_step srt pw N c d (Some s) line c' (Some s') ans) as (d' & R' & A'); auto; [apply Pr; discriminate|]. exists d'. split; auto. now constructor.
Qed.
Lemma processes_foreign srt pw N c s line c' s' o : sort_contract srt -> reachable srt pw c ->
  (o <> Refused -> foreign N line) -> processes srt pw c s line c' s' o -> agree N c c'.
Proof.
  intros H1 Hc F P. destruct (processes_cases _ _ _ _ _ _ _ _ P) as [(-> & -> & _)|(ans & R & Ho)]; [apply agree_refl|].
  destruct (foreign_step srt pw N c (Some s) line c' (Some s') ans) as [L S]; auto; [apply F; destruct Ho; congruence|]. split; auto.
Qed.
Lemma part_app G h1 h2 : part G (h1 ++ h2) = part G h1 ++ part G h2.
Proof. apply filter_app. Qed.

Theorem C63_alone : forall srt pw N G c d ss st h c' ss', sort_contract srt -> reachable srt pw c -> reachable srt pw d -> agree N c d ->
  (forall k, G k = true -> st k = ss k) -> serial srt pw c ss h c' ss' -> separate N G h ->
  exists d' st', serial srt pw d st (part G h) d' st' /\ agree N c' d' /\ (forall k, G k = true -> st' k = ss' k).
Proof.
  intros srt pw N G c d ss st h c' ss' H1 Hc Hd A Es S. induction S as [|h c1 ss1 sid line c2 s2 o S IH P]; intros Sep.
  - exists d, st. repeat split; auto; [constructor|apply A|apply A|apply A].
  - destruct IH as (d1 & st1 & S1 & A1 & E1). { intros e He. apply Sep, in_or_app. now left. }
    assert (Sp := Sep {| e_sid := sid; e_line := line; e_outcome := o |}). cbn [e_sid e_line e_outcome] in Sp.
    assert (Sp' : o <> Refused -> if G sid then private N line else foreign N line) by (intros K; apply Sp; auto; apply in_or_app; right; now left). clear Sp.
    assert (Hc1 := serial_reach _ _ _ _ _ _ _ Hc S). assert (Hd1 := serial_reach _ _ _ _ _ _ _ Hd S1).
    rewrite part_app. unfold part at 2. cbn [filter e_sid]. destruct (G sid) eqn:EG.
    + destruct (processes_private srt pw N c1 d1 (ss1 sid) line c2 s2 o) as (d2 & P2 & A2); auto.
      rewrite <- (E1 sid EG) in P2. eexists d2, _. split; [econstructor; [exact S1|exact P2]|]. split; auto.
      intros k Hk. cbn beta. destruct (Nat.eqb k sid); auto.
    + rewrite app_nil_r. exists d1, st1. split; [exact S1|]. split.
      * assert (X := processes_foreign srt pw N c1 (ss1 sid) line c2 s2 o H1 Hc1 Sp' P). destruct X as [L [Pq T]], A1 as [L1 [P1 T1]].
        split; [intros n Hn; rewrite (L n Hn); auto|]. split; congruence.
      * intros k Hk. destruct (Nat.eqb_spec k sid) as [->|]; [congruence|auto].
Qed.

Lemma sends_lines srt pw c es h e : explains srt pw c es h -> In e h -> sends es (e_sid e) (e_line e).
Proof.
  intros X He. assert (X' := X). destruct X' as (ss & _ & W & _). destruct (W e He) as (cn & Hn).
  destruct (lines_of_exists (arrived es (e_sid e))) as (ls & rest & L).
  destruct (C33_executed_lines_are_the_lines_of_the_stream _ _ _ _ _ _ _ _ _ X Hn L) as (w & E & _).
  exists ls, rest. split; auto. rewrite E. apply in_or_app. left. unfold lines_in. apply in_map. now apply entry_in.
Qed.
Theorem C63_group_under_any_schedule : forall srt pw N (G : nat -> bool) c d es, sort_contract srt -> reachable srt pw c -> reachable srt pw d -> agree N c d ->
  sv_crash (run srt (start pw c) es) = None ->
  (forall k line, sends es k line -> if G k then private N line else foreign N line) ->
  exists h d' st, explains srt pw c es h /\ serial srt pw d (fun _ => fresh pw) (part G h) d' st /\
    agree N (sv_ctx (run srt (start pw c) es)) d' /\
    forall k cn, G k = true -> nth_error (sv_conns (run srt (start pw c) es)) k = Some cn -> c_session cn = st k.
Proof.
  intros srt pw N G c d es H1 Hc Hd A Cr Sep. destruct (C35_every_schedule_is_serialisable _ _ _ _ Cr) as (h & X).
  assert (X' := X). destruct X' as (ss & S & _ & C).
  destruct (C63_alone srt pw N G c d (fun _ => fresh pw) (fun _ => fresh pw) h _ ss H1 Hc Hd A (fun k _ => eq_refl) S) as (d' & st & S' & A' & E').
  { intros e He _. apply Sep. eapply sends_lines; eauto. }
  exists h, d', st. repeat split; auto; try apply A'. intros k cn Gk Hn. rewrite (E' k Gk). now destruct (C k cn Hn).
Qed.

Lemma same_sid p sid : (forall e, In e p -> e_sid e = sid) -> map named p = map (fun l => (sid, l)) (map e_line p).
Proof. intros H. rewrite map_map. apply map_ext_in. intros e He. unfold named. now rewrite (H e He). Qed.
Lemma shorter srt pw c ss ha hb ca sa cb sb wa : serial srt pw c ss ha ca sa -> serial srt pw c ss hb cb sb ->
  map named hb = map named ha ++ wa -> (wa = [] \/ exists b e, ha = b ++ [e] /\ closes e) -> (forall e a b, hb = b ++ e :: a -> closes e -> a = []) -> hb = ha.
Proof.
  intros Sa Sb M W K.
  assert (Z : exists p q, hb = p ++ q /\ map named p = map named ha /\ map named q = wa).
  { clear -M. revert ha M. induction hb as [|e hb IH]; intros [|x ha] M; cbn in *.
    - exists [], []. auto.
    - discriminate.
    - exists [], (e :: hb). auto.
    - assert (M1 : named e = named x) by congruence. assert (M2 : map named hb = map named ha ++ wa) by congruence. destruct (IH ha M2) as (p & q & -> & P & Q). exists (e :: p), q. cbn. repeat split; auto. congruence. }
  destruct Z as (p & q & -> & P & Q). destruct (serial_prefix _ _ _ _ _ _ _ _ Sb) as (cp & sp & Sp).
  destruct (serial_unique _ _ _ _ _ _ _ _ _ _ Sp Sa P) as (-> & _). destruct W as [W|(b & e & Eb & Ce)].
  - rewrite W in Q. apply map_eq_nil in Q. subst q. now rewrite app_nil_r.
  - subst ha. rewrite <- app_assoc in K. cbn in K. rewrite (K e q b eq_refl Ce). now rewrite app_nil_r.
Qed.
Lemma prefixes {A} (a : list A) : forall w b w', a ++ w = b ++ w' -> (exists v, b = a ++ v /\ w = v ++ w') \/ exists v, a = b ++ v /\ w' = v ++ w.
Proof.
  induction a as [|x a IH]; intros w [|y b] w' E; cbn in *.
  - left. exists []. auto.
  - left. exists (y :: b). auto.
  - right. exists (x :: a). auto.
  - assert (x = y) by congruence. assert (E2 : a ++ w = b ++ w') by congruence. subst y. destruct (IH _ _ _ E2) as [(v & -> & ->)|(v & -> & ->)]; [left|right]; eauto.
Qed.
Lemma one_stream srt pw c ss p1 p2 c1 s1 c2 s2 sid w1 w2 : serial srt pw c ss p1 c1 s1 -> serial srt pw c ss p2 c2 s2 ->
  (forall e, In e p1 -> e_sid e = sid) -> (forall e, In e p2 -> e_sid e = sid) -> map e_line p1 ++ w1 = map e_line p2 ++ w2 ->
  (w1 = [] \/ exists b e, p1 = b ++ [e] /\ closes e) -> (w2 = [] \/ exists b e, p2 = b ++ [e] /\ closes e) ->
  (forall e a b, p1 = b ++ e :: a -> closes e -> a = []) -> (forall e a b, p2 = b ++ e :: a -> closes e -> a = []) -> p1 = p2.
Proof.
  intros S1 S2 A1 A2 E G1 G2 K1 K2. apply same_sid in A1, A2. destruct (prefixes _ _ _ _ E) as [(v & V & W)|(v & V & W)].
  - symmetry. eapply (shorter srt pw c ss p1 p2 _ _ _ _ (map (fun l => (sid, l)) v)); eauto.
    + rewrite A1, A2, V, map_app. reflexivity.
    + destruct G1 as [->|G1]; [|now right]. left. destruct v; [reflexivity|discriminate].
  - eapply (shorter srt pw c ss p2 p1 _ _ _ _ (map (fun l => (sid, l)) v)); eauto.
    + rewrite A1, A2, V, map_app. reflexivity.
    + destruct G2 as [->|G2]; [|now right]. left. destruct v; [reflexivity|discriminate].
Qed.

Theorem C63_one_client_under_any_schedules : forall srt pw N c d es1 es2 sid cn1 cn2,
  let sv1 := run srt (start pw c) es1 in let sv2 := run srt (start pw d) es2 in
  sort_contract srt -> reachable srt pw c -> reachable srt pw d -> agree N c d ->
  sv_crash sv1 = None -> sv_crash sv2 = None ->
  nth_error (sv_conns sv1) sid = Some cn1 -> nth_error (sv_conns sv2) sid = Some cn2 ->
  arrived es1 sid = arrived es2 sid -> finished cn1 -> finished cn2 ->
  (forall line, sends es1 sid line -> private N line) ->
  (forall k line, k <> sid -> sends es1 k line \/ sends es2 k line -> foreign N line) ->
  c_sent cn1 = c_sent cn2 /\ c_session cn1 = c_session cn2 /\ agree N (sv_ctx sv1) (sv_ctx sv2).
Proof.
  intros srt pw N c d es1 es2 sid cn1 cn2 sv1 sv2 H1 Hc Hd A Cr1 Cr2 N1 N2 Same F1 F2 Pr Fo. set (G := fun k => Nat.eqb k sid).
  destruct (C63_group_under_any_schedule srt pw N G c c es1 H1 Hc Hc (agree_refl N c) Cr1) as (h1 & x1 & st1 & X1 & S1 & A1 & E1).
  { intros k line Hs. unfold G. destruct (Nat.eqb_spec k sid) as [->|Hk]; [now apply Pr|eapply Fo; eauto]. }
  destruct (C63_group_under_any_schedule srt pw N G d c es2 H1 Hd Hc (agree_sym N c d A) Cr2) as (h2 & x2 & st2 & X2 & S2 & A2 & E2).
  { intros k line Hs. unfold G. destruct (Nat.eqb_spec k sid) as [->|Hk]; [apply Pr|eapply Fo; eauto]. unfold sends in *. now rewrite Same. }
  change (part G h1) with (entries_of sid h1) in S1. change (part G h2) with (entries_of sid h2) in S2.
  destruct (lines_of_exists (arrived es1 sid)) as (ls & rest & L1). assert (L2 := L1). rewrite Same in L2.
  destruct (C33_executed_lines_are_the_lines_of_the_stream _ _ _ _ _ _ _ _ _ X1 N1 L1) as (w1 & W1 & _).
  destruct (C33_executed_lines_are_the_lines_of_the_stream _ _ _ _ _ _ _ _ _ X2 N2 L2) as (w2 & W2 & _).
  assert (G1 := finished_lines _ _ _ _ _ _ _ _ _ X1 N1 L1 F1). assert (G2 := finished_lines _ _ _ _ _ _ _ _ _ X2 N2 L2 F2).
  assert (In' : forall h e, In e (entries_of sid h) -> e_sid e = sid). { intros h e He. apply filter_In in He as [_ He]. now apply Nat.eqb_eq. }
  assert (C1 := E1 sid cn1 (Nat.eqb_refl sid) N1). assert (C2 := E2 sid cn2 (Nat.eqb_refl sid) N2).
  destruct X1 as (ss1 & _ & _ & Y1). destruct X2 as (ss2 & _ & _ & Y2). destruct (Y1 _ _ N1) as [_ Acc1]. destruct (Y2 _ _ N2) as [_ Acc2].
  assert (E : entries_of sid h1 = entries_of sid h2).
  { eapply (one_stream srt pw c (fun _ => fresh pw) _ _ _ _ _ _ sid w1 w2 S1 S2); eauto.
    - change (lines_in sid h1 ++ w1 = lines_in sid h2 ++ w2). congruence.
    - destruct G1 as [G1|G1]; [left|now right]. rewrite G1 in W1. apply (app_inv_head ls). now rewrite app_nil_r.
    - destruct G2 as [G2|G2]; [left|now right]. rewrite G2 in W2. apply (app_inv_head ls). now rewrite app_nil_r.
    - intros e a b Z Y. eapply (acc_close _ _ _ _ Acc1); eauto.
    - intros e a b Z Y. eapply (acc_close _ _ _ _ Acc2); eauto. }
  split.
  - rewrite (acc_output _ _ _ _ Acc1), (acc_output _ _ _ _ Acc2). unfold answers_in. now rewrite E.
  - rewrite E in S1. destruct (serial_unique _ _ _ _ _ _ _ _ _ _ S1 S2 eq_refl) as (_ & -> & Es). split; [rewrite C1, C2; apply Es|].
    destruct A1 as [LA [PA TA]], A2 as [LB [PB TB]]. split; [intros n Hn; transitivity (lookup x2 n); [symmetry|]; auto|]. split; unfold sv1, sv2; congruence.
Qed.

(** ** Non-vacuity *)
Lemma creates_head t m args n i : creates t m args n i -> exists r, args = n :: r.
Proof. inversion 1; subst; eauto. Qed.
Lemma private_of (N : bytes -> Prop) line a m args : statement line a m args ->
  (variable a -> N a) -> (type a -> forall n r, args = n :: r -> N n) ->
  (a = B "Context" -> (In m [B "listNamespaces"; B "listVariables"] -> forall n, N n) /\ (m = B "deleteVariable:" -> Forall N args) /\
     (In m [B "listVariablesOfNamespace:"; B "deleteVariablesOfNamespace:"] -> Forall (fun ns => forall i, N (qualified ns i)) args)) ->
  private N line.
Proof.
  intros Hs H1 H2 H3 a' m' args' Hs'. destruct (statement_unique _ _ _ _ _ _ _ Hs Hs') as (<- & <- & <-). split; auto. split; auto.
  intros n i C. destruct (creates_head _ _ _ _ _ C) as [r E]. eapply H2; eauto. eapply creates_type; eauto.
Qed.
Lemma foreign_of (N : bytes -> Prop) line a m args : statement line a m args ->
  (N a -> ~ In m mutators) -> (type a -> forall n r, args = n :: r -> ~ N n) ->
  (a = B "Context" -> ~ In m setters /\ (m = B "deleteVariable:" -> Forall (fun n => ~ N n) args) /\
     (m = B "deleteVariablesOfNamespace:" -> Forall (fun ns => forall i, ~ N (qualified ns i)) args)) ->
  foreign N line.
Proof.
  intros Hs H1 H2 H3 a' m' args' Hs'. destruct (statement_unique _ _ _ _ _ _ _ Hs Hs') as (<- & <- & <-). split; auto. split; auto.
  intros n i C. destruct (creates_head _ _ _ _ _ C) as [r E]. eapply H2; eauto. eapply creates_type; eauto.
Qed.
(** Session 0 works in the namespace a, session 1 elsewhere; session 1 also reads what session 0 has stored, and lists all variables. *)
Definition in_a (n : bytes) : Prop := exists i, n = qualified (B "a") i.
Definition neighbours : list (nat * bytes) :=
  [(0%nat, B "Integer create: a::x withValue: 1;"); (1%nat, B "Integer create: x withValue: 9;"); (1%nat, B "Context listVariables;");
   (0%nat, B "Context listVariablesOfNamespace: a;"); (1%nat, B "x add: 2;"); (1%nat, B "a::x get;"); (0%nat, B "a::x add: 2;"); (0%nat, B "a::x get;")].
Lemma in_a_of i : in_a (B "a::" ++ i). Proof. now exists i. Qed.
Lemma not_in_a_x : ~ in_a (B "x"). Proof. intros [i H]. discriminate H. Qed.
Lemma not_in_a_context : ~ in_a (B "Context"). Proof. intros [i H]. discriminate H. Qed.
Lemma not_in_a_integer : ~ in_a (B "Integer"). Proof. intros [i H]. discriminate H. Qed.
Lemma get_changes_nothing : ~ In (B "get") mutators.
Proof. unfold mutators. cbn [In]. intros H. repeat (destruct H as [H|H]; [discriminate H|]). exact H. Qed.
Lemma not_variable_of n : is_variable n = false -> ~ variable n. Proof. intros H V. apply is_variable_iff in V. congruence. Qed.
Lemma not_type_of n : is_type n = false -> ~ type n. Proof. intros H V. apply is_type_iff in V. congruence. Qed.
Lemma neighbour_0 : private in_a (B "Integer create: a::x withValue: 1;").
Proof.
  eapply (private_of in_a _ (B "Integer") (B "create:withValue:") [B "a::x"; B "1"]); [stmt|..].
  - intros V. exfalso. revert V. apply not_variable_of. reflexivity.
  - intros _ n r E. assert (B "a::x" = n) as <- by congruence. exact (in_a_of (B "x")).
  - discriminate.
Qed.
Lemma neighbour_1 : foreign in_a (B "Integer create: x withValue: 9;").
Proof.
  eapply (foreign_of in_a _ (B "Integer") (B "create:withValue:") [B "x"; B "9"]); [stmt|..].
  - intros V. destruct (not_in_a_integer V).
  - intros _ n r E. assert (B "x" = n) as <- by congruence. exact not_in_a_x.
  - discriminate.
Qed.
Lemma neighbour_2 : foreign in_a (B "Context listVariables;").
Proof.
  eapply (foreign_of in_a _ (B "Context") (B "listVariables") []); [stmt|..].
  - intros V. destruct (not_in_a_context V).
  - intros V. exfalso. revert V. apply not_type_of. reflexivity.
  - intros _. repeat split; intros; try discriminate. intros [X|[X|[]]]; discriminate.
Qed.
Lemma neighbour_3 : private in_a (B "Context listVariablesOfNamespace: a;").
Proof.
  eapply (private_of in_a _ (B "Context") (B "listVariablesOfNamespace:") [B "a"]); [stmt|..].
  - intros V. exfalso. revert V. apply not_variable_of. reflexivity.
  - intros V. exfalso. revert V. apply not_type_of. reflexivity.
  - intros _. split; [intros [X|[X|[]]]; discriminate|]. split; [discriminate|]. intros _. constructor; [|constructor]. intros i. now exists i.
Qed.
Lemma neighbour_4 : foreign in_a (B "x add: 2;").
Proof.
  eapply (foreign_of in_a _ (B "x") (B "add:") [B "2"]); [stmt|..].
  - intros V. destruct (not_in_a_x V).
  - intros V. exfalso. revert V. apply not_type_of. reflexivity.
  - discriminate.
Qed.
Lemma neighbour_5 : foreign in_a (B "a::x get;").
Proof.
  eapply (foreign_of in_a _ (B "a::x") (B "get") []); [stmt|..].
  - intros _. exact get_changes_nothing.
  - intros V. exfalso. revert V. apply not_type_of. reflexivity.
  - discriminate.
Qed.
Lemma neighbour_6 : private in_a (B "a::x add: 2;").
Proof.
  eapply (private_of in_a _ (B "a::x") (B "add:") [B "2"]); [stmt|..].
  - intros _. exact (in_a_of (B "x")).
  - intros V. exfalso. revert V. apply not_type_of. reflexivity.
  - discriminate.
Qed.
Lemma neighbour_7 : private in_a (B "a::x get;").
Proof.
  eapply (private_of in_a _ (B "a::x") (B "get") []); [stmt|..].
  - intros _. exact (in_a_of (B "x")).
  - intros V. exfalso. revert V. apply not_type_of. reflexivity.
  - discriminate.
Qed.
Lemma neighbours_apart k line : In (k, line) neighbours -> if Nat.eqb k 0 then private in_a line else foreign in_a line.
Proof.
  assert (F : Forall (fun p : nat * bytes => if Nat.eqb (fst p) 0 then private in_a (snd p) else foreign in_a (snd p)) neighbours).
  { repeat apply Forall_cons; try apply Forall_nil; cbn [fst snd Nat.eqb].
    - exact neighbour_0.
    - exact neighbour_1.
    - exact neighbour_2.
    - exact neighbour_3.
    - exact neighbour_4.
    - exact neighbour_5.
    - exact neighbour_6.
    - exact neighbour_7. }
  intros H. rewrite Forall_forall in F. exact (F _ H).
Qed.
Example C63_ex : exists c h ss, serial insertion_sort [] empty_server (fun _ => fresh []) h c ss /\
  map (fun e => (e_sid e, e_line e)) h = neighbours /\ separate in_a (fun k => Nat.eqb k 0) h /\
  map e_outcome h = map Answered [B "null"; B "null"; B "[a::x,x]"; B "[a::x]"; B "null"; B "1"; B "null"; B "3"] /\
  map e_outcome (part (fun k => Nat.eqb k 0) h) = map Answered [B "null"; B "[a::x]"; B "null"; B "3"] /\ agree in_a empty_server one_integer.
Proof.
  destruct (play empty_server [] neighbours) as [[c h]|] eqn:E; [|vm_compute in E; discriminate].
  destruct (plays _ _ _ _ E) as (ss & S). exists c, h, ss. split; [exact S|]. clear S.
  assert (Eh : map (fun e => (e_sid e, e_line e)) h = neighbours) by (vm_compute in E; inversion E; subst c h; reflexivity).
  split; [exact Eh|]. split.
  - intros e He _. apply neighbours_apart. rewrite <- Eh. apply in_map_iff. eauto.
  - vm_compute in E. inversion E; subst c h; clear E. split; [reflexivity|]. split; [reflexivity|]. split; [|split; reflexivity].
    intros n [i ->]. reflexivity.
Qed.
(** The same as a schedule: what the client of session 0 gets is what it gets when session 1 is silent and the server holds other data. *)
Definition with_neighbour : list event := [Accept; Accept] ++ concat (map (fun p => talk (fst p) (snd p)) neighbours).
Definition without_neighbour : list event := [Accept] ++ concat (map (fun p => talk (fst p) (snd p)) (filter (fun p => Nat.eqb (fst p) 0) neighbours)).
Example C63_schedule_ex : let sv1 := run insertion_sort (start [] empty_server) with_neighbour in let sv2 := run insertion_sort (start [] one_integer) without_neighbour in
  sv_crash sv1 = None /\ sv_crash sv2 = None /\ arrived with_neighbour 0 = arrived without_neighbour 0 /\
  exists cn1 cn2, nth_error (sv_conns sv1) 0 = Some cn1 /\ nth_error (sv_conns sv2) 0 = Some cn2 /\ finished cn1 /\ finished cn2 /\
    c_sent cn1 = flat_map with_newline [B "null"; B "[a::x]"; B "null"; B "3"] /\ c_sent cn2 = c_sent cn1.
Proof.
  split; [vm_compute; reflexivity|]. split; [vm_compute; reflexivity|]. split; [vm_compute; reflexivity|].
  eexists _, _. split; [vm_compute; reflexivity|]. split; [vm_compute; reflexivity|].
  split; [left; split; [reflexivity|split; [reflexivity|cbn; tauto]]|]. split; [left; split; [reflexivity|split; [reflexivity|cbn; tauto]]|]. split; reflexivity.
Qed.
(** On a server where the neighbour may delete in the client's namespace the claim is false: [foreign] is needed. *)
Example C63_foreign_is_needed : ~ foreign in_a (B "Context deleteVariablesOfNamespace: a;").
Proof.
  intros F. destruct (F (B "Context") (B "deleteVariablesOfNamespace:") [B "a"]) as (_ & _ & F3); [stmt|].
  destruct (F3 eq_refl) as (_ & _ & F4). specialize (F4 eq_refl). inversion F4; subst. apply (H1 (B "x")). now exists (B "x").
Qed.
Print Assumptions C63_alone.
Print Assumptions C63_group_under_any_schedule.
Print Assumptions C63_one_client_under_any_schedules.
