(** Proofs for C57: which values variables can hold. *)
From Coq Require Import ZArith Reals Psatz Sorting.Sorted.
From Flocq Require Import Core.
From Verif Require Import Bytes StrUtils Grammar Outcome Parser Num Containers Instance Context Platform.
From Verif Require Import Lemmas StringLit Proof_Grammar Proof_Parser Proof_Exec WP Proof_Inv Proof_Literal Proof_Receive Proof_Context Proof_Names Api Proof_Text.
From Verif Require Import Proof_Number Proof_Float Proof_Arith Proof_Order Proof_Set Proof_Literal.
From Verif Require Import Props_Text Props_State Props_Number Props_Float Props_Order Props_Vector Props_String Props_Set Props_Object.
From Verif Require Import Spec_Grammar Spec_State Spec_Names Spec_Text Spec_Number Spec_Float Spec_Order Spec_Vector Spec_String Spec_Set Spec_Object Spec_Local Spec_Storable.
Import ListNotations.
Open Scope Z_scope.
Open Scope list_scope.

Lemma clean_line l : one_line l <-> clean true l.
Proof.
  unfold one_line. split.
  - intros H. apply Forall_forall. intros x Hx _ ->. now apply H.
  - intros H Hin. unfold clean in H. rewrite Forall_forall in H. exact (H _ Hin eq_refl eq_refl).
Qed.
Lemma clean_digits l : digits l -> clean true l.
Proof.
  intros H. eapply Forall_impl; [|exact H]. intros x Hx _ ->. unfold digit in Hx. cbv in Hx. lia.
Qed.

(** ** A literal for every single-precision number *)
Definition exact_text (s : bool) (m : positive) (e : Z) : bytes :=
  minus_sign s ++ (if 0 <=? e then dec (Zpos m * 2 ^ e) else dec (Zpos m * 5 ^ (- e)) ++ B "e-" ++ dec (- e)).
Lemma dec_digits n : 0 <= n -> digits (dec n) /\ dec n <> [] /\ digits_value (dec n) = n.
Proof. intros H. destruct (dec_numeral n H) as (A & B & C & _). auto. Qed.
Lemma pow_cancel k : 0 <= k -> (IZR (5 ^ k) * powerRZ 10 (- k) = powerRZ 2 (- k))%R.
Proof.
  intros H. rewrite (IZR_Zpower (Build_radix 5 eq_refl)) by exact H. rewrite bpow_powerRZ.
  change (IZR (Build_radix 5 eq_refl)) with 5%R. rewrite !powerRZ_neg'.
  replace (powerRZ 10 k) with (powerRZ 5 k * powerRZ 2 k)%R.
  - assert (A : (powerRZ 5 k <> 0)%R) by (apply powerRZ_NOR; lra). assert (C : (powerRZ 2 k <> 0)%R) by (apply powerRZ_NOR; lra).
    revert A C. generalize (powerRZ 5 k) (powerRZ 2 k). intros x y A C. field. auto.
  - rewrite <- powerRZ_mult_distr by (left; lia). f_equal. lra.
Qed.
Lemma exact_denotes s m e : denotes_real (exact_text s m e) s (value (S754_finite s m e)).
Proof.
  unfold exact_text. assert (Sg : reads_sign (minus_sign s) s) by (destruct s; constructor).
  assert (V : value (S754_finite s m e) = ((if s then -1 else 1) * IZR (Zpos m) * powerRZ 2 e)%R).
  { cbn [value]. destruct s; [|ring]. change (Z.neg m) with (- Z.pos m). rewrite opp_IZR. ring. }
  destruct (Z.leb_spec 0 e) as [L|L].
  - destruct (dec_digits (Zpos m * 2 ^ e) ltac:(nia)) as (D & N & E).
    exists (minus_sign s), (dec (Zpos m * 2 ^ e)), [], (Zpos m * 2 ^ e), 0%nat, 0. rewrite app_nil_r. repeat split; auto.
    + rewrite <- E at 2. now constructor.
    + constructor.
    + rewrite V, mult_IZR. replace (0 - Z.of_nat 0) with 0 by lia. cbn [powerRZ]. rewrite (IZR_Zpower radix2) by exact L. rewrite bpow_powerRZ.
      change (IZR radix2) with 2%R. ring.
  - destruct (dec_digits (Zpos m * 5 ^ (- e)) ltac:(nia)) as (D & N & E). destruct (dec_digits (- e) ltac:(lia)) as (D' & N' & E').
    exists (minus_sign s), (dec (Zpos m * 5 ^ (- e))), (B "e-" ++ dec (- e)), (Zpos m * 5 ^ (- e)), 0%nat, e. repeat split; auto.
    + rewrite <- E at 2. now constructor.
    + change (B "e-" ++ dec (- e)) with (B "e" ++ (B "-" ++ dec (- e))). replace e with (- digits_value (dec (- e))) at 2 by lia. constructor. now constructor.
    + rewrite V, mult_IZR. replace (e - Z.of_nat 0) with (- - e) by lia. rewrite !Rmult_assoc. rewrite (pow_cancel (- e)) by lia. now rewrite Z.opp_involutive.
Qed.
Lemma exact_literal s m e : V32 (S754_finite s m e) -> literal_of (B "Float") (exact_text s m e) (OFloat (S754_finite s m e)).
Proof.
  intros V. apply literal_float. assert (D := exact_denotes s m e). split; [apply float_value_denotes; eauto|].
  destruct (atof_rounds _ _ _ D) as [V64 R]. destruct (to_float_narrows (atof (exact_text s m e))) as [V' N].
  assert (F : generic_format radix2 (fexp 24 128) (value (S754_finite s m e))) by (apply (value_format 24 128); auto; exact I).
  assert (Bd : (Rabs (value (S754_finite s m e)) < bpow radix2 128)%R) by (apply (value_bound 24 128); auto; reflexivity).
  destruct (rounds_exact 53 1024 _ _ _ (format_32_64 _ F) (Rlt_le_trans _ _ _ Bd bpow_128) R) as (F1 & E1 & G1).
  destruct (atof (exact_text s m e)) as [s'|s'| |s' m' e'] eqn:Ea; try contradiction.
  - symmetry in E1. now apply finite_pos_value in E1.
  - cbn [narrows] in N. rewrite E1 in N. destruct (rounds_exact 24 128 _ _ _ F Bd N) as (F2 & E2 & G2).
    apply (value_inj 24 128); auto; try exact I; try lia; try congruence. cbn [negative] in *. congruence.
Qed.
Lemma exact_clean s m e : one_line (exact_text s m e).
Proof.
  apply clean_line. unfold exact_text. apply clean_app. split; [destruct s; apply clean_lit; reflexivity|].
  destruct (Z.leb_spec 0 e) as [L|L].
  - apply clean_digits, dec_digits. nia.
  - apply clean_app. split; [apply clean_digits, dec_digits; nia|]. apply clean_app. split; [apply clean_lit; reflexivity|]. apply clean_digits, dec_digits. lia.
Qed.
Lemma float_literal_exists f : single_precision f -> ~ nan f -> exists a, one_line a /\ literal_of (B "Float") a (OFloat f).
Proof.
  assert (K : forall a g, existsb (ceq c_nl) a = false -> is_float_value a = true -> g = to_float (atof a) -> exists b, one_line b /\ literal_of (B "Float") b (OFloat g)).
  { intros a g H1 H2 H3. exists a. split; [apply clean_line, clean_lit; auto|]. apply literal_float. split; auto. now apply is_float_value_iff. }
  intros V N. destruct f as [s|s| |s m e].
  - destruct s; [apply (K (B "-0"))|apply (K (B "0"))]; reflexivity.
  - destruct s; [apply (K (B "-1e999"))|apply (K (B "1e999"))]; vm_compute; reflexivity.
  - exfalso. now apply N.
  - exists (exact_text s m e). split; [apply exact_clean|now apply exact_literal].
Qed.
Lemma narrows_not_nan d f : ~ nan d -> narrows d f -> ~ nan f.
Proof.
  unfold nan. intros Nd N E. subst f. destruct d as [s|s| |s m e]; cbn [narrows] in N; try congruence.
  destruct N as [N1 N2]. destruct (Rlt_le_dec (Rabs (rounded 24 128 (value (S754_finite s m e)))) (powerRZ 2 128)) as [L|L].
  - destruct (N1 L) as [F _]. exact F.
  - now specialize (N2 L).
Qed.
Lemma rounds_not_nan p e neg x d : rounds_to p e neg x d -> ~ nan d.
Proof.
  unfold nan. intros [N1 N2] E. subst d. destruct (Rlt_le_dec (Rabs (rounded p e x)) (powerRZ 2 e)) as [L|L].
  - destruct (N1 L) as [F _]. exact F.
  - now specialize (N2 L).
Qed.
Lemma printed_clean v : one_line v -> one_line (printed_string v).
Proof.
  intros H. apply clean_line. apply clean_line in H. rewrite <- quoted_printed. exact (clean_obj_repr true {| e_precision := 0; e_tolerance := S754_zero false; e_sort := fun _ l => l |} (OStr v) H).
Qed.
Lemma printed_clean' v : one_line (printed_string v) -> one_line v.
Proof.
  unfold one_line. intros H Hv. apply H. unfold printed_string, with_escapes. apply in_or_app. right. apply in_or_app. left.
  apply in_flat_map. exists NEWLINE. split; auto. destruct (Ascii.ascii_dec NEWLINE QUOTE) as [E|E]; [discriminate|now left].
Qed.
Lemma writable_iff t x : (exists a, one_line a /\ literal_of t a x) <-> has_type t x /\ writable x.
Proof.
  split.
  - intros (a & Ha & L). assert (T := literal_typed _ _ _ L). split; auto. destruct L; cbn [writable]; auto.
    + intros ->. apply Ha. right. now left.
    + now destruct H2 as (_ & _ & ?).
    + split; auto. eapply narrows_not_nan; [eapply rounds_not_nan|]; eauto.
    + destruct H as [H E]. subst a. split; [now apply printed_clean'|now apply printed_is_literal].
  - intros [T W]. destruct x as [b|ch|z|f|v]; cbn [has_type writable] in *; subst t.
    + destruct b; [exists (B "true")|exists (B "false")]; (split; [apply clean_line, clean_lit; reflexivity|constructor]).
    + exists [APOSTROPHE; ch; APOSTROPHE]. split; [|constructor]. intros [E|[E|[E|[]]]]; try discriminate E. now apply W.
    + exists (to_string z). split.
      * apply clean_line. exact (clean_obj_repr true {| e_precision := 0; e_tolerance := S754_zero false; e_sort := fun _ l => l |} (OInt z) (proj2 (in_int_fits z) W)).
      * apply (C46_printed_values_read_back 0 (B "Integer") (OInt z)); [right; right; now left|discriminate|discriminate|reflexivity|congruence|constructor; now apply prints_int_iff].
    + destruct W. now apply float_literal_exists.
    + destruct W as [W1 W2]. exists (printed_string v). split; [now apply printed_clean|]. constructor. split; auto. now apply printed_is_literal.
Qed.

(** ** Only storable values *)
Lemma lines_good srt pw c : sort_contract srt -> reachable_by_lines srt pw c -> ctx_good true c.
Proof.
  intros H1 H2. induction H2 as [o p t q|c s line c' s' ans Hl H IH Hr]; [apply new_context_good|]. apply clean_line in Hl.
  destruct (execute_good true srt pw line c s H1 IH Hl) as [(c1 & s1 & t & R & Hg & _)|[(e & R & _)|(u & R & _)]].
  - now destruct (runs_unique _ _ _ _ _ _ _ _ _ _ _ Hr R) as (-> & _).
  - destruct (runs_unique _ _ _ _ _ _ _ _ _ _ _ Hr R) as (-> & _). now apply ctx_good_log.
  - exfalso. eapply runs_ub; eauto.
Qed.
Lemma lines_reachable srt pw c : reachable_by_lines srt pw c -> reachable srt pw c.
Proof. induction 1; [now apply reach_start|eapply reach_step; [eassumption|eassumption]]. Qed.
Lemma good_holdable x : obj_clean true x -> holdable x.
Proof.
  destruct x as [b|ch|z|f|v]; intros H; cbn [obj_clean] in H; cbn [holdable writable].
  - exact I.
  - intros E. exact (H eq_refl E).
  - now apply in_int_fits.
  - destruct H as [d ->]. exact (proj1 (to_float_narrows d)).
  - now apply clean_line.
Qed.
Lemma atof_not_nan a : ~ nan (atof a).
Proof.
  unfold nan, atof.
  repeat match goal with |- context [let (_, _) := ?p in _] => destruct p end.
  match goal with |- context [decimal_to_double ?s ?m ?k] => generalize s m k end. intros neg mant ex.
  destruct mant as [|p|p]; try (cbn [decimal_to_double]; discriminate).
  destruct (decimal_rounds neg (Zpos p) ex ltac:(lia)) as [_ R]. exact (rounds_not_nan _ _ _ _ _ R).
Qed.
Lemma good_writable t x : good true t x -> has_type t x /\ writable x.
Proof.
  intros (T & C & L). split; auto. assert (H := good_holdable x C). destruct x as [b|ch|z|f|v]; cbn [holdable writable from_literal] in *; auto.
  - split; auto. destruct L as [a ->]. eapply narrows_not_nan; [apply (atof_not_nan a)|apply to_float_narrows].
  - split; auto. destruct L as [a L]. apply string_of_iff in L. exact (C07_stored_literals_are_resendable a v L).
Qed.

(** ** Every storable value *)
Definition line1 (a tok x : bytes) : bytes := a ++ B " " ++ tok ++ B " " ++ x ++ B ";".
Definition line2 (a tok x tok' y : bytes) : bytes := a ++ B " " ++ tok ++ B " " ++ x ++ B " " ++ tok' ++ B " " ++ y ++ B ";".
Lemma blank : spaces (B " "). Proof. apply is_spaces_iff. reflexivity. Qed.
Lemma line1_statement a tok x : actor a -> keyword_message_token tok -> keyword_message_argument x -> statement (line1 a tok x) a tok [x].
Proof.
  intros Ha Ht Hx. exists [], " "%char, [], (tok ++ B " " ++ x), [], []. unfold line1.
  split; [change (B " ") with [" "%char]; cbn [app]; now rewrite <- ?app_assoc|]. split; [constructor|]. split; [exact Ha|]. split; [unfold space; cbn; lia|].
  split; [constructor|]. split; [|split; constructor]. right. apply (kw_last tok (B " ") x); auto using blank.
Qed.
Lemma line2_statement a tok x tok' y : actor a -> keyword_message_token tok -> keyword_message_argument x ->
  keyword_message_token tok' -> keyword_message_argument y -> statement (line2 a tok x tok' y) a (tok ++ tok') [x; y].
Proof.
  intros Ha Ht Hx Ht' Hy. exists [], " "%char, [], (tok ++ B " " ++ x ++ [" "%char] ++ [] ++ tok' ++ B " " ++ y), [], []. unfold line2.
  split; [change (B " ") with [" "%char]; cbn [app]; repeat (rewrite <- ?app_assoc; cbn [app]); reflexivity|]. split; [constructor|]. split; [exact Ha|]. split; [unfold space; cbn; lia|].
  split; [constructor|]. split; [|split; constructor]. right. apply (kw_more tok (B " ") x " "%char [] _ tok' [y]); auto using blank.
  - unfold space; cbn; lia.
  - constructor.
  - apply (kw_last tok' (B " ") y); auto using blank.
Qed.
Lemma line1_clean a tok x : one_line a -> one_line tok -> one_line x -> one_line (line1 a tok x).
Proof. rewrite !clean_line. intros. unfold line1. repeat (apply clean_app; split; auto; try (apply clean_lit; reflexivity)). Qed.
Lemma line2_clean a tok x tok' y : one_line a -> one_line tok -> one_line x -> one_line tok' -> one_line y -> one_line (line2 a tok x tok' y).
Proof. rewrite !clean_line. intros. unfold line2. repeat (apply clean_app; split; auto; try (apply clean_lit; reflexivity)). Qed.
Lemma variable_line n : variable n -> one_line n. Proof. intros H. apply clean_line. now apply variable_clean. Qed.
Lemma literal_argument t a x : literal_of t a x -> keyword_message_argument a.
Proof.
  intros H. left. destruct (C46_of_the_type _ _ _ H) as (_ & _ & L). unfold object_value. destruct L; auto.
Qed.
Lemma tokens t : is_keyword_message_token t = true -> keyword_message_token t.
Proof. apply is_keyword_message_token_iff. Qed.
Lemma sorted_unique {A} (R : A -> A -> Prop) (l : list A) : forall l', StronglySorted R l -> StronglySorted R l' ->
  (forall a b, In a l -> In b l -> R a b -> ~ R b a) -> (forall x, In x l <-> In x l') -> l = l'.
Proof.
  induction l as [|a l IH]; intros [|b l'] H H' As E.
  - reflexivity.
  - exfalso. apply (E b). now left.
  - exfalso. apply (E a). now left.
  - inversion H as [|? ? Sl Fl]; subst. inversion H' as [|? ? Sl' Fl']; subst. rewrite Forall_forall in Fl, Fl'.
    assert (a = b) as ->.
    { destruct (proj1 (E a) (or_introl eq_refl)) as [->|I']; auto. destruct (proj2 (E b) (or_introl eq_refl)) as [->|I]; auto.
      exfalso. apply (As a b); auto; [now left|now right]. }
    f_equal. apply IH; auto.
    + intros x y Hx Hy. apply As; now right.
    + intros x. split; intros Hx.
      * destruct (proj1 (E x) (or_intror Hx)) as [->|I]; auto. exfalso. apply (As x x); auto; now right.
      * destruct (proj2 (E x) (or_intror Hx)) as [->|I]; auto. exfalso.
        apply (As x x); [now left|now left|..]; auto.
Qed.
Lemma sorted_app {A} (R : A -> A -> Prop) (l : list A) x : StronglySorted R (l ++ [x]) -> StronglySorted R l /\ forall y, In y l -> R y x.
Proof.
  induction l as [|a l IH]; cbn [app]; intros H.
  - split; [constructor|]. intros y [].
  - inversion H as [|? ? Sl Fl]; subst. destruct (IH Sl) as [S K]. apply Forall_app in Fl as [F1 F2]. split; [now constructor|].
    intros y [->|Hy]; auto. now inversion F2.
Qed.
Lemma sorted_map {A C} (R : C -> C -> Prop) (f : A -> C) (l : list A) : StronglySorted R (map f l) -> StronglySorted (fun x y => R (f x) (f y)) l.
Proof.
  induction l as [|a l IH]; cbn [map]; intros H; [constructor|]. inversion H as [|? ? Sl Fl]; subst. constructor; auto. rewrite Forall_map in Fl. exact Fl.
Qed.
Section Make.
Context (srt : sorter) (pw : bytes) (s : option session) (n : bytes) (H1 : sort_contract srt) (Hn : variable n).
Notation attains c i := (attainable srt pw c s n i).
Lemma executes_app c s0 lines c1 s1 a1 lines2 c2 s2 a2 : executes srt pw c s0 lines c1 s1 a1 -> executes srt pw c1 s1 lines2 c2 s2 a2 ->
  executes srt pw c s0 (lines ++ lines2) c2 s2 (a1 ++ a2).
Proof. intros H K. induction H; [exact K|]. cbn [app]. econstructor; [eassumption|]. auto. Qed.
Lemma executes_reachable c s0 lines c1 s1 a1 : reachable srt pw c -> executes srt pw c s0 lines c1 s1 a1 -> reachable srt pw c1.
Proof. intros R H. induction H; auto. apply IHexecutes. eapply reach_step; [exact R|exact H]. Qed.
Lemma attain_step c i i' : reachable srt pw c -> attains c i ->
  (forall c', reachable srt pw c' -> lookup c' n = Some i -> same_settings c c' -> exists line, one_line line /\ becomes srt pw c' s line n (B "null") i') ->
  attains c i'.
Proof.
  intros R (lines & answers & c' & Hl & He & Ha & L & O & S) K.
  destruct (K c' (executes_reachable _ _ _ _ _ _ R He) L S) as (line & Hline & c2 & R2 & L2 & O2 & S2).
  exists (lines ++ [line]), (answers ++ [B "null"]), c2. repeat split.
  - apply Forall_app. split; auto.
  - eapply executes_app; [exact He|]. econstructor; [exact R2|constructor].
  - apply Forall_app. split; auto.
  - exact L2.
  - intros m Hm. rewrite (O2 m Hm). auto.
  - destruct S2, S. congruence.
  - destruct S2, S. congruence.
Qed.
Lemma attain_first c line i : one_line line -> becomes srt pw c s line n (B "null") i -> attains c i.
Proof.
  intros Hl (c' & R & L & O & S). exists [line], [B "null"], c'. repeat split; auto; try apply S. econstructor; [exact R|constructor].
Qed.
Lemma attain_literal c t a x : reachable srt pw c -> ~ live c n -> object_type t -> one_line a -> literal_of t a x -> attains c (IObj x).
Proof.
  intros R F T Ha L. apply (attain_first c (line2 t (B "create:") n (B "withValue:") a)).
  - apply line2_clean; auto using variable_line; apply clean_line; try (apply clean_lit; reflexivity).
    destruct T as [->|[->|[->|[->| ->]]]]; apply clean_lit; reflexivity.
  - eapply (C24_create_on_a_free_name srt pw c s _ t (B "create:withValue:") [n; a]); auto.
    + apply (line2_statement t (B "create:") n (B "withValue:") a).
      * right. right. left. now left.
      * apply tokens. reflexivity.
      * right. now right.
      * apply tokens. reflexivity.
      * eapply literal_argument; eauto.
    + apply creates_object; auto. now left.
Qed.
Lemma attain_empty c T i : reachable srt pw c -> ~ live c n -> one_line T -> type T -> creates T (B "create:") [n] n i -> attains c i.
Proof.
  intros R F HT Ty Hc. apply (attain_first c (line1 T (B "create:") n)).
  - apply line1_clean; auto using variable_line. apply clean_line, clean_lit. reflexivity.
  - eapply (C24_create_on_a_free_name srt pw c s _ T (B "create:") [n]); auto.
    apply line1_statement; [right; right; now left|apply tokens; reflexivity|right; now right].
Qed.
Lemma var_actor : actor n. Proof using Hn. right. right. now right. Qed.
Lemma attain_string c v : reachable srt pw c -> ~ live c n -> one_line v -> attains c (IObj (OStr v)).
Proof.
  intros R F. induction v as [|x v IH] using rev_ind; intros Hv.
  - apply (attain_empty c (B "String")); auto; [apply clean_line, clean_lit; reflexivity|left; do 4 right; reflexivity|].
    apply creates_string; auto. now left.
  - apply clean_line, clean_app in Hv as [Hv Hx]. apply clean_line in Hv, Hx. eapply attain_step; [exact R|apply IH; exact Hv|].
    intros c' R' L S. exists (line1 n (B "pushBack:") [APOSTROPHE; x; APOSTROPHE]).
    assert (Hc : literal_of (B "Character") [APOSTROPHE; x; APOSTROPHE] (OChar x)) by constructor.
    split.
    + apply line1_clean; auto using variable_line; [apply clean_line, clean_lit; reflexivity|]. intros [E|[E|[E|[]]]]; try discriminate E. apply Hx. now left.
    + eapply C20_effect; eauto; [apply line1_statement; [apply var_actor|apply tokens; reflexivity|eapply literal_argument; eauto]|]. constructor.
Qed.
Lemma attain_nan c : reachable srt pw c -> ~ live c n -> attains c (IObj (OFloat S754_nan)).
Proof.
  intros R F. assert (K : literal_of (B "Float") (B "1e999") (OFloat (S754_infinity false))).
  { apply literal_float. split; [apply is_float_value_iff; reflexivity|vm_compute; reflexivity]. }
  eapply attain_step; [exact R|eapply (attain_literal c (B "Float") (B "1e999")); auto|].
  - do 3 right. now left.
  - apply clean_line, clean_lit. reflexivity.
  - exact K.
  - intros c' R' L S. exists (line1 n (B "subtract:") (B "1e999")). split.
    + apply line1_clean; auto using variable_line; apply clean_line, clean_lit; reflexivity.
    + apply (var_becomes srt pw c' s _ n (B "subtract:") [B "1e999"] (IObj (OFloat (S754_infinity false))) H1 R') with (r := Ok null).
      * apply line1_statement; [apply var_actor|apply tokens; reflexivity|eapply literal_argument; eauto].
      * exact L.
      * vm_compute. reflexivity.
      * exact (fun x => x).
Qed.
Lemma attain_object c x : reachable srt pw c -> ~ live c n -> holdable x -> attains c (IObj x).
Proof.
  intros R F H.
  assert (K : forall t, has_type t x -> writable x -> attains c (IObj x)).
  { intros t T W. destruct (proj2 (writable_iff t x) (conj T W)) as (a & Ha & La). eapply attain_literal; eauto. now destruct (C46_of_the_type _ _ _ La). }
  destruct x as [b|ch|z|f|v]; cbn [holdable] in H.
  - apply (K (B "Boolean")); auto. reflexivity.
  - apply (K (B "Character")); auto. reflexivity.
  - apply (K (B "Integer")); auto. reflexivity.
  - destruct f as [s0|s0| |s0 m e]; try (apply (K (B "Float")); [reflexivity|split; [exact H|discriminate]]). now apply attain_nan.
  - now apply attain_string.
Qed.
Lemma type_line t : object_type t -> one_line t.
Proof. intros T. apply clean_line. destruct T as [->|[->|[->|[->| ->]]]]; apply clean_lit; reflexivity. Qed.
Lemma attain_vector c t v : reachable srt pw c -> ~ live c n -> object_type t -> Forall (fun x => has_type t x /\ writable x) v -> attains c (IVector t v).
Proof.
  intros R F T. induction v as [|x v IH] using rev_ind; intros Hv.
  - assert (VT : vector_type (B "Vector<" ++ t ++ B ">") t) by (exists [], []; repeat split; auto; constructor).
    apply (attain_empty c (B "Vector<" ++ t ++ B ">")); auto.
    + apply clean_line. apply type_line, clean_line in T. repeat (apply clean_app; split; auto; try (apply clean_lit; reflexivity)).
    + right. left. now exists t.
    + apply creates_vector; auto. now left.
  - apply Forall_app in Hv as [Hv Hx]. inversion Hx as [|? ? [Tx Wx] _]; subst. eapply attain_step; [exact R|apply IH; exact Hv|].
    destruct (proj2 (writable_iff t x) (conj Tx Wx)) as (a & Ha & La).
    intros c' R' L S. exists (line1 n (B "pushBack:") a). split.
    + apply line1_clean; auto using variable_line. apply clean_line, clean_lit. reflexivity.
    + eapply C18_effect; eauto; [apply line1_statement; [apply var_actor|apply tokens; reflexivity|eapply literal_argument; eauto]|].
      constructor. auto.
Qed.
Definition clear_order (tol : f32) (t : bytes) : Prop := t <> B "Float" \/ (finite tol /\ value tol = 0%R).
Lemma clear_increasing tol t l : clear_order tol t -> Forall (fun x => has_type t x /\ writable x) l ->
  strictly_increasing (S754_zero false) l -> strictly_increasing tol l.
Proof.
  intros C Hl. apply increasing_weaken. intros a b Ha Hb K. rewrite Forall_forall in Hl. destruct (Hl a Ha) as [Ta _], (Hl b Hb) as [Tb _].
  destruct C as [N|[Ft Z]].
  - destruct a, b; cbn [before has_type] in *; subst; try contradiction; try discriminate; try exact K; now elim N.
  - assert (Ez : extended_of tol = extended_of (S754_zero false)) by (rewrite (finite_extended tol Ft), Z; reflexivity).
    destruct a, b; cbn [before] in *; rewrite ?Ez; auto.
Qed.
Lemma clear_side tol t : clear_order tol t -> ~ below_zero tol \/ t <> B "Float".
Proof. intros [N|[Ft Z]]; auto. left. intros [[_ X]|X]; [rewrite Z in X; lra|rewrite X in Ft; exact Ft]. Qed.
Lemma clear_asym tol t a b : clear_order tol t -> has_type t a -> has_type t b -> before tol a b -> ~ before tol b a.
Proof.
  intros C Ta Tb K K'. destruct C as [N|C].
  - apply (before_asym (S754_zero false) a b).
    + intros [[_ X]|X]; [cbn in X; lra|discriminate].
    + destruct a, b; cbn [before has_type] in *; subst; try contradiction; try discriminate; try exact K; now elim N.
    + destruct a, b; cbn [before has_type] in *; subst; try contradiction; try discriminate; try exact K'; now elim N.
  - revert K K'. apply before_asym. destruct (clear_side tol (B "Float") (or_intror C)) as [X|X]; [exact X|now elim X].
Qed.
Lemma attain_set c t v : reachable srt pw c -> ~ live c n -> object_type t -> clear_order (tolerance c) t ->
  Forall (fun x => has_type t x /\ writable x) v -> strictly_increasing (S754_zero false) v -> attains c (ISet t v).
Proof.
  intros R F T C. induction v as [|x v IH] using rev_ind; intros Hv Hi.
  - assert (VT : set_type (B "Set<" ++ t ++ B ">") t) by (exists [], []; repeat split; auto; constructor).
    apply (attain_empty c (B "Set<" ++ t ++ B ">")); auto.
    + apply clean_line. apply type_line, clean_line in T. repeat (apply clean_app; split; auto; try (apply clean_lit; reflexivity)).
    + right. right. left. now exists t.
    + apply creates_set; auto. now left.
  - assert (Hi' := clear_increasing _ _ _ C Hv Hi). assert (Hall := Hv).
    apply Forall_app in Hv as [Hv Hx]. inversion Hx as [|? ? [Tx Wx] _]; subst. destruct (sorted_app _ _ _ Hi) as [Hi0 _].
    destruct (sorted_app _ _ _ Hi') as [Hi1 Hlast]. eapply attain_step; [exact R|apply IH; auto|].
    destruct (proj2 (writable_iff t x) (conj Tx Wx)) as (a & Ha & La). assert (Aa := literal_argument _ _ _ La).
    intros c' R' L [_ S]. rewrite <- S in *. exists (line1 n (B "add:") a).
    assert (St : statement (line1 n (B "add:") a) n (B "add:") [a]).
    { apply line1_statement; [apply var_actor|apply tokens; reflexivity|exact Aa]. }
    split; [apply line1_clean; auto using variable_line; apply clean_line, clean_lit; reflexivity|].
    assert (U : usable (tolerance c') x v).
    { destruct C as [N|[Ft Z]]; [|eapply C23_usable_at_zero; eauto]. split; auto.
      apply (weak_order_plain (tolerance c') t); auto. constructor; auto. eapply Forall_impl; [|exact Hv]. now intros y [? _]. }
    destruct (C23_add srt pw c' s _ n a x t v H1 R' St L La U) as (v' & Bc & Sv & D).
    replace (v ++ [x]) with v'; [exact Bc|]. symmetry. rewrite Forall_forall in Hall.
    assert (As : forall a b, In a (v ++ [x]) -> In b (v ++ [x]) -> before (tolerance c') a b -> ~ before (tolerance c') b a).
    { intros y z Hy Hz. destruct (Hall y Hy), (Hall z Hz). eapply clear_asym; eauto. }
    apply (sorted_unique (before (tolerance c'))); auto.
    destruct D as [[Ex ->]|[_ D]].
    + exfalso. apply Exists_exists in Ex as (y & Hy & [E1 _]). now apply E1, Hlast.
    + intros z. rewrite D, in_app_iff. cbn [In]. intuition congruence.
Qed.
Lemma attain_dict c kt vt d : reachable srt pw c -> ~ live c n -> object_type kt -> object_type vt -> clear_order (tolerance c) kt ->
  Forall (fun p => (has_type kt (fst p) /\ writable (fst p)) /\ (has_type vt (snd p) /\ writable (snd p))) d ->
  strictly_increasing (S754_zero false) (map fst d) -> attains c (IDict kt vt d).
Proof.
  intros R F T T' C. induction d as [|[k x] d IH] using rev_ind; intros Hv Hi.
  - assert (VT : dictionary_type (B "Dictionary<" ++ kt ++ B "," ++ vt ++ B ">") kt vt) by (exists [], [], [], []; repeat split; auto; constructor).
    apply (attain_empty c (B "Dictionary<" ++ kt ++ B "," ++ vt ++ B ">")); auto.
    + apply clean_line. apply type_line, clean_line in T, T'. repeat (apply clean_app; split; auto; try (apply clean_lit; reflexivity)).
    + right. right. right. now exists kt, vt.
    + apply creates_dictionary; auto. now left.
  - assert (Hk : Forall (fun x => has_type kt x /\ writable x) (map fst (d ++ [(k, x)]))).
    { apply Forall_map. eapply Forall_impl; [|exact Hv]. now intros p [? _]. }
    assert (Hi' := clear_increasing _ _ _ C Hk Hi). rewrite map_app in Hi, Hi'. cbn [map fst] in Hi, Hi'.
    apply Forall_app in Hv as [Hv Hx]. inversion Hx as [|? ? [[Tk Wk] [Tx Wx]] _]; subst. cbn [fst snd] in *.
    destruct (sorted_app _ _ _ Hi) as [Hi0 _]. destruct (sorted_app _ _ _ Hi') as [Hi1 Hlast]. eapply attain_step; [exact R|apply IH; auto|].
    destruct (proj2 (writable_iff vt x) (conj Tx Wx)) as (a & Ha & La). assert (Aa := literal_argument _ _ _ La).
    destruct (proj2 (writable_iff kt k) (conj Tk Wk)) as (b & Hb & Lb). assert (Ab := literal_argument _ _ _ Lb).
    intros c' R' L [_ S]. rewrite <- S in *. exists (line2 n (B "associateValue:") a (B "withKey:") b).
    assert (St : statement (line2 n (B "associateValue:") a (B "withKey:") b) n (B "associateValue:withKey:") [a; b]).
    { apply (line2_statement n (B "associateValue:") a (B "withKey:") b); [apply var_actor|apply tokens; reflexivity| |apply tokens; reflexivity|]; assumption. }
    split; [apply line2_clean; auto using variable_line; apply clean_line, clean_lit; reflexivity|].
    assert (U : usable (tolerance c') k (map fst d)).
    { destruct C as [N|[Ft Z]]; [|eapply C23_keys_usable_at_zero; eauto]. split; auto.
      apply (weak_order_plain (tolerance c') kt); auto. constructor; auto. rewrite map_app in Hk. apply Forall_app in Hk as [Hk _].
      eapply Forall_impl; [|exact Hk]. now intros y [? _]. }
    destruct (C23_associate srt pw c' s _ n a b x k kt vt d H1 R' St L La Lb U) as (d' & Bc & Sv & D).
    replace (d ++ [(k, x)]) with d'; [exact Bc|]. symmetry. rewrite Forall_forall in Hk.
    assert (As : forall p q, In p (d ++ [(k, x)]) -> In q (d ++ [(k, x)]) -> before (tolerance c') (fst p) (fst q) -> ~ before (tolerance c') (fst q) (fst p)).
    { intros p q Hp Hq. destruct (Hk _ (in_map fst _ _ Hp)), (Hk _ (in_map fst _ _ Hq)). eapply clear_asym; eauto. }
    apply (sorted_unique (fun p q => before (tolerance c') (fst p) (fst q))); auto.
    + apply sorted_map. rewrite map_app. exact Hi'.
    + now apply sorted_map.
    + destruct D as [(k' & Ik & [E1 _] & _)|[_ D]].
      * exfalso. now apply E1, Hlast.
      * intros [y z]. rewrite D, in_app_iff. cbn [In]. split; intros [K|K]; auto.
        -- destruct K as [[= -> ->]|[]]. auto.
        -- destruct K as [-> ->]. auto.
Qed.
Lemma attain_storable c i : reachable srt pw c -> ~ live c n -> storable i -> (ordered_by_tolerance i -> zero_tolerance c) -> attains c i.
Proof.
  intros R F H Z. destruct i as [x|t v|t v|kt vt d]; cbn [storable ordered_by_tolerance] in *.
  - now apply attain_object.
  - destruct H. now apply attain_vector.
  - destruct H as (T & Hv & Hi). apply attain_set; auto. destruct (bytes_dec t (B "Float")) as [E|E]; [right; now apply Z|now left].
  - destruct H as (T & T' & Hv & Hi). apply attain_dict; auto. destruct (bytes_dec kt (B "Float")) as [E|E]; [right; now apply Z|now left].
Qed.
End Make.
