(** C70: clients can find out everything, and nothing more. *)
From Coq Require Import ZArith Reals Psatz.
From Verif Require Import Bytes StrUtils Grammar Outcome Parser Num Containers Instance Context Platform.
From Verif Require Import Lemmas StringLit Proof_Grammar Proof_Parser Proof_Exec WP Proof_Inv Proof_Literal Proof_Receive Proof_Context Proof_Names Api Proof_Text.
From Verif Require Import Proof_Number Proof_Float Proof_Arith Proof_Order Proof_Set Proof_Vector Proof_String Proof_Storable Proof_Observe.
From Verif Require Import Props_Text Props_State Props_Number Props_Float Props_Order Props_Vector Props_String Props_Set Props_Object Props_Storable Props_Local.
From Verif Require Import Spec_Grammar Spec_State Spec_Names Spec_Text Spec_Number Spec_Float Spec_Order Spec_Vector Spec_String Spec_Set Spec_Object Spec_Local Spec_Storable Spec_Observe.
Import ListNotations.
Open Scope Z_scope.
Open Scope list_scope.

Definition quiet_env (p : Z) : env := {| e_precision := p; e_tolerance := S754_zero false; e_sort := fun _ l => l |}.
Lemma machine_sound x : machine_value x -> sound x.
Proof. destruct x; cbn; auto. intros H. now apply in_int_fits. Qed.

(** ** Texts *)
Theorem C70_45_places_show_every_value : forall p x y a, 45 <= p -> machine_value x -> machine_value y ->
  shows p x a -> shows p y a -> x = y.
Proof.
  intros p x y a Hp Mx My Sx Sy. apply (shows_iff (quiet_env p)) in Sx, Sy. apply (repr_inj (quiet_env p) Hp); auto using machine_sound. congruence.
Qed.
Lemma listed t v : object_type t -> Forall (has_type t) v -> Forall machine_value v -> Forall (fine t) v.
Proof. intros _ T M. rewrite Forall_forall in *. intros x Hx. split; auto using machine_sound. Qed.
Theorem C70_45_places_show_every_list : forall p t t' v v' a, 45 <= p -> object_type t -> object_type t' ->
  Forall (has_type t) v -> Forall (has_type t') v' -> Forall machine_value v -> Forall machine_value v' ->
  shows_list p v a -> shows_list p v' a -> v = v'.
Proof.
  intros p t t' v v' a Hp Ht Ht' T T' M M' Sv Sv'. apply (shows_list_iff (quiet_env p)) in Sv, Sv'. rewrite Sv in Sv'.
  unfold vector_representation in Sv'. rewrite !joined_comma_sep in Sv'. apply (f_equal (@tl ascii)) in Sv'. cbn [tl app] in Sv'.
  apply (list_inj_any (quiet_env p) Hp (ascii_of_nat 93) (or_introl eq_refl) t t'); auto using listed.
Qed.
Theorem C70_44_places_do_not_suffice : exists f g a, f <> g /\ single_precision f /\ single_precision g /\ shows 44 (OFloat f) a /\ shows 44 (OFloat g) a.
Proof.
  exists (S754_finite false 1 (-149)), (S754_zero false), (fixed_repr 44 (S754_zero false)). split; [discriminate|]. split; [reflexivity|]. split; [reflexivity|].
  split; apply (shows_iff (quiet_env 44)); vm_compute; reflexivity.
Qed.
Print Assumptions C70_45_places_show_every_list.

(** ** Experiments *)
Section Experiment.
Context (srt : sorter) (pw : bytes) (H1 : sort_contract srt).

Definition twins (c : context) (s : option session) (d : context) (t : option session) : Prop :=
  forall lines answers, Forall one_line lines -> (answered srt pw c s lines answers <-> answered srt pw d t lines answers).
Lemma answered_more c s line c1 s1 a lines answers : runs srt pw c s line c1 s1 a ->
  (answered srt pw c s (line :: lines) (a :: answers) <-> answered srt pw c1 s1 lines answers).
Proof using Type.
  intros R. split.
  - intros (c' & s' & X). inversion X; subst. match goal with Y : runs _ _ c s line _ _ _ |- _ => destruct (runs_unique _ _ _ _ _ _ _ _ _ _ _ R Y) as (-> & -> & _) end.
    now exists c', s'.
  - intros (c' & s' & X). exists c', s'. econstructor; eauto.
Qed.
Lemma experiment c s d t line c1 s1 a : twins c s d t -> one_line line -> runs srt pw c s line c1 s1 a ->
  exists d1 t1, runs srt pw d t line d1 t1 a /\ twins c1 s1 d1 t1.
Proof using Type.
  intros T L R. assert (A : answered srt pw d t [line] [a]).
  { apply T; [now constructor|]. exists c1, s1. econstructor; [exact R|constructor]. }
  destruct A as (d1 & t1 & X). inversion X; subst. match goal with Y : executes _ _ _ _ [] _ _ _ |- _ => inversion Y; subst end.
  match goal with Y : runs _ _ d t line _ _ _ |- _ => rename Y into R' end. exists d1, t1. split; auto.
  intros lines answers F. rewrite <- (answered_more _ _ _ _ _ _ _ _ R), <- (answered_more _ _ _ _ _ _ _ _ R'). apply T. now constructor.
Qed.
(** Two experiments whose outcomes are known. *)
Lemma experiments c s d t line c1 s1 a d1 t1 b : twins c s d t -> one_line line -> runs srt pw c s line c1 s1 a -> runs srt pw d t line d1 t1 b ->
  a = b /\ twins c1 s1 d1 t1.
Proof using Type.
  intros T L R R'. destruct (experiment _ _ _ _ _ _ _ _ T L R) as (d2 & t2 & X & Y).
  destruct (runs_unique _ _ _ _ _ _ _ _ _ _ _ R' X) as (-> & -> & ->). auto.
Qed.
Definition line0 (a m : bytes) : bytes := a ++ B " " ++ m ++ B ";".
Lemma line0_statement a m : actor a -> unary_message m -> statement (line0 a m) a m [].
Proof using Type.
  intros Ha Hm. exists [], " "%char, [], m, [], []. unfold line0.
  split; [change (B " ") with [" "%char]; cbn [app]; now rewrite ?app_nil_r|]. split; [constructor|]. split; [exact Ha|]. split; [unfold space; cbn; lia|].
  split; [constructor|]. split; [left; exact Hm|split; constructor].
Qed.
Lemma line0_clean a m : one_line a -> one_line m -> one_line (line0 a m).
Proof using Type. rewrite !clean_line. intros. unfold line0. repeat (apply clean_app; split; auto; try (apply clean_lit; reflexivity)). Qed.
Lemma name_actor n : variable n -> actor n. Proof using Type. intros. right. right. now right. Qed.

(** *** What a variable shows *)
Definition image (E : env) (i : inst) : bytes :=
  match i with
  | IObj x => obj_repr E x
  | IVector _ v => vector_representation E v
  | ISet _ v => set_representation E v
  | IDict _ _ d => dict_representation E d
  end.
Lemma get_receive E i : receive E i (B "get") [] = (i, Ok (image E i)).
Proof using Type. destruct i as [[]|t v|t v|k v d]; reflexivity. Qed.
Lemma keys_receive E k v d : receive E (IDict k v d) (B "keys") [] = (IDict k v d, Ok (vector_representation E (map fst d))).
Proof using Type. reflexivity. Qed.
Lemma values_receive E k v d : receive E (IDict k v d) (B "values") [] = (IDict k v d, Ok (vector_representation E (map snd d))).
Proof using Type. reflexivity. Qed.
Inductive alike : inst -> inst -> Prop :=
| alike_value x : alike (IObj x) (IObj x)
| alike_vector t t' v : alike (IVector t v) (IVector t' v)
| alike_set t t' v : alike (ISet t v) (ISet t' v)
| alike_dictionary k v k' v' d : alike (IDict k v d) (IDict k' v' d).
Definition kind (i : inst) : nat := match i with IObj _ => 0%nat | IVector _ _ => 1%nat | ISet _ _ => 2%nat | IDict _ _ _ => 3%nat end.
Definition kind_of (c : ascii) : nat := if ceq c "["%char then 1%nat else if ceq c "{"%char then 2%nat else if ceq c "("%char then 3%nat else 0%nat.
Lemma image_kind E i : exists c r, image E i = c :: r /\ kind_of c = kind i /\ c <> "R"%char.
Proof using Type.
  destruct i as [x|t v|t v|k v d]; try (eexists _, _; split; [reflexivity|]; split; [reflexivity|discriminate]).
  destruct (first_char E x) as (c & r & Q & L). exists c, r. split; [exact Q|]. clear Q. destruct x as [[]|ch|z|f|s]; cbn [looks_like] in L;
    try (subst c; split; [reflexivity|discriminate]); destruct L as [L|[L|L]]; try (subst c; split; [reflexivity|discriminate]);
    destruct c as [[] [] [] [] [] [] [] []]; try discriminate L; (split; [reflexivity|discriminate]).
Qed.
Lemma same_vectors E t t' l l' : 45 <= e_precision E -> object_type t -> object_type t' -> Forall (fine t) l -> Forall (fine t') l' ->
  vector_representation E l = vector_representation E l' -> l = l'.
Proof using Type.
  intros Hp Ht Ht' F F' Eq. unfold vector_representation in Eq. rewrite !joined_comma_sep in Eq. apply (f_equal (@tl ascii)) in Eq. cbn [tl app] in Eq.
  apply (list_inj_any E Hp (ascii_of_nat 93) (or_introl eq_refl) t t'); auto.
Qed.
Lemma same_sets E t t' l l' : 45 <= e_precision E -> object_type t -> object_type t' -> Forall (fine t) l -> Forall (fine t') l' ->
  set_representation E l = set_representation E l' -> l = l'.
Proof using Type.
  intros Hp Ht Ht' F F' Eq. unfold set_representation in Eq. rewrite !joined_comma_sep in Eq. apply (f_equal (@tl ascii)) in Eq. cbn [tl app] in Eq.
  apply (list_inj_any E Hp (ascii_of_nat 125) (or_intror eq_refl) t t'); auto.
Qed.
Lemma same_pairs {A B} (l l' : list (A * B)) : map fst l = map fst l' -> map snd l = map snd l' -> l = l'.
Proof using Type.
  revert l'. induction l as [|[a b] l IH]; intros [|[a' b'] l'] F G; try discriminate; auto. cbn in F, G. injection F as -> F. injection G as -> G. f_equal. auto.
Qed.
Lemma asks c s n i m a : reachable srt pw c -> lookup c n = Some i -> unary_message m -> one_line m -> receive (env_of srt c) i m [] = (i, Ok a) ->
  one_line (line0 n m) /\ only_answers srt pw c s (line0 n m) a.
Proof using H1.
  intros R L U O Eq. assert (V := holder_variable srt pw c n i H1 R L). split; [apply line0_clean; auto using variable_line|].
  apply (var_answers srt pw c s (line0 n m) n m [] i H1 R (line0_statement n m (name_actor n V) U) L (Ok a)); auto.
Qed.
Lemma unary_get : unary_message (B "get"). Proof using Type. apply is_unary_message_iff. reflexivity. Qed.
Lemma unary_keys : unary_message (B "keys"). Proof using Type. apply is_unary_message_iff. reflexivity. Qed.
Lemma unary_values : unary_message (B "values"). Proof using Type. apply is_unary_message_iff. reflexivity. Qed.
Lemma lit_line l : existsb (ceq c_nl) l = false -> one_line l.
Proof using Type. intros. now apply clean_line, clean_lit. Qed.
Definition sharp (c : context) : Prop := 45 <= float_precision c.
Lemma same_answer c s d t n i j m a b : twins c s d t -> reachable srt pw c -> reachable srt pw d -> lookup c n = Some i -> lookup d n = Some j ->
  unary_message m -> one_line m -> receive (env_of srt c) i m [] = (i, Ok a) -> receive (env_of srt d) j m [] = (j, Ok b) -> a = b.
Proof using H1.
  intros T Rc Rd Lc Ld U O Ec Ed. destruct (asks c s n i m a Rc Lc U O Ec) as [Ol (c1 & X & _)], (asks d t n j m b Rd Ld U O Ed) as [_ (d1 & Y & _)].
  exact (proj1 (experiments _ _ _ _ _ _ _ _ _ _ _ T Ol X Y)).
Qed.
Lemma found_alike c s d t n i : twins c s d t -> reachable srt pw c -> reachable srt pw d -> sharp c -> float_precision d = float_precision c -> tolerance d = tolerance c ->
  lookup c n = Some i -> exists j, lookup d n = Some j /\ alike i j.
Proof using H1.
  intros T Rc Rd Sh P To Lc. assert (V := holder_variable srt pw c n i H1 Rc Lc).
  assert (Ed : env_of srt d = env_of srt c) by (unfold env_of; now rewrite P, To).
  destruct (asks c s n i (B "get") _ Rc Lc unary_get (lit_line (B "get") eq_refl) (get_receive _ i)) as [Ol (c1 & X & _)].
  destruct (image_kind (env_of srt c) i) as (ch & r & Qi & Ki & NR).
  destruct (lookup d n) as [j|] eqn:Ld.
  2:{ exfalso. destruct (experiment _ _ _ _ _ _ _ _ T Ol X) as (d1 & t1 & Y & _).
      assert (Z := variable_effect srt pw d t _ n _ _ d1 t1 _ (reachable_keys srt pw d H1 Rd) (line0_statement n _ (name_actor n V) unary_get) V Y).
      rewrite Ld, Qi in Z. destruct Z as [[Z _] _]. injection Z as Z _. contradiction. }
  exists j. split; auto.
  assert (I := same_answer c s d t n i j (B "get") _ _ T Rc Rd Lc Ld unary_get (lit_line (B "get") eq_refl) (get_receive _ i) (get_receive _ j)).
  rewrite Ed in I. destruct (image_kind (env_of srt c) j) as (ch' & r' & Qj & Kj & _).
  assert (K : kind i = kind j). { rewrite <- Ki, <- Kj. rewrite Qi, Qj in I. injection I as -> _. reflexivity. }
  clear ch r Qi Ki NR ch' r' Qj Kj. assert (Gc := ctx_good_lookup false c n i (reachable_good srt pw c H1 Rc) Lc). assert (Gd := ctx_good_lookup false d n j (reachable_good srt pw d H1 Rd) Ld).
  destruct i as [x|ty v|ty v|kt vt m], j as [x'|ty' v'|ty' v'|kt' vt' m']; try discriminate K; cbn [image] in I.
  - replace x' with x; [constructor|]. apply (repr_inj (env_of srt c)); auto; [apply (obj_clean_sound false), Gc|apply (obj_clean_sound false), Gd].
  - destruct (vector_good srt pw c n ty v H1 Rc Lc) as (A1 & A2 & A3 & _), (vector_good srt pw d n ty' v' H1 Rd Ld) as (B1 & B2 & B3 & _).
    replace v' with v; [constructor|]. apply (same_vectors (env_of srt c) ty ty'); auto; rewrite Forall_forall in *; intros; split; auto.
  - destruct (set_stored srt pw c n ty v H1 Rc Lc), (set_stored srt pw d n ty' v' H1 Rd Ld). replace v' with v; [constructor|]. now apply (same_sets (env_of srt c) ty ty').
  - destruct (dict_stored srt pw c n kt vt m H1 Rc Lc) as (A1 & A2 & A3 & A4), (dict_stored srt pw d n kt' vt' m' H1 Rd Ld) as (B1 & B2 & B3 & B4).
    replace m' with m; [constructor|]. apply same_pairs.
    + apply (same_vectors (env_of srt c) kt kt'); auto. assert (Z := same_answer c s d t n _ _ (B "keys") _ _ T Rc Rd Lc Ld unary_keys (lit_line (B "keys") eq_refl) (keys_receive _ _ _ _) (keys_receive _ _ _ _)). now rewrite Ed in Z.
    + apply (same_vectors (env_of srt c) vt vt'); auto. assert (Z := same_answer c s d t n _ _ (B "values") _ _ T Rc Rd Lc Ld unary_values (lit_line (B "values") eq_refl) (values_receive _ _ _ _) (values_receive _ _ _ _)). now rewrite Ed in Z.
Qed.
(** *** The types of empty containers: put something in *)
Lemma a_literal t : object_type t -> exists a x, one_line a /\ literal_of t a x.
Proof using Type.
  intros T. assert (K : forall x, has_type t x -> writable x -> exists a x, one_line a /\ literal_of t a x).
  { intros x Tx W. destruct (proj2 (writable_iff t x) (conj Tx W)) as (a & Ha). eauto. }
  destruct T as [->|[->|[->|[->| ->]]]].
  - apply (K (OBool true)); [reflexivity|exact I].
  - apply (K (OChar "a"%char)); [reflexivity|discriminate].
  - apply (K (OInt 0)); [reflexivity|]. apply in_int_fits. reflexivity.
  - apply (K (OFloat (S754_zero false))); [reflexivity|]. split; [reflexivity|discriminate].
  - apply (K (OStr [])); [reflexivity|]. split; [intros []|]. apply printed_is_literal. apply is_string_value_iff. reflexivity.
Qed.
Inductive filled : inst -> inst -> Prop :=
| filled_vector t v x v' : In x v' -> filled (IVector t v) (IVector t v')
| filled_set t v x v' : In x v' -> filled (ISet t v) (ISet t v')
| filled_dictionary k v d x d' : In x d' -> filled (IDict k v d) (IDict k v d').
Lemma filling c s n i : reachable srt pw c -> zero_tolerance c -> lookup c n = Some i -> kind i <> 0%nat ->
  exists line m args i', one_line line /\ statement line n m args /\ becomes srt pw c s line n (B "null") i' /\ filled i i'.
Proof using H1.
  intros R [Zf Zv] L K. assert (V := holder_variable srt pw c n i H1 R L). destruct i as [x|t v|t v|kt vt d]; [now elim K| | |].
  - destruct (vector_good srt pw c n t v H1 R L) as (Ho & _). destruct (a_literal t Ho) as (a & x & Oa & La).
    assert (St : statement (line1 n (B "pushBack:") a) n (B "pushBack:") [a]) by (apply line1_statement; [now apply name_actor|apply tokens; reflexivity|eapply literal_argument; eauto]).
    exists (line1 n (B "pushBack:") a), (B "pushBack:"), [a], (IVector t (v ++ [x])). split; [apply line1_clean; auto using variable_line; now apply lit_line|]. split; [exact St|].
    split; [eapply C18_effect; eauto; now constructor|]. econstructor. apply in_or_app. right. now left.
  - destruct (set_stored srt pw c n t v H1 R L) as (Ho & _). destruct (a_literal t Ho) as (a & x & Oa & La).
    assert (St : statement (line1 n (B "add:") a) n (B "add:") [a]) by (apply line1_statement; [now apply name_actor|apply tokens; reflexivity|eapply literal_argument; eauto]).
    destruct (C23_add srt pw c s _ n a x t v H1 R St L La) as (v' & Bc & D); [eapply C23_usable_at_zero; eauto|].
    exists (line1 n (B "add:") a), (B "add:"), [a], (ISet t v'). split; [apply line1_clean; auto using variable_line; now apply lit_line|]. split; [exact St|]. split; [exact Bc|].
    destruct D as [_ [[Ex ->]|[_ D]]].
    + apply Exists_exists in Ex as (y & Hy & _). econstructor. exact Hy.
    + econstructor. apply (D x). auto.
  - destruct (dict_stored srt pw c n kt vt d H1 R L) as (Hk & Hv & _). destruct (a_literal kt Hk) as (b & k & Ob & Lb), (a_literal vt Hv) as (a & x & Oa & La).
    assert (St : statement (line2 n (B "associateValue:") a (B "withKey:") b) n (B "associateValue:withKey:") [a; b])
      by (apply (line2_statement n (B "associateValue:") a (B "withKey:") b); try (apply tokens; reflexivity); try (eapply literal_argument; eauto); now apply name_actor).
    destruct (C23_associate srt pw c s _ n a b x k kt vt d H1 R St L La Lb) as (d' & Bc & D); [eapply C23_keys_usable_at_zero; eauto|].
    exists (line2 n (B "associateValue:") a (B "withKey:") b), (B "associateValue:withKey:"), [a; b], (IDict kt vt d').
    split; [apply line2_clean; auto using variable_line; now apply lit_line|]. split; [exact St|]. split; [exact Bc|].
    destruct D as [_ [(k' & _ & _ & D)|[_ D]]].
    + apply (filled_dictionary _ _ _ (k', x)). apply (D k' x). auto.
    + apply (filled_dictionary _ _ _ (k, x)). apply (D k x). auto.
Qed.
Lemma class_stays c s line n m args c' s' a i : reachable srt pw c -> lookup c n = Some i -> statement line n m args -> runs srt pw c s line c' s' a ->
  exists i', lookup c' n = Some i' /\ same_class i i'.
Proof using H1.
  intros R L St X. assert (V := holder_variable srt pw c n i H1 R L).
  assert (Z := variable_effect srt pw c s line n m args c' s' a (reachable_keys srt pw c H1 R) St V X). rewrite L in Z. destruct Z as [(r & E & _ & _ & L') _].
  exists (fst r). split; [exact L'|]. rewrite <- E. apply (receive_good false (env_of srt c) i m args); auto; [eapply ctx_good_lookup; eauto; eapply reachable_good; eauto|].
  apply Forall_forall. intros. apply clean_false.
Qed.
Lemma has_type_unique t t' x : has_type t x -> has_type t' x -> t = t'.
Proof using Type. destruct x; cbn; congruence. Qed.
Lemma found c s d t n i : twins c s d t -> reachable srt pw c -> reachable srt pw d -> sharp c -> float_precision d = float_precision c -> tolerance d = tolerance c ->
  zero_tolerance c -> lookup c n = Some i -> lookup d n = Some i.
Proof using H1.
  intros T Rc Rd Sh P To Z Lc. destruct (found_alike c s d t n i T Rc Rd Sh P To Lc) as (j & Ld & A). rewrite Ld. f_equal.
  destruct (Nat.eq_dec (kind i) 0) as [K|K]; [destruct A; try discriminate K; reflexivity|].
  destruct (filling c s n i Rc Z Lc K) as (line & m & args & i' & Ol & St & (c1 & X & L1 & _ & S1) & F).
  destruct (experiment _ _ _ _ _ _ _ _ T Ol X) as (d1 & t1 & Y & T1).
  destruct (class_stays _ _ _ _ _ _ _ _ _ _ Rd Ld St Y) as (j' & Ld1 & Cj).
  assert (V := holder_variable srt pw c n i H1 Rc Lc).
  destruct (variable_statement srt pw d t line n m args d1 t1 _ H1 Rd St V Y) as (_ & [P1 T1'] & _). destruct S1 as [P2 T2].
  assert (Rc1 : reachable srt pw c1) by exact (reach_step _ _ _ _ _ _ _ _ Rc X). assert (Rd1 : reachable srt pw d1) by exact (reach_step _ _ _ _ _ _ _ _ Rd Y).
  destruct (found_alike c1 s d1 t1 n i' T1 Rc1 Rd1) as (j2 & Ld2 & A2); [unfold sharp; now rewrite P2|congruence|congruence|exact L1|].
  rewrite Ld1 in Ld2. injection Ld2 as <-.
  assert (Wi := holder_typed srt pw c1 n i' H1 Rc1 L1). assert (Wj := holder_typed srt pw d1 n j' H1 Rd1 Ld1).
  destruct F as [ty v x v' Hx|ty v x v' Hx|kt vt m0 x m' Hx]; inversion A2; subst; inversion A; subst; cbn [same_class well_typed] in *; subst.
  - destruct Wi as [_ Wi], Wj as [_ Wj]. rewrite Forall_forall in Wi, Wj. now rewrite (has_type_unique _ _ x (Wi x Hx) (Wj x Hx)).
  - destruct Wi as [_ Wi], Wj as [_ Wj]. rewrite Forall_forall in Wi, Wj. now rewrite (has_type_unique _ _ x (Wi x Hx) (Wj x Hx)).
  - destruct Cj as [-> ->]. destruct Wi as (_ & _ & Wi), Wj as (_ & _ & Wj). rewrite Forall_forall in Wi, Wj. destruct (Wi x Hx) as [W1 W2], (Wj x Hx) as [W3 W4].
    now rewrite (has_type_unique _ _ _ W1 W3), (has_type_unique _ _ _ W2 W4).
Qed.
Lemma twins_sym c s d t : twins c s d t -> twins d t c s.
Proof using Type. intros T lines answers F. symmetry. now apply T. Qed.
Lemma context_actor : actor (B "Context"). Proof using Type. right. now left. Qed.
Lemma indistinguishable_same c d s : reachable srt pw c -> reachable srt pw d -> twins c s d s -> same_data c d.
Proof using H1.
  intros Rc Rd T.
  (* the precision *)
  set (q1 := line0 (B "Context") (B "getFloatPrecision")). assert (Q1 : statement q1 (B "Context") (B "getFloatPrecision") []) by stmt.
  destruct (C38_getFloatPrecision srt pw c s q1 [] Q1) as (a1 & (c1 & X1 & _) & A1), (C38_getFloatPrecision srt pw d s q1 [] Q1) as (b1 & (d1 & Y1 & _) & B1).
  destruct (experiments _ _ _ _ _ _ _ _ _ _ _ T (lit_line q1 eq_refl) X1 Y1) as [E1 _]. subst b1. assert (P := prints_int_inj _ _ _ A1 B1). clear c1 d1 X1 Y1 a1 A1 B1.
  (* 45 places *)
  set (q2 := line1 (B "Context") (B "setFloatPrecision:") (B "45")). assert (Q2 : statement q2 (B "Context") (B "setFloatPrecision:") [B "45"]) by stmt.
  assert (I45 : index_of (B "45") 45) by (apply get_index; vm_compute; reflexivity).
  destruct (C38_setFloatPrecision srt pw c s q2 _ _ Q2 I45 ltac:(lia)) as (c2 & X2 & Pc2 & Tc2 & Lc2), (C38_setFloatPrecision srt pw d s q2 _ _ Q2 I45 ltac:(lia)) as (d2 & Y2 & Pd2 & Td2 & Ld2).
  destruct (experiments _ _ _ _ _ _ _ _ _ _ _ T (lit_line q2 eq_refl) X2 Y2) as [_ T2].
  assert (Rc2 := reach_step _ _ _ _ _ _ _ _ Rc X2). assert (Rd2 := reach_step _ _ _ _ _ _ _ _ Rd Y2). clear X2 Y2.
  (* the tolerance *)
  set (q3 := line0 (B "Context") (B "getFloatComparisonTolerance")). assert (Q3 : statement q3 (B "Context") (B "getFloatComparisonTolerance") []) by stmt.
  destruct (C38_getFloatComparisonTolerance srt pw c2 s q3 [] Q3) as (a3 & (c3 & X3 & _) & A3), (C38_getFloatComparisonTolerance srt pw d2 s q3 [] Q3) as (b3 & (d3 & Y3 & _) & B3).
  destruct (experiments _ _ _ _ _ _ _ _ _ _ _ T2 (lit_line q3 eq_refl) X3 Y3) as [E3 _]. subst b3. rewrite Pc2 in A3. rewrite Pd2 in B3.
  assert (To : tolerance c2 = tolerance d2) by (apply (prints_float_inj (places 45) _ _ a3); [apply Nat.leb_le; vm_compute; reflexivity|eapply reachable_tolerance; eauto|eapply reachable_tolerance; eauto|exact A3|exact B3]).
  clear c3 d3 X3 Y3 a3 A3 B3.
  (* tolerance zero *)
  set (q4 := line1 (B "Context") (B "setFloatComparisonTolerance:") (B "0")). assert (Q4 : statement q4 (B "Context") (B "setFloatComparisonTolerance:") [B "0"]) by stmt.
  assert (L0 : literal_of (B "Float") (B "0") (OFloat (S754_zero false))) by (apply literal_float; split; [apply is_float_value_iff; reflexivity|vm_compute; reflexivity]).
  assert (N0 : ~ below_zero (S754_zero false)) by (intros [[_ X]|X]; [cbn in X; lra|discriminate X]).
  destruct (C38_setFloatComparisonTolerance srt pw c2 s q4 _ _ Q4 L0 N0) as (c4 & X4 & Tc4 & Pc4 & Lc4), (C38_setFloatComparisonTolerance srt pw d2 s q4 _ _ Q4 L0 N0) as (d4 & Y4 & Td4 & Pd4 & Ld4).
  destruct (experiments _ _ _ _ _ _ _ _ _ _ _ T2 (lit_line q4 eq_refl) X4 Y4) as [_ T4].
  assert (Rc4 := reach_step _ _ _ _ _ _ _ _ Rc2 X4). assert (Rd4 := reach_step _ _ _ _ _ _ _ _ Rd2 Y4).
  assert (Zc : zero_tolerance c4) by (split; rewrite Tc4; [exact I|reflexivity]). assert (Zd : zero_tolerance d4) by (split; rewrite Td4; [exact I|reflexivity]).
  (* the variables *)
  split; [|split; congruence]. intros n. rewrite <- Lc2, <- Lc4, <- Ld2, <- Ld4.
  destruct (lookup c4 n) as [i|] eqn:Lc.
  - apply (found c4 s d4 s n i); auto; [unfold sharp; rewrite ?Pc4, ?Pd4, ?Pc2, ?Pd2; lia|congruence|congruence].
  - destruct (lookup d4 n) as [j|] eqn:Ld; auto. rewrite <- Lc. symmetry.
    apply (found d4 s c4 s n j); auto using twins_sym; [unfold sharp; rewrite ?Pc4, ?Pd4, ?Pc2, ?Pd2; lia|congruence|congruence].
Qed.
End Experiment.

Theorem C70_same_data_iff_indistinguishable : forall srt pw s c d, sort_contract srt -> reachable srt pw c -> reachable srt pw d ->
  (same_data c d <-> indistinguishable srt pw s c d).
Proof.
  intros srt pw s c d H1 Rc Rd. split; [|now apply indistinguishable_same].
  assert (K : forall lines c s d c' s' answers, reachable srt pw c -> reachable srt pw d -> same_data c d -> executes srt pw c s lines c' s' answers -> answered srt pw d s lines answers).
  { clear c d s Rc Rd. induction lines as [|line lines IH]; intros c s d c' s' answers Rc Rd S X; inversion X; subst.
    - exists d, s'. constructor.
    - match goal with R : runs _ _ c s line _ _ _ |- _ => rename R into R1 end.
      destruct (C52_effect_depends_on_pieces_and_data srt pw pw pw c d s line line _ _ _ H1 Rc Rd S (fun _ _ _ => iff_refl _) R1) as (d1 & R2 & S1).
      match goal with E : executes _ _ _ _ lines _ _ _ |- _ => destruct (IH _ _ d1 _ _ _ (reach_step _ _ _ _ _ _ _ _ Rc R1) (reach_step _ _ _ _ _ _ _ _ Rd R2) S1 E) as (d2 & t2 & E2) end.
      exists d2, t2. econstructor; eauto. }
  intros S lines answers _. split; intros (c' & s' & X).
  - exact (K lines c s d _ _ _ Rc Rd S X).
  - apply (K lines d s c c' s' answers Rd Rc); [|exact X]. destruct S as [S1 [S2 S3]]. split; [intros; now rewrite S1|split; congruence].
Qed.
Print Assumptions C70_same_data_iff_indistinguishable.

(** Two empty vectors of different types: "v get;" answers the same, but some lines tell them apart; and two different ways to the same data. *)
Definition data_after (lines : list bytes) : context := match after insertion_sort [] empty_server lines with Some c => c | None => empty_server end.
Lemma data_after_reachable lines : reachable insertion_sort [] (data_after lines).
Proof.
  unfold data_after. assert (R : reachable insertion_sort [] empty_server) by (constructor; vm_compute; reflexivity).
  destruct (after _ _ _ _) as [c|] eqn:E; [|exact R]. exact (after_reachable _ _ _ _ _ R E).
Qed.
Example C70_ex :
  let c := data_after [B "Vector<Integer> create: v;"] in let d := data_after [B "Vector<Float> create: v;"] in
  let e := data_after [B "Vector<Integer> create: v;"; B "v pushBack: 7;"; B "v clear;"] in
  reachable insertion_sort [] c /\ reachable insertion_sort [] d /\ reachable insertion_sort [] e /\
  answered insertion_sort [] c None [B "v get;"] [B "[]"] /\ answered insertion_sort [] d None [B "v get;"] [B "[]"] /\
  ~ indistinguishable insertion_sort [] None c d /\ indistinguishable insertion_sort [] None c e.
Proof.
  intros c d e. assert (Rc : reachable insertion_sort [] c) by apply data_after_reachable. assert (Rd : reachable insertion_sort [] d) by apply data_after_reachable.
  assert (Re : reachable insertion_sort [] e) by apply data_after_reachable.
  split; [exact Rc|]. split; [exact Rd|]. split; [exact Re|].
  split; [eexists _, _; econstructor; [unfold runs; vm_compute; reflexivity|constructor]|].
  split; [eexists _, _; econstructor; [unfold runs; vm_compute; reflexivity|constructor]|].
  split; rewrite <- C70_same_data_iff_indistinguishable by (exact insertion_sort_contract || assumption).
  - intros [S _]. specialize (S (B "v")). vm_compute in S. discriminate S.
  - split; [|split; vm_compute; reflexivity]. intros m. change (lookup e m = lookup c m).
    replace (instances e) with (instances c) by (vm_compute; reflexivity).
    unfold lookup. replace (instances e) with (instances c) by (vm_compute; reflexivity). reflexivity.
Qed.
