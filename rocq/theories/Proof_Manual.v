(** Proofs for C65: every operation of every class obeys the entry of the documentation. *)
From Verif Require Import Bytes StrUtils Grammar Outcome Parser Num Containers Instance Context.
From Verif Require Import Lemmas StringLit Proof_Grammar Proof_Parser Proof_Exec WP Proof_Inv Proof_Receive Proof_Literal Proof_Context Proof_Names Api.
From Verif Require Import Proof_Number Proof_Vector Props_Set Props_State Props_Start Props_Object Proof_Origin.
From Verif Require Import Spec_Grammar Spec_State Spec_Names Spec_Text Spec_Number Spec_Float Spec_Literal Spec_Vector Spec_String Spec_Set Spec_Start Spec_Manual.
From Coq Require Import Lia.

(** ** Looking a message up *)
Definition same_section (a b : section) : bool := match a, b with Constructor, Constructor | Method, Method => true | _, _ => false end.
Lemma same_section_iff a b : same_section a b = true <-> a = b.
Proof. destruct a, b; cbn; split; congruence. Qed.
Fixpoint look_in (l : list entry) (sec : section) (cls m : bytes) : option (list bytes * bytes) :=
  match l with
  | [] => None
  | (_, s, k, n, takes, gives) :: r =>
      if same_section s sec && seq_eqb k cls && seq_eqb n m then Some (takes, gives) else look_in r sec cls m
  end.
Definition look := look_in manual.
Lemma look_in_some l sec cls m takes gives : look_in l sec cls m = Some (takes, gives) -> exists i, In (i, sec, cls, m, takes, gives) l.
Proof.
  induction l as [|[[[[[i s] k] n] t] g] l IH]; cbn [look_in]; [discriminate|].
  destruct (same_section s sec && seq_eqb k cls && seq_eqb n m) eqn:E.
  - intros [= -> ->]. apply andb_prop in E as [E E3]. apply andb_prop in E as [E1 E2].
    apply same_section_iff in E1. apply seq_eqb_eq in E2. apply seq_eqb_eq in E3. subst. exists i. now left.
  - intros H. destruct (IH H) as [j Hj]. exists j. now right.
Qed.
Lemma look_in_none l sec cls m : look_in l sec cls m = None -> forall i t g, ~ In (i, sec, cls, m, t, g) l.
Proof.
  induction l as [|[[[[[i s] k] n] t] g] l IH]; cbn [look_in]; [intros _ j t g []|].
  destruct (same_section s sec && seq_eqb k cls && seq_eqb n m) eqn:E; [discriminate|].
  intros H j t' g' [[= -> -> -> -> -> ->]|F]; [|exact (IH H _ _ _ F)].
  rewrite !seq_eqb_refl, (proj2 (same_section_iff _ _) eq_refl) in E. discriminate E.
Qed.
(** No message has two entries. *)
Fixpoint unambiguous (l : list entry) : bool :=
  match l with
  | [] => true
  | (_, s, k, n, _, _) :: r => match look_in r s k n with None => unambiguous r | Some _ => false end
  end.
Lemma unambiguous_look l sec cls m i t g : unambiguous l = true -> In (i, sec, cls, m, t, g) l -> look_in l sec cls m = Some (t, g).
Proof.
  induction l as [|[[[[[j s] k] n] t'] g'] l IH]; cbn [unambiguous look_in]; intros U; [intros []|].
  destruct (look_in l s k n) as [|] eqn:E; [discriminate U|]. intros [[= -> -> -> -> -> ->]|F].
  - now rewrite !seq_eqb_refl, (proj2 (same_section_iff _ _) eq_refl).
  - destruct (same_section s sec && seq_eqb k cls && seq_eqb n m) eqn:E'; [|auto].
    apply andb_prop in E' as [E' E3]. apply andb_prop in E' as [E1 E2].
    apply same_section_iff in E1. apply seq_eqb_eq in E2. apply seq_eqb_eq in E3. subst. destruct (look_in_none _ _ _ _ E _ _ _ F).
Qed.
Lemma manual_unambiguous : unambiguous manual = true. Proof. vm_compute. reflexivity. Qed.
Lemma look_documents sec cls m takes gives : look sec cls m = Some (takes, gives) <-> documents sec cls m takes gives.
Proof.
  split; [apply look_in_some|]. intros [i H]. eapply unambiguous_look; [exact manual_unambiguous|exact H].
Qed.
Lemma look_undocumented sec cls m : look sec cls m = None <-> ~ documented sec cls m.
Proof.
  split.
  - intros H (t & g & i & Hi). exact (look_in_none _ _ _ _ H _ _ _ Hi).
  - intros H. destruct (look sec cls m) as [[t g]|] eqn:E; [|reflexivity]. destruct H. exists t, g. now apply look_documents.
Qed.

(** ** What is proved of each operation *)
Definition obeys (sec : section) (cls : bytes) (p : Z) (held : option inst) (m : bytes) (args : list bytes) (r : res bytes) : Prop :=
  match look sec cls m with
  | None => r = Throw InvalidMessage
  | Some (takes, gives) =>
      match r with
      | Ok a => (answer_word p held m gives a \/ (a = B "null" /\ In m may_find_nothing)) /\ as_documented held m takes args
      | Throw e => e <> InvalidMessage /\ (as_documented held m takes args -> may_be_refused sec cls m (exc_text e))
      | UB _ => True
      end
  end.
Definition fine (sec : section) (cls : bytes) (p : Z) (held : option inst) (m : bytes) (args : list bytes) takes gives (r : res bytes) : Prop :=
  match r with
  | Ok a => (answer_word p held m gives a \/ (a = B "null" /\ In m may_find_nothing)) /\ as_documented held m takes args
  | Throw e => e <> InvalidMessage /\ (as_documented held m takes args -> may_be_refused sec cls m (exc_text e))
  | UB _ => True
  end.
Lemma obeys_fine sec cls p held m args takes gives r : look sec cls m = Some (takes, gives) ->
  fine sec cls p held m args takes gives r -> obeys sec cls p held m args r.
Proof. unfold obeys. now intros ->. Qed.
Definition covered {S} sec cls (table : list (str * (list str -> M S str))) : bool :=
  forallb (fun e : entry => match e with (_, s, k, m, _, _) =>
    negb (same_section s sec && seq_eqb k cls) || existsb (fun q => seq_eqb m (fst q)) table end) manual.
Lemma covered_look {S} sec cls (table : list (str * (list str -> M S str))) m : covered sec cls table = true ->
  existsb (fun q => seq_eqb m (fst q)) table = false -> look sec cls m = None.
Proof.
  intros C N. destruct (look sec cls m) as [[t g]|] eqn:E; [|reflexivity]. apply look_in_some in E as [i Hi].
  unfold covered in C. rewrite forallb_forall in C. specialize (C _ Hi). cbn beta iota in C.
  rewrite seq_eqb_refl, (proj2 (same_section_iff _ _) eq_refl), N in C. discriminate C.
Qed.
Lemma dispatch_obeys {S} sec cls p held m args table (s : S) : covered sec cls table = true ->
  Forall (fun q => m = fst q -> exists takes gives, look sec cls (fst q) = Some (takes, gives) /\
    wp (snd q args) s (fun _ r => fine sec cls p held (fst q) args takes gives r)) table ->
  wp (dispatch table m args) s (fun _ r => obeys sec cls p held m args r).
Proof.
  intros C H. assert (X : existsb (fun q => seq_eqb m (fst q)) table = false -> look sec cls m = None) by (intros; eapply covered_look; eauto).
  clear C. induction H as [|[name op] table Hop Ht IH]; cbn [dispatch].
  - apply wp_throw. unfold obeys. now rewrite X.
  - cbn [existsb fst] in X. destruct (seq_eqb m name) eqn:E; [|now apply IH].
    apply seq_eqb_eq in E. subst name. destruct (Hop eq_refl) as (takes & gives & L & Hop').
    eapply wp_consequence; [exact Hop'|]. intros s' r. now apply obeys_fine.
Qed.

(** ** Arguments *)
Lemma documented0 held m args : length args = 0%nat -> as_documented held m [] args.
Proof. intros L. split; [exact L|]. intros [|k] w a H; discriminate H. Qed.
Lemma documented1 held m w args a : length args = 1%nat -> nth_error args 0 = Some a ->
  fits_word held m 0 w a -> as_documented held m [w] args.
Proof.
  intros L A F. split; [exact L|]. intros [|k] w' a' H H'; [|destruct k; discriminate H]. cbn in H. inversion H; subst w'. congruence.
Qed.
Lemma documented2 held m w v args a b : length args = 2%nat -> nth_error args 0 = Some a -> nth_error args 1 = Some b ->
  fits_word held m 0 w a -> fits_word held m 1 v b -> as_documented held m [w; v] args.
Proof.
  intros L A A' F F'. split; [exact L|]. intros [|[|k]] w' a' H H'; [| |destruct k; discriminate H]; cbn [nth_error] in H; inversion H; subst w'.
  - congruence.
  - rewrite A' in H'. inversion H'; now subst.
Qed.
Lemma documented3 held m w v u args a b d : length args = 3%nat -> nth_error args 0 = Some a -> nth_error args 1 = Some b -> nth_error args 2 = Some d ->
  fits_word held m 0 w a -> fits_word held m 1 v b -> fits_word held m 2 u d -> as_documented held m [w; v; u] args.
Proof.
  intros L A A' A'' F F' F''. split; [exact L|]. intros [|[|[|k]]] w' a' H H'; [| | |destruct k; discriminate H]; cbn [nth_error] in H; inversion H; subst w'.
  - congruence.
  - rewrite A' in H'. inversion H'; now subst.
  - rewrite A'' in H'. inversion H'; now subst.
Qed.
Lemma documented_nth held m takes args k w a : as_documented held m takes args ->
  nth_error takes k = Some w -> nth_error args k = Some a -> fits_word held m k w a.
Proof. intros [_ H]. apply H. Qed.
Lemma documented_length held m takes args : as_documented held m takes args -> length args = length takes.
Proof. now intros [H _]. Qed.

Lemma word_value held m k w t a : In (w, t) value_words -> fits_word held m k w a -> literal_text t a.
Proof.
  intros H F. unfold value_words in H. inversion F as [? V E1 E2|? V E1 E2|w' t' ? W V E1 E2|t' ? O V E1 E2]; subst.
  - repeat (destruct H as [H|H]; [discriminate H|]). destruct H.
  - repeat (destruct H as [H|H]; [discriminate H|]). destruct H.
  - assert (t' = t); [|now subst]. unfold value_words in W.
    repeat (destruct H as [H|H]; [inversion H; subst; clear H; repeat (destruct W as [W|W]; [first [discriminate W|inversion W; reflexivity]|]); destruct W|]). destruct H.
  - repeat (destruct H as [H|H]; [discriminate H|]). destruct H.
Qed.
Lemma word_object held m k a : fits_word held m k (B "object") a -> exists t, object_taken held m k t /\ literal_text t a.
Proof.
  intros F. inversion F as [? V E1 E2|? V E1 E2|w' t' ? W V E1 E2|t' ? O V E1 E2]; subst.
  - unfold value_words in W. repeat (destruct W as [W|W]; [discriminate W|]). destruct W.
  - eauto.
Qed.

Lemma text_of_boolean a : literal_text (B "Boolean") a <-> is_boolean_value a = true.
Proof. rewrite is_boolean_value_iff. split; [inversion 1; assumption|constructor; auto]. Qed.
Lemma text_of_character a : literal_text (B "Character") a <-> is_character_value a = true.
Proof. rewrite is_character_value_iff. split; [inversion 1; assumption|constructor; auto]. Qed.
Lemma text_of_integer a : literal_text (B "Integer") a <-> is_float_value a = true.
Proof. rewrite is_float_value_iff. split; [inversion 1; assumption|constructor; auto]. Qed.
Lemma text_of_float a : literal_text (B "Float") a <-> is_float_value a = true.
Proof. rewrite is_float_value_iff. split; [inversion 1; assumption|constructor; auto]. Qed.
Lemma text_of_string a : literal_text (B "String") a <-> is_string_value a = true.
Proof. rewrite is_string_value_iff. split; [inversion 1; assumption|constructor; auto]. Qed.

Lemma float_or_int a : is_integer_value a = true \/ is_float_value a = true -> is_float_value a = true.
Proof. intros [H|H]; [|exact H]. apply is_float_value_iff, int_is_float. now apply is_integer_value_iff. Qed.
Lemma index_reading a : match integer_of a with
  | Ok _ => literal_text (B "Integer") a
  | Throw e => e = InvalidArgument /\ ~ literal_text (B "Integer") a
  | UB _ => True
  end.
Proof.
  unfold integer_of. destruct (negb (is_integer_value a) && negb (is_float_value a)) eqn:E.
  - apply andb_prop in E as [_ E]. apply negb_true_iff in E. split; [reflexivity|]. rewrite text_of_integer. congruence.
  - apply nn_false_r in E. apply float_or_int in E. assert (H := number_int_ub a).
    destruct (let! d := number_of a in double_to_int d); [now apply text_of_integer|destruct H|exact I].
Qed.
Lemma value_reading t a : object_type t -> match get_shared_instance t a with
  | Ok x => literal_text t a /\ has_type t x
  | Throw e => e = InvalidArgument /\ ~ literal_text t a
  | UB _ => True
  end.
Proof.
  intros Ht. assert (C := get_shared_instance_cases false t a Ht (clean_false a)). destruct (get_shared_instance t a) as [x|e|u] eqn:E; [| |exact I].
  - apply get_literal in E; [|exact Ht]. now destruct (C46_of_the_type t a x E) as (_ & A & A').
  - split; [exact C|]. intros L. destruct (C46_every_literal_has_a_value t a L) as [[x Hx]|[-> _]].
    + apply literal_get in Hx. congruence.
    + assert (I := index_reading a). change (get_shared_instance (B "Integer") a) with (let! z := integer_of a in Ok (OInt z)) in E.
      destruct (integer_of a); try discriminate E. now destruct I.
Qed.

(** ** Tactics: one operation *)
Ltac row t g := intros _; exists t, g; split; [vm_compute; reflexivity|].
Ltac words := unfold value_words; cbn [In]; first [now left|now (right; left)|now (right; right; left)|now (right; right; right; left)|now (right; right; right; right; left)].
Ltac lit :=
  match goal with
  | H : integer_of ?a = Ok _ |- literal_text (B "Integer") ?a => let X := fresh in assert (X := index_reading a); rewrite H in X; exact X
  | Ht : object_type ?t, H : get_shared_instance ?t ?a = Ok _ |- literal_text ?t ?a =>
      let X := fresh in assert (X := value_reading t a Ht); rewrite H in X; exact (proj1 X)
  | |- literal_text (B "Boolean") _ => apply text_of_boolean
  | |- literal_text (B "Character") _ => apply text_of_character
  | |- literal_text (B "Integer") _ => apply text_of_integer
  | |- literal_text (B "Float") _ => apply text_of_float
  | |- literal_text (B "String") _ => apply text_of_string
  end; try assumption; try (apply float_or_int; assumption).
Ltac taken := cbn [object_taken]; first [reflexivity | left; split; [reflexivity|split; reflexivity] | right; split; [right; reflexivity|reflexivity] | right; split; [left; discriminate|reflexivity]].
Ltac fit :=
  lazymatch goal with
  | |- fits_word _ _ _ (B "object") _ => eapply fit_object; [taken|lit]
  | |- fits_word _ _ _ _ _ => eapply fit_value; [words|lit]
  end.
Ltac documented_args :=
  lazymatch goal with
  | |- as_documented _ _ [] _ => apply documented0; assumption
  | |- as_documented _ _ [_] _ => eapply documented1; [eassumption|eassumption|fit]
  | |- as_documented _ _ [_; _] _ => eapply documented2; [eassumption|eassumption|eassumption|fit|fit]
  | |- as_documented _ _ [_; _; _] _ => eapply documented3; [eassumption|eassumption|eassumption|eassumption|fit|fit|fit]
  end.
(** From [as_documented] to the kinds of the arguments at hand. *)
Ltac literal_of_word F :=
  lazymatch type of F with
  | fits_word _ _ _ (B "object") _ =>
      apply word_object in F; let t := fresh "t" in let O := fresh "O" in destruct F as (t & O & F); cbn [object_taken] in O;
      first [subst t
            | destruct O as [(O & _ & _)|[_ O]]; [discriminate O|subst t]
            | destruct O as [(_ & O & _)|[_ O]]; [discriminate O|subst t]
            | destruct O as [(_ & _ & O)|[[O|O] _]]; [subst t|destruct (O eq_refl)|discriminate O]]
  | fits_word _ _ _ (B "boolean") _ => apply (word_value _ _ _ _ (B "Boolean")) in F; [|words]
  | fits_word _ _ _ (B "character") _ => apply (word_value _ _ _ _ (B "Character")) in F; [|words]
  | fits_word _ _ _ (B "integer") _ => apply (word_value _ _ _ _ (B "Integer")) in F; [|words]
  | fits_word _ _ _ (B "float") _ => apply (word_value _ _ _ _ (B "Float")) in F; [|words]
  | fits_word _ _ _ (B "string") _ => apply (word_value _ _ _ _ (B "String")) in F; [|words]
  end.
Ltac literals D :=
  repeat match goal with
  | H : nth_error ?args ?k = Some ?a |- _ =>
      lazymatch goal with
      | K : literal_text _ a |- _ => fail
      | _ => let F := fresh "F" in assert (F := documented_nth _ _ _ _ k _ _ D eq_refl H); literal_of_word F
      end
  end.
Ltac refuse :=
  match goal with
  | H : integer_of ?a = Throw _, F : literal_text (B "Integer") ?a |- _ =>
      let X := fresh in assert (X := index_reading a); rewrite H in X; exact (proj2 X F)
  | Ht : object_type ?t, H : get_shared_instance ?t ?a = Throw _, F : literal_text ?t ?a |- _ =>
      let X := fresh in assert (X := value_reading t a Ht); rewrite H in X; exact (proj2 X F)
  | F : literal_text (B "Boolean") ?a, H : negb (is_boolean_value ?a) = true |- _ => apply text_of_boolean in F; rewrite F in H; discriminate H
  | F : literal_text (B "Character") ?a, H : negb (is_character_value ?a) = true |- _ => apply text_of_character in F; rewrite F in H; discriminate H
  | F : literal_text (B "Float") ?a, H : negb (is_float_value ?a) = true |- _ => apply text_of_float in F; rewrite F in H; discriminate H
  | F : literal_text (B "String") ?a, H : negb (is_string_value ?a) = true |- _ => apply text_of_string in F; rewrite F in H; discriminate H
  | F : literal_text (B "Integer") ?a, H : _ && negb (is_float_value ?a) = true |- _ =>
      apply text_of_integer in F; rewrite F, andb_false_r in H; discriminate H
  | F : literal_text (B "Float") ?a, H : _ && negb (is_float_value ?a) = true |- _ =>
      apply text_of_float in F; rewrite F, andb_false_r in H; discriminate H
  end.
Ltac an_index := eapply ref_index; [first [now left|now (right; left)]|apply look_documents; vm_compute; reflexivity|first [now left|now (right; left)]].
Ltac shown :=
  lazymatch goal with |- answer_word (e_precision ?E) _ _ _ _ \/ _ =>
  first [ left; apply ans_null
        | right; split; [reflexivity|first [now left|now (right; left)|now (right; right; left)]]
        | left; eapply (ans_value _ _ _ _ _ (OBool _)); [words|reflexivity|apply (shows_bool)]
        | left; eapply (ans_value _ _ _ _ _ (OChar _)); [words|reflexivity|apply (shows_char)]
        | left; eapply (ans_value _ _ _ _ _ (OStr _)); [words|reflexivity|apply (obj_repr_shows E (OStr _))]
        | left; eapply (ans_value _ _ _ _ _ (OInt _)); [words|reflexivity|apply (obj_repr_shows E (OInt _))]
        | left; eapply (ans_value _ _ _ _ _ (OFloat _)); [words|reflexivity|apply (obj_repr_shows E (OFloat _))] ] end.
Ltac leaf :=
  lazymatch goal with
  | |- fine _ _ _ _ _ _ _ _ (UB _) => exact I
  | |- fine _ _ _ _ _ _ _ _ (Throw WrongNumberOfArguments) =>
      let D := fresh "D" in split; [discriminate|intros D; apply documented_length in D; cbn [length] in D; contradiction]
  | |- fine _ _ _ _ _ _ _ _ (Throw InvalidArgument) =>
      let D := fresh "D" in split; [discriminate|intros D; first [exfalso; literals D; refuse | an_index]]
  | |- fine _ _ _ _ _ _ _ _ (Ok _) => split; [try shown|try documented_args]
  end.
Ltac total := first [apply is_equal_to_total|apply is_less_than_total|apply is_less_than_or_equal_to_total|apply is_greater_than_total|apply is_greater_than_or_equal_to_total]; exact I.
Ltac next := apply wp_lift; intros ? <-; crush false; try leaf.
Ltac comparison cmp x y :=
  let b := fresh "b" in let Q := fresh "Q" in assert (Q : exists b, cmp x y = Ok b) by total; destruct Q as [b Q]; rewrite Q; next.
Ltac compared :=
  lazymatch goal with
  | H : is_character_value ?a = true |- wp (lift (let! o := character_of ?a in ?cmp ?x (OChar o))) _ _ =>
      let c := fresh "c" in destruct (character_of_ok a H) as [c ->]; cbn [rbind]; comparison cmp x (OChar c)
  | H : is_string_value ?a = true |- wp (lift (let! o := string_of ?a in ?cmp ?x (OStr o))) _ _ =>
      let t := fresh "t" in destruct (string_of_ok false a (clean_false a) H) as (t & -> & _); cbn [rbind]; comparison cmp x (OStr t)
  | H : is_float_value ?a = true |- wp (lift (let! o := float_of ?a in ?cmp ?x (OFloat o))) _ _ =>
      rewrite (float_of_ok a H); cbn [rbind]; comparison cmp x (OFloat (to_float (atof a)))
  | |- wp (lift (if is_integer_value ?a then _ else (let! o := float_of ?a in ?cmp ?x (OFloat o)))) _ _ =>
      let Hf := fresh "Hf" in assert (Hf : is_float_value a = true) by (apply float_or_int; assumption);
      let Ei := fresh "Ei" in destruct (is_integer_value a) eqn:Ei;
      [ let Eo := fresh "Eo" in destruct (integer_of a) as [?o|?e|?u] eqn:Eo; cbn [rbind];
        [match type of Eo with _ = Ok ?o => comparison cmp x (OInt o) end
        | exfalso; unfold integer_of in Eo; rewrite Ei in Eo; cbn [negb andb] in Eo;
          let Y := fresh "Y" in assert (Y := number_int_ub a); rewrite Eo in Y; exact Y
        | next]
      | rewrite (float_of_ok a Hf); cbn [rbind]; comparison cmp x (OFloat (to_float (atof a))) ]
  | |- wp (lift (let! d := number_of ?a in double_to_int (?op _ d))) _ _ =>
      let X := fresh "X" in assert (X := number_of_ub a); destruct (number_of a) as [d|e'|u']; cbn [rbind]; [|contradiction|next];
      match goal with |- wp (lift (double_to_int ?v)) _ _ => let Y := fresh "Y" in assert (Y := double_to_int_ub v);
        apply wp_lift; destruct (double_to_int v); intros ? <-; [|contradiction|]; crush false; try leaf end
  end.
Ltac one op := unfold op; crush false; try compared; try leaf.

Section Classes.
Context (E : env).
Notation p := (e_precision E).
Lemma boolean_obeys m args b : (True) -> Forall (clean false) args ->
  wp (boolean_receive m args) b (fun _ r => obeys Method (B "Boolean") p (Some (IObj (OBool b))) m args r).
Proof.
  intros Hv Ha. unfold boolean_receive. apply dispatch_obeys; [vm_compute; reflexivity|]. repeat apply Forall_cons; try apply Forall_nil; cbn [fst snd].
  - row ([] : list bytes) (B "boolean"). one boolean_get.
  - row ([B "boolean"] : list bytes) (B "null"). one boolean_set.
  - row ([] : list bytes) (B "boolean"). one boolean_isTrue.
  - row ([] : list bytes) (B "boolean"). one boolean_isFalse.
Qed.
Lemma character_obeys m args ch : (True) -> Forall (clean false) args ->
  wp (character_receive E m args) ch (fun _ r => obeys Method (B "Character") p (Some (IObj (OChar ch))) m args r).
Proof.
  intros Hv Ha. unfold character_receive. apply dispatch_obeys; [vm_compute; reflexivity|]. repeat apply Forall_cons; try apply Forall_nil; cbn [fst snd].
  - row ([] : list bytes) (B "character"). one character_get.
  - row ([B "character"] : list bytes) (B "null"). one character_set.
  - row ([] : list bytes) (B "boolean"). one character_test.
  - row ([] : list bytes) (B "boolean"). one character_test.
  - row ([] : list bytes) (B "boolean"). one character_test.
  - row ([] : list bytes) (B "boolean"). one character_test.
  - row ([B "character"] : list bytes) (B "boolean"). one character_compare.
  - row ([B "character"] : list bytes) (B "boolean"). one character_compare.
  - row ([B "character"] : list bytes) (B "boolean"). one character_compare.
  - row ([B "character"] : list bytes) (B "boolean"). one character_compare.
  - row ([B "character"] : list bytes) (B "boolean"). one character_compare.
Qed.
Lemma integer_obeys m args z : (in_int z = true) -> Forall (clean false) args ->
  wp (integer_receive E m args) z (fun _ r => obeys Method (B "Integer") p (Some (IObj (OInt z))) m args r).
Proof.
  intros Hv Ha. unfold integer_receive. apply dispatch_obeys; [vm_compute; reflexivity|]. repeat apply Forall_cons; try apply Forall_nil; cbn [fst snd].
  - row ([] : list bytes) (B "integer"). one integer_get.
  - row ([B "integer"] : list bytes) (B "null"). one integer_set.
  - row ([B "integer"] : list bytes) (B "boolean"). one integer_compare.
  - row ([B "integer"] : list bytes) (B "boolean"). one integer_compare.
  - row ([B "integer"] : list bytes) (B "boolean"). one integer_compare.
  - row ([B "integer"] : list bytes) (B "boolean"). one integer_compare.
  - row ([B "integer"] : list bytes) (B "boolean"). one integer_compare.
  - row ([B "integer"] : list bytes) (B "null"). one integer_arith.
  - row ([B "integer"] : list bytes) (B "null"). one integer_arith.
  - row ([B "float"] : list bytes) (B "null"). one integer_arith.
  - row ([B "float"] : list bytes) (B "null"). one integer_arith.
Qed.
Lemma float_obeys m args f : (exists x, f = to_float x) -> Forall (clean false) args ->
  wp (float_receive E m args) f (fun _ r => obeys Method (B "Float") p (Some (IObj (OFloat f))) m args r).
Proof.
  intros Hv Ha. unfold float_receive. apply dispatch_obeys; [vm_compute; reflexivity|]. repeat apply Forall_cons; try apply Forall_nil; cbn [fst snd].
  - row ([] : list bytes) (B "float"). one float_get.
  - row ([B "float"] : list bytes) (B "null"). one float_set.
  - row ([B "float"] : list bytes) (B "boolean"). one float_compare.
  - row ([B "float"] : list bytes) (B "boolean"). one float_compare.
  - row ([B "float"] : list bytes) (B "boolean"). one float_compare.
  - row ([B "float"] : list bytes) (B "boolean"). one float_compare.
  - row ([B "float"] : list bytes) (B "boolean"). one float_compare.
  - row ([B "float"] : list bytes) (B "null"). one float_arith.
  - row ([B "float"] : list bytes) (B "null"). one float_arith.
  - row ([B "float"] : list bytes) (B "null"). one float_arith.
  - row ([B "float"] : list bytes) (B "null"). one float_arith.
Qed.
Lemma string_obeys m args v : clean false v -> Forall (clean false) args ->
  wp (string_receive E m args) v (fun _ r => obeys Method (B "String") p (Some (IObj (OStr v))) m args r).
Proof.
  intros Hv Ha. pose proof (zlen_nonneg v). unfold string_receive. apply dispatch_obeys; [vm_compute; reflexivity|]. repeat apply Forall_cons; try apply Forall_nil; cbn [fst snd].
  - row ([] : list bytes) (B "string"). one string_get.
  - row ([B "string"] : list bytes) (B "null"). one string_set.
  - row ([] : list bytes) (B "boolean"). one string_isEmpty.
  - row ([B "string"] : list bytes) (B "boolean"). one string_affix.
  - row ([B "string"] : list bytes) (B "boolean"). one string_affix.
  - row ([B "string"] : list bytes) (B "boolean"). one string_compare.
  - row ([B "string"] : list bytes) (B "boolean"). one string_compare.
  - row ([B "string"] : list bytes) (B "boolean"). one string_compare.
  - row ([B "string"] : list bytes) (B "boolean"). one string_compare.
  - row ([B "string"] : list bytes) (B "boolean"). one string_compare.
  - row ([] : list bytes) (B "integer"). one string_length.
  - row ([B "integer"] : list bytes) (B "character"). one string_atIndex.
  - row ([B "integer"] : list bytes) (B "string"). one string_first.
  - row ([B "integer"] : list bytes) (B "string"). one string_last.
  - row ([B "integer"] : list bytes) (B "string"). one string_substringFromIndex.
  - row ([B "integer"; B "integer"] : list bytes) (B "string"). one string_substringFromIndex_toIndex.
  - row ([B "character"] : list bytes) (B "null"). one string_pushBack.
  - row ([B "character"] : list bytes) (B "null"). one string_pushFront.
  - row ([] : list bytes) (B "character"). one string_popBack.
  - row ([] : list bytes) (B "character"). one string_popFront.
  - row ([B "integer"] : list bytes) (B "character"). one string_popAtIndex.
  - row ([B "string"] : list bytes) (B "null"). one string_concatenate.
  - row ([B "string"; B "integer"] : list bytes) (B "null"). one string_insert_beforeIndex.
  - row ([B "integer"] : list bytes) (B "null"). one string_eraseFromIndex.
  - row ([B "integer"; B "integer"] : list bytes) (B "null"). one string_eraseFromIndex_toIndex.
  - row ([] : list bytes) (B "null"). one string_clear.
Qed.

(** ** Containers *)
Lemma index_shown held m i : answer_word p held m (B "integer") (index_text i) \/ (index_text i = B "null" /\ In m may_find_nothing).
Proof.
  left. eapply (ans_value _ _ _ _ (B "Integer") (OInt (match i with Some z => z | None => -1 end))); [words|reflexivity|].
  constructor. apply prints_int_iff. now destruct i.
Qed.
Lemma all_indexes_are et v x : Forall (good false et) v -> good false et x -> forall i l,
  exists l', all_indexes_loop E v x i (comma_sep (map to_string l)) = Ok (comma_sep (map to_string l')).
Proof.
  intros Hv Hx. induction Hv as [|y v Hy Hv IH]; intros i l; cbn [all_indexes_loop]; [eauto|].
  destruct (good_equal false E et y x Hy Hx) as [b ->]. cbn [rbind]. rewrite comma_sep_nonempty.
  2:{ rewrite Forall_map. apply Forall_forall. intros z _. apply to_string_nonempty. }
  destruct b; [|apply IH]. destruct (IH (i + 1)%Z (l ++ [i])%list) as [l' Q]. exists l'. rewrite <- Q. f_equal.
  rewrite map_app. cbn [map]. rewrite comma_sep_snoc. now destruct l.
Qed.
Lemma indexes_shown t v l :
  answer_word p (Some (IVector t v)) (B "allIndexesOf:") (B "vector") ($"[" ++ comma_sep (map to_string l) ++ $"]")%list \/
  (($"[" ++ comma_sep (map to_string l) ++ $"]")%list = B "null" /\ In (B "allIndexesOf:") may_find_nothing).
Proof.
  left. eapply (ans_vector _ _ _ (B "Integer") (map OInt l)); [left; split; reflexivity| |].
  - apply Forall_map, Forall_forall. reflexivity.
  - apply (shows_list_iff E). unfold vector_representation. rewrite map_map. reflexivity.
Qed.
Lemma typed et v : Forall (good false et) v -> Forall (has_type et) v.
Proof. intros H. eapply Forall_impl; [|exact H]. now intros x []. Qed.
Lemma typed_pairs kt vt d : Forall (goodp false kt vt) d -> Forall (fun q => has_type kt (fst q) /\ has_type vt (snd q)) d.
Proof. intros H. eapply Forall_impl; [|exact H]. now intros x [[? _] [? _]]. Qed.
Lemma typed_keys kt vt d : Forall (goodp false kt vt) d -> Forall (has_type kt) (map fst d).
Proof. intros H. apply Forall_map. eapply Forall_impl; [|exact H]. now intros x [[? _] _]. Qed.
Lemma typed_values kt vt d : Forall (goodp false kt vt) d -> Forall (has_type vt) (map snd d).
Proof. intros H. apply Forall_map. eapply Forall_impl; [|exact H]. now intros x [_ [? _]]. Qed.
Ltac contents :=
  lazymatch goal with
  | |- answer_word _ (Some (IVector ?t _)) _ (B "object") (obj_repr _ ?x) \/ _ =>
      left; eapply (ans_object _ _ _ t x); [reflexivity|match goal with H : good false t x |- _ => exact (proj1 H) end|apply obj_repr_shows]
  | |- answer_word _ (Some (IVector ?t _)) _ (B "vector") (vector_representation _ ?l) \/ _ =>
      left; eapply (ans_vector _ _ _ t l); [right; split; [discriminate|reflexivity]|apply typed; assumption|now apply shows_list_iff]
  | |- answer_word _ (Some (ISet ?t ?v)) _ (B "set") (set_representation _ ?l) \/ _ =>
      left; eapply (ans_set _ _ _ t v l); [reflexivity|apply typed; assumption|now apply shows_set_iff]
  | |- answer_word _ (Some (IDict ?kt ?vt ?d)) _ (B "dictionary") (dict_representation _ ?e) \/ _ =>
      left; eapply (ans_dictionary _ _ _ kt vt d e); [reflexivity|apply typed_pairs; assumption|now apply shows_dictionary_iff]
  | |- answer_word _ (Some (IDict ?kt ?vt ?d)) _ (B "vector") (vector_representation _ (map fst ?e)) \/ _ =>
      left; eapply (ans_vector _ _ _ kt (map fst e)); [left; split; reflexivity|apply typed_keys with vt; assumption|now apply shows_list_iff]
  | |- answer_word _ (Some (IDict ?kt ?vt ?d)) _ (B "vector") (vector_representation _ (map snd ?e)) \/ _ =>
      left; eapply (ans_vector _ _ _ vt (map snd e)); [right; split; reflexivity|apply typed_values with kt; assumption|now apply shows_list_iff]
  end.

Lemma vector_obeys et m args v : object_type et -> Forall (good false et) v -> Forall (clean false) args ->
  wp (vector_receive E et m args) v (fun _ r => obeys Method (B "Vector") p (Some (IVector et v)) m args r).
Proof.
  intros Het Hv Ha. pose proof (zlen_nonneg v). unfold vector_receive. apply dispatch_obeys; [vm_compute; reflexivity|]. repeat apply Forall_cons; try apply Forall_nil; cbn [fst snd].
  - row ([] : list bytes) (B "vector"). one vector_get; try contents.
  - row ([] : list bytes) (B "boolean"). one vector_isEmpty; try contents.
  - row ([B "object"] : list bytes) (B "boolean"). one vector_contains; try contents. edestruct (contains_loop_good false E et) as [? ->]; [exact Hv|exact X|]. next.
  - row ([B "object"; B "integer"] : list bytes) (B "boolean"). one vector_contains_fromIndex; try contents. edestruct (contains_loop_good false E et) as [? ->]; [eassumption|exact X|]. next.
  - row ([B "object"] : list bytes) (B "integer"). one vector_count; try contents. edestruct (count_loop_good false E et) as [? ->]; [exact Hv|exact X|]. next.
  - row ([B "integer"] : list bytes) (B "object"). one vector_atIndex; try contents.
  - row ([B "object"] : list bytes) (B "integer"). one vector_firstIndexOf; try contents. edestruct (first_index_loop_good false E et) as (b & -> & _); [exact Hv|exact X|]. next. apply index_shown.
  - row ([B "object"; B "integer"] : list bytes) (B "integer"). one vector_firstIndexOf_fromIndex; try contents. edestruct (first_index_loop_good false E et) as (b & -> & _); [eassumption|exact X|]. next. apply index_shown.
  - row ([B "object"] : list bytes) (B "vector"). one vector_allIndexesOf; try contents. destruct (all_indexes_are et v _ Hv X 0 []) as (l & Q). change (comma_sep (map to_string [])) with (@nil ascii) in Q. rewrite Q. next. apply indexes_shown.
  - row ([] : list bytes) (B "integer"). one vector_size; try contents.
  - row ([B "integer"] : list bytes) (B "vector"). one vector_first; try contents.
  - row ([B "integer"] : list bytes) (B "vector"). one vector_last; try contents.
  - row ([B "integer"] : list bytes) (B "vector"). one vector_sliceFromIndex; try contents.
  - row ([B "integer"; B "integer"] : list bytes) (B "vector"). one vector_sliceFromIndex_toIndex; try contents.
  - row ([B "object"] : list bytes) (B "null"). one vector_pushBack; try contents.
  - row ([B "object"] : list bytes) (B "null"). one vector_pushFront; try contents.
  - row ([] : list bytes) (B "object"). one vector_popBack; try contents.
  - row ([] : list bytes) (B "object"). one vector_popFront; try contents.
  - row ([B "integer"] : list bytes) (B "object"). one vector_popAtIndex; try contents.
  - row ([B "object"; B "integer"] : list bytes) (B "null"). one vector_insert_beforeIndex; try contents.
  - row ([B "integer"] : list bytes) (B "null"). one vector_eraseFromIndex; try contents.
  - row ([B "integer"; B "integer"] : list bytes) (B "null"). one vector_eraseFromIndex_toIndex; try contents.
  - row ([B "object"] : list bytes) (B "null"). one vector_removeFirst; try contents. edestruct (first_index_loop_good false E et) as (b & -> & Hb); [exact Hv|exact X|]. apply wp_lift; intros ? <-. cbv beta iota. destruct b; crush false; try leaf.
  - row ([B "object"; B "integer"] : list bytes) (B "null"). one vector_removeFirst_fromIndex; try contents. edestruct (first_index_loop_good false E et) as (b & -> & Hb); [eassumption|exact X|]. apply wp_lift; intros ? <-. cbv beta iota. destruct b; crush false; try leaf.
  - row ([B "object"] : list bytes) (B "null"). one vector_removeAll; try contents. eapply wp_consequence; [apply (remove_all_loop_good false E et); auto; unfold zlen in *; lia|].
    intros s1 [|?|?] [? ?]; try contradiction. crush false; try leaf.
  - row ([B "object"; B "object"] : list bytes) (B "null"). one vector_replaceFirst_with; try contents. eapply wp_consequence; [eapply (replace_loop_good false E et); eauto; unfold zlen in *; lia|].
    intros s1 [|?|?] [? ?]; try contradiction. crush false; try leaf.
  - row ([B "object"; B "integer"; B "object"] : list bytes) (B "null"). one vector_replaceFirst_fromIndex_with; try contents. eapply wp_consequence; [eapply (replace_loop_good false E et); eauto; unfold zlen in *; lia|].
    intros s1 [|?|?] [? ?]; try contradiction. crush false; try leaf.
  - row ([B "object"; B "object"] : list bytes) (B "null"). one vector_replaceAll_with; try contents. eapply wp_consequence; [eapply (replace_loop_good false E et); eauto; unfold zlen in *; lia|].
    intros s1 [|?|?] [? ?]; try contradiction. crush false; try leaf.
  - row ([] : list bytes) (B "null"). one vector_sort; try contents.
  - row ([] : list bytes) (B "null"). one vector_reverse; try contents.
  - row ([] : list bytes) (B "null"). one vector_clear; try contents.
Qed.
Lemma set_obeys et m args v : object_type et -> Forall (good false et) v -> Forall (clean false) args ->
  wp (set_receive E et m args) v (fun _ r => obeys Method (B "Set") p (Some (ISet et v)) m args r).
Proof.
  intros Het Hv Ha. unfold set_receive. apply dispatch_obeys; [vm_compute; reflexivity|]. repeat apply Forall_cons; try apply Forall_nil; cbn [fst snd].
  - row ([] : list bytes) (B "set"). one set_get; try contents.
  - row ([] : list bytes) (B "boolean"). one set_isEmpty; try contents.
  - row ([B "object"] : list bytes) (B "boolean"). one set_contains; try contents. unfold set_find. destruct (tree_ok _ _ _); next.
  - row ([] : list bytes) (B "integer"). one set_size; try contents.
  - row ([B "object"] : list bytes) (B "null"). one set_add; try contents. unfold set_insert. destruct (tree_ok _ _ _); next.
  - row ([B "object"] : list bytes) (B "null"). one set_remove; try contents. unfold set_erase. destruct (tree_ok _ _ _); next.
  - row ([] : list bytes) (B "null"). one set_clear; try contents.
Qed.
Lemma dict_obeys kt vt m args d : object_type kt -> object_type vt -> Forall (goodp false kt vt) d -> Forall (clean false) args ->
  wp (dict_receive E kt vt m args) d (fun _ r => obeys Method (B "Dictionary") p (Some (IDict kt vt d)) m args r).
Proof.
  intros Hk Hvt Hv Ha. unfold dict_receive. apply dispatch_obeys; [vm_compute; reflexivity|]. repeat apply Forall_cons; try apply Forall_nil; cbn [fst snd].
  - row ([] : list bytes) (B "dictionary"). one dict_get; try contents.
  - row ([] : list bytes) (B "boolean"). one dict_isEmpty; try contents.
  - row ([B "object"] : list bytes) (B "boolean"). one dict_containsKey; try contents. unfold map_find. destruct (tree_ok _ _ _); next.
  - row ([] : list bytes) (B "integer"). one dict_size; try contents.
  - row ([] : list bytes) (B "vector"). one dict_keys; try contents.
  - row ([] : list bytes) (B "vector"). one dict_values; try contents.
  - row ([B "object"] : list bytes) (B "object"). one dict_getValueForKey; try contents. unfold map_find. destruct (tree_ok _ _ _); apply wp_lift; intros ? <-; cbv beta iota; [|exact I].
    destruct (find _ d) as [q|] eqn:Ef; crush false; leaf. left. destruct (find_Forall _ _ _ _ Hv Ef) as [_ [Hq _]].
    eapply (ans_object _ _ _ vt (snd q)); [reflexivity|exact Hq|apply obj_repr_shows].
  - row ([B "object"; B "object"] : list bytes) (B "null"). one dict_associateValue_withKey; try contents. unfold map_assign. destruct (tree_ok _ _ _); next.
  - row ([B "object"] : list bytes) (B "null"). one dict_removeKey; try contents. unfold map_erase. destruct (tree_ok _ _ _); next.
  - row ([] : list bytes) (B "null"). one dict_clear; try contents.
Qed.
End Classes.
