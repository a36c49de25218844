(** Specification of the whole interface in one relation (C66): what every statement that succeeds answers and does. *)
From Coq Require Import String List Ascii ZArith Reals Sorting.Sorted Sorting.Permutation.
From Coq Require Import Floats.SpecFloat.
From Verif Require Import Outcome Num Instance Context.
From Verif Require Import Spec_Grammar Spec_State Spec_Names Spec_Text Spec_Number Spec_Float Spec_Order Spec_Vector Spec_String Spec_Set Spec_Object Spec_Server.
Import ListNotations.
Open Scope list_scope.
Open Scope Z_scope.

(** The questions a Character variable answers. *)
Inductive character_question : bytes -> (ascii -> Prop) -> Prop :=
| ask_alphabetic : character_question (B "isAlphabetic?") letter
| ask_numeric : character_question (B "isNumeric?") digit
| ask_alphanumeric : character_question (B "isAlphanumeric?") (fun x => letter x \/ digit x)
| ask_space : character_question (B "isSpace?") space.

(** [message_effect p tol i m args i' ans]: a variable that holds [i] answers [ans] to the message [m] with arguments [args]
    and then holds [i'].  [p] and [tol] are the configured number of decimal places and comparison tolerance.  No rule applies
    to a statement that is refused (an error is answered) or that has undefined behaviour. *)
Inductive message_effect (p : Z) (tol : spec_float) : inst -> bytes -> list bytes -> inst -> bytes -> Prop :=
(* get, set:, isTrue?, isFalse? *)
| msg_value x m args x' ans : value_effect p m args x x' ans -> message_effect p tol (IObj x) m args (IObj x') ans
| msg_character m (P : ascii -> Prop) ch b : character_question m P -> (b = true <-> P ch) ->
    message_effect p tol (IObj (OChar ch)) m [] (IObj (OChar ch)) (truth b)
| msg_comparison t q l a b r : ordered_type t -> has_type t a -> operand t l b -> (r = true <-> holds tol q a b) ->
    message_effect p tol (IObj a) (asks t q) [l] (IObj a) (truth r)
(* arithmetic *)
| msg_integer o a z d r : denotes_int a d -> fits d -> exact_result o z d r -> fits r ->
    message_effect p tol (IObj (OInt z)) (message_of o) [a] (IObj (OInt r)) (B "null")
| msg_integer_real o a neg x z zd d res r : ~ integer_value a -> denotes_real a neg x ->
    finite zd -> value zd = IZR z -> double neg x d -> ieee o zd d res -> truncates_to res r ->
    message_effect p tol (IObj (OInt z)) (message_of o) [a] (IObj (OInt r)) (B "null")
| msg_float o a neg x f d res g : denotes_real a neg x -> double neg x d -> ieee o f d res -> narrows res g -> single_precision g ->
    message_effect p tol (IObj (OFloat f)) (message_of o) [a] (IObj (OFloat g)) (B "null")
(* sequences *)
| msg_string m args v v' ans : string_effect m args v v' ans -> message_effect p tol (IObj (OStr v)) m args (IObj (OStr v')) ans
| msg_sequence t m args v v' ans : seq_effect p t m args v v' ans -> message_effect p tol (IVector t v) m args (IVector t v') ans
| msg_search t m args v v' ans : search_effect tol t m args v v' ans -> message_effect p tol (IVector t v) m args (IVector t v') ans
| msg_sort t v v' : weak_order tol v -> Permutation v v' -> in_order tol v' ->
    message_effect p tol (IVector t v) (B "sort") [] (IVector t v') (B "null")
(* sets *)
| msg_set_get t v ans : shows_set p v ans -> message_effect p tol (ISet t v) (B "get") [] (ISet t v) ans
| msg_set_isEmpty t v b : (b = true <-> v = []) -> message_effect p tol (ISet t v) (B "isEmpty?") [] (ISet t v) (truth b)
| msg_set_size t v ans : prints_int (size v) ans -> message_effect p tol (ISet t v) (B "size") [] (ISet t v) ans
| msg_set_contains t v a x b : literal_of t a x -> usable tol x v -> (b = true <-> Exists (fun y => equals tol y x) v) ->
    message_effect p tol (ISet t v) (B "contains?") [a] (ISet t v) (truth b)
| msg_set_add t v v' a x : literal_of t a x -> usable tol x v -> added tol x v v' ->
    message_effect p tol (ISet t v) (B "add:") [a] (ISet t v') (B "null")
| msg_set_remove t v v' a x : literal_of t a x -> usable tol x v -> removed tol x v v' ->
    message_effect p tol (ISet t v) (B "remove:") [a] (ISet t v') (B "null")
| msg_set_clear t v : message_effect p tol (ISet t v) (B "clear") [] (ISet t []) (B "null")
(* dictionaries *)
| msg_dict_get kt vt d ans : shows_dictionary p d ans -> message_effect p tol (IDict kt vt d) (B "get") [] (IDict kt vt d) ans
| msg_dict_isEmpty kt vt d b : (b = true <-> d = []) -> message_effect p tol (IDict kt vt d) (B "isEmpty?") [] (IDict kt vt d) (truth b)
| msg_dict_size kt vt d ans : prints_int (size d) ans -> message_effect p tol (IDict kt vt d) (B "size") [] (IDict kt vt d) ans
| msg_dict_keys kt vt d ans : shows_list p (map fst d) ans -> message_effect p tol (IDict kt vt d) (B "keys") [] (IDict kt vt d) ans
| msg_dict_values kt vt d ans : shows_list p (map snd d) ans -> message_effect p tol (IDict kt vt d) (B "values") [] (IDict kt vt d) ans
| msg_dict_containsKey kt vt d a k b : literal_of kt a k -> usable tol k (map fst d) ->
    (b = true <-> Exists (fun k' => equals tol k' k) (map fst d)) ->
    message_effect p tol (IDict kt vt d) (B "containsKey?") [a] (IDict kt vt d) (truth b)
| msg_dict_found kt vt d a k k' v ans : literal_of kt a k -> usable tol k (map fst d) -> In (k', v) d -> equals tol k' k ->
    shows p v ans -> message_effect p tol (IDict kt vt d) (B "getValueForKey:") [a] (IDict kt vt d) ans
| msg_dict_not_found kt vt d a k : literal_of kt a k -> usable tol k (map fst d) -> Forall (fun k' => ~ equals tol k' k) (map fst d) ->
    message_effect p tol (IDict kt vt d) (B "getValueForKey:") [a] (IDict kt vt d) (B "null")
| msg_dict_associate kt vt d d' a b x k : literal_of vt a x -> literal_of kt b k -> usable tol k (map fst d) -> associated tol k x d d' ->
    message_effect p tol (IDict kt vt d) (B "associateValue:withKey:") [a; b] (IDict kt vt d') (B "null")
| msg_dict_removeKey kt vt d d' a k : literal_of kt a k -> usable tol k (map fst d) -> dissociated tol k d d' ->
    message_effect p tol (IDict kt vt d) (B "removeKey:") [a] (IDict kt vt d') (B "null")
| msg_dict_clear kt vt d : message_effect p tol (IDict kt vt d) (B "clear") [] (IDict kt vt []) (B "null").

(** After the statement [n] holds [i]; everything else is as before. *)
Definition only_changes (c c' : context) (n : bytes) (i : option inst) : Prop :=
  lookup c' n = i /\ (forall x, x <> n -> lookup c' x = lookup c x) /\ same_settings c c'.

(** [effect pw c s a m args c' s' ans]: on data [c] in session [s] of a server with password [pw] (no session when the
    statement does not come from a client), the message [m] with arguments [args] to [a] is answered [ans] and leaves data [c']
    and session [s'].  What is written to the log is the subject of C37. *)
Inductive effect (pw : bytes) (c : context) (s : option session) : bytes -> bytes -> list bytes -> context -> option session -> bytes -> Prop :=
| eff_message n m args i i' ans c' : lookup c n = Some i -> message_effect (float_precision c) (tolerance c) i m args i' ans ->
    only_changes c c' n (Some i') -> effect pw c s n m args c' s ans
| eff_create t m args n i c' : creates t m args n i -> ~ live c n -> only_changes c c' n (Some i) -> effect pw c s t m args c' s (B "null")
| eff_exists t m args n i c' : creates t m args n i -> live c n -> In m [B "createIfNotExists:"; B "createIfNotExists:withValue:"] ->
    same_data c c' -> effect pw c s t m args c' s (B "null")
| eff_listVariables names c' : increasing names -> (forall n, In n names <-> live c n) -> same_data c c' ->
    effect pw c s (B "Context") (B "listVariables") [] c' s (listing names)
| eff_listNamespaces names c' : increasing names -> (forall ns, In ns names <-> exists i, live c (qualified ns i)) -> same_data c c' ->
    effect pw c s (B "Context") (B "listNamespaces") [] c' s (listing names)
| eff_listVariablesOf ns names c' : namespace ns -> increasing names -> (forall n, In n names <-> live c n /\ exists i, n = qualified ns i) ->
    same_data c c' -> effect pw c s (B "Context") (B "listVariablesOfNamespace:") [ns] c' s (listing names)
| eff_delete n c' : live c n -> only_changes c c' n None -> effect pw c s (B "Context") (B "deleteVariable:") [n] c' s (B "null")
| eff_deleteOf ns c' : namespace ns -> same_settings c c' -> (forall i, lookup c' (qualified ns i) = None) ->
    (forall n, (forall i, n <> qualified ns i) -> lookup c' n = lookup c n) ->
    effect pw c s (B "Context") (B "deleteVariablesOfNamespace:") [ns] c' s (B "null")
| eff_getFloatPrecision c' ans : prints_int (float_precision c) ans -> same_data c c' ->
    effect pw c s (B "Context") (B "getFloatPrecision") [] c' s ans
| eff_setFloatPrecision a z c' : index_of a z -> 0 < z -> (forall n, lookup c' n = lookup c n) -> float_precision c' = z -> tolerance c' = tolerance c ->
    effect pw c s (B "Context") (B "setFloatPrecision:") [a] c' s (B "null")
| eff_getFloatComparisonTolerance c' ans : prints_float (places (float_precision c)) (tolerance c) ans -> same_data c c' ->
    effect pw c s (B "Context") (B "getFloatComparisonTolerance") [] c' s ans
| eff_setFloatComparisonTolerance a f c' : literal_of (B "Float") a (OFloat f) -> ~ below_zero f ->
    (forall n, lookup c' n = lookup c n) -> float_precision c' = float_precision c -> tolerance c' = f ->
    effect pw c s (B "Context") (B "setFloatComparisonTolerance:") [a] c' s (B "null")
| eff_close z c' : s = Some z -> same_data c c' ->
    effect pw c s (B "Connection") (B "close") [] c' (Some {| is_connected := false; is_authenticated := is_authenticated z |}) (B "null")
| eff_authenticate a z c' : s = Some z -> denotes_string a pw -> same_data c c' ->
    effect pw c s (B "Connection") (B "authenticateWithPassword:") [a] c' (Some {| is_connected := is_connected z; is_authenticated := true |}) (B "null").

(** The statement is one that this data and session give an effect. *)
Definition has_effect (pw : bytes) (c : context) (s : option session) (line : bytes) : Prop :=
  exists a m args c' s' ans, statement line a m args /\ effect pw c s a m args c' s' ans.
(** [line_effect pw c s line c' s' o]: what becomes of a line of a client, said without the program: it is refused if the client
    has not given the password and it is not a message to Connection; else, if the line is a statement that has an effect, that
    effect takes place, and the client is answered unless the connection is closed; else an error is answered and nothing changes. *)
Inductive line_effect (pw : bytes) (c : context) (s : session) (line : bytes) (c' : context) (s' : session) : outcome -> Prop :=
| line_refused : is_authenticated s = false -> ~ connection_line line -> same_data c c' -> s' = s -> line_effect pw c s line c' s' Refused
| line_done a m args ans : is_authenticated s = true \/ connection_line line -> statement line a m args ->
    effect pw c (Some s) a m args c' (Some s') ans -> line_effect pw c s line c' s' (if is_connected s' then Answered ans else Closed ans)
| line_error ans : is_authenticated s = true \/ connection_line line -> ~ has_effect pw c (Some s) line ->
    error_answer ans -> same_data c c' -> s' = s -> line_effect pw c s line c' s' (if is_connected s' then Answered ans else Closed ans).
(** A history in which every line has the effect it should have. *)
Inductive specified (pw : bytes) (c : context) (ss : nat -> session) : list Spec_Server.entry -> context -> (nat -> session) -> Prop :=
| specified_none : specified pw c ss [] c ss
| specified_more h c1 ss1 sid line c2 s2 o : specified pw c ss h c1 ss1 -> line_effect pw c1 (ss1 sid) line c2 s2 o ->
    specified pw c ss (h ++ [{| e_sid := sid; e_line := line; e_outcome := o |}]) c2 (fun k => if (k =? sid)%nat then s2 else ss1 k).
