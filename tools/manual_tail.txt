
(** [documents sec cls m takes gives]: the documentation has, for the class [cls], a message [m] with arguments described by
    the words [takes] and an answer described by the word [gives]. *)
Definition documents (sec : section) (cls m : bytes) (takes : list bytes) (gives : bytes) : Prop :=
  exists at_line, In (at_line, sec, cls, m, takes, gives) manual.
Definition documented (sec : section) (cls m : bytes) : Prop := exists takes gives, documents sec cls m takes gives.

(** The chapter of the documentation about a value. *)
Definition class_of (i : inst) : bytes :=
  match i with
  | IObj (OBool _) => B "Boolean" | IObj (OChar _) => B "Character" | IObj (OInt _) => B "Integer"
  | IObj (OFloat _) => B "Float" | IObj (OStr _) => B "String"
  | IVector _ _ => B "Vector" | ISet _ _ => B "Set" | IDict _ _ _ => B "Dictionary"
  end.
(** [chapter c a sec cls held]: messages to [a] are the subject of section [sec] of the chapter [cls]; [held] is the value
    [a] holds if it is a variable. *)
Inductive chapter (c : context) : bytes -> section -> bytes -> option inst -> Prop :=
| chap_variable n i : lookup c n = Some i -> chapter c n Method (class_of i) (Some i)
| chap_object t : object_type t -> chapter c t Constructor t None
| chap_vector t e : vector_type t e -> chapter c t Constructor (B "Vector") None
| chap_set t e : set_type t e -> chapter c t Constructor (B "Set") None
| chap_dictionary t k v : dictionary_type t k v -> chapter c t Constructor (B "Dictionary") None
| chap_context : chapter c (B "Context") Method (B "Context") None
| chap_connection : chapter c (B "Connection") Method (B "Connection") None.

(** The type meant by the word "object" for the argument number [k] of the message [m] to a container: the type of its
    elements; of a dictionary, the type of its keys, except for the value that is to be associated. *)
Definition object_taken (held : option inst) (m : bytes) (k : nat) (t : bytes) : Prop :=
  match held with
  | Some (IVector e _) | Some (ISet e _) => t = e
  | Some (IDict kt vt _) => (m = B "associateValue:withKey:" /\ k = 0%nat /\ t = vt) \/
                            ((m <> B "associateValue:withKey:" \/ k = 1%nat) /\ t = kt)
  | _ => False
  end.
(** The words for the types of values. *)
Definition value_words : list (bytes * bytes) :=
  [(B "boolean", B "Boolean"); (B "character", B "Character"); (B "integer", B "Integer"); (B "float", B "Float");
   (B "string", B "String")].
(** [fits_word held m k w a]: the text [a] is what the word [w] says about the argument number [k]. *)
Inductive fits_word (held : option inst) (m : bytes) (k : nat) : bytes -> bytes -> Prop :=
| fit_variable a : variable a -> fits_word held m k (B "variable") a
| fit_namespace a : namespace a -> fits_word held m k (B "namespace") a
| fit_value w t a : In (w, t) value_words -> literal_text t a -> fits_word held m k w a
| fit_object t a : object_taken held m k t -> literal_text t a -> fits_word held m k (B "object") a.
(** All arguments are as documented. *)
Definition as_documented (held : option inst) (m : bytes) (takes args : list bytes) : Prop :=
  length args = length takes /\
  forall k w a, nth_error takes k = Some w -> nth_error args k = Some a -> fits_word held m k w a.

(** The type meant by the word "object" for the answer. *)
Definition object_given (held : option inst) (t : bytes) : Prop :=
  match held with Some (IVector e _) | Some (ISet e _) => t = e | Some (IDict kt vt _) => t = vt | _ => False end.
(** The type of the elements of an answer described by the word "vector". *)
Definition elements_given (held : option inst) (m t : bytes) : Prop :=
  match held with
  | Some (IVector e _) => (m = B "allIndexesOf:" /\ t = B "Integer") \/ (m <> B "allIndexesOf:" /\ t = e)
  | Some (IDict kt vt _) => (m = B "keys" /\ t = kt) \/ (m = B "values" /\ t = vt)
  | _ => False
  end.
(** [answer_word p held m w ans]: the answer [ans] to the message [m] is what the word [w] says; [p] is the number of decimal
    places configured. *)
Inductive answer_word (p : Z) (held : option inst) (m : bytes) : bytes -> bytes -> Prop :=
| ans_null : answer_word p held m (B "null") (B "null")
| ans_value w t x ans : In (w, t) value_words -> has_type t x -> shows p x ans -> answer_word p held m w ans
| ans_object t x ans : object_given held t -> has_type t x -> shows p x ans -> answer_word p held m (B "object") ans
| ans_vector t l ans : elements_given held m t -> Forall (has_type t) l -> shows_list p l ans -> answer_word p held m (B "vector") ans
| ans_namespaces l : held = None -> m = B "listNamespaces" -> Forall namespace l -> answer_word p held m (B "vector") (listing l)
| ans_variables l : held = None -> m = B "listVariables" \/ m = B "listVariablesOfNamespace:" -> Forall variable l ->
    answer_word p held m (B "vector") (listing l)
| ans_set t v l ans : held = Some (ISet t v) -> Forall (has_type t) l -> shows_set p l ans -> answer_word p held m (B "set") ans
| ans_dictionary kt vt d e ans : held = Some (IDict kt vt d) ->
    Forall (fun q => has_type kt (fst q) /\ has_type vt (snd q)) e -> shows_dictionary p e ans ->
    answer_word p held m (B "dictionary") ans.
(** The messages that may answer null although another answer is documented: there was nothing to answer. *)
Definition may_find_nothing : list bytes := [B "popBack"; B "popFront"; B "getValueForKey:"].
(** When arguments as documented are nevertheless refused: an index or count of a String or Vector, a number that is no
    possible setting, a name that is (or is not) in use, a wrong password. *)
Inductive may_be_refused : section -> bytes -> bytes -> bytes -> Prop :=
| ref_index cls m takes gives : In cls [B "String"; B "Vector"] -> documents Method cls m takes gives -> In (B "integer") takes ->
    may_be_refused Method cls m ERR_ARGUMENT
| ref_setting m : In m [B "setFloatPrecision:"; B "setFloatComparisonTolerance:"] -> may_be_refused Method (B "Context") m ERR_ARGUMENT
| ref_used cls m : In m [B "create:"; B "create:withValue:"] -> may_be_refused Constructor cls m ERR_USED
| ref_unused : may_be_refused Method (B "Context") (B "deleteVariable:") ERR_UNKNOWN_NAME
| ref_password : may_be_refused Method (B "Connection") (B "authenticateWithPassword:") ERR_PASSWORD.
