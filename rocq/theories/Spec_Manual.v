(** Generated by tools/mkmanual.py from the reference part of the documentation, /repo/README.md:115-1910.  Do not edit.
    [manual]: every message documented there, with the words of the documentation for its arguments and its answer and the
    line of its heading.  ("Returns: Integer" of line 1141 is written like the other lines, in lower case.) *)
From Verif Require Import Num Instance Context.
From Verif Require Import Spec_Grammar Spec_State Spec_Names Spec_Text Spec_Number Spec_Float Spec_Literal Spec_Vector Spec_String Spec_Set.
From Coq Require Import String List Ascii ZArith.
Import ListNotations.
Open Scope list_scope.

Inductive section := Constructor | Method.
(** line, section, class, message, arguments, answer *)
Definition entry := (nat * section * bytes * bytes * list bytes * bytes)%type.
Definition manual : list entry :=
  [(124, Constructor, B "Boolean", B "create:withValue:", [B "variable"; B "boolean"], B "null");
   (137, Constructor, B "Boolean", B "createIfNotExists:withValue:", [B "variable"; B "boolean"], B "null");
   (151, Method, B "Boolean", B "get", [], B "boolean");
   (160, Method, B "Boolean", B "set:", [B "boolean"], B "null");
   (171, Method, B "Boolean", B "isTrue?", [], B "boolean");
   (184, Method, B "Boolean", B "isFalse?", [], B "boolean");
   (201, Constructor, B "Character", B "create:withValue:", [B "variable"; B "character"], B "null");
   (218, Constructor, B "Character", B "createIfNotExists:withValue:", [B "variable"; B "character"], B "null");
   (236, Method, B "Character", B "get", [], B "character");
   (245, Method, B "Character", B "set:", [B "character"], B "null");
   (256, Method, B "Character", B "isAlphabetic?", [], B "boolean");
   (273, Method, B "Character", B "isNumeric?", [], B "boolean");
   (290, Method, B "Character", B "isAlphanumeric?", [], B "boolean");
   (307, Method, B "Character", B "isSpace?", [], B "boolean");
   (324, Method, B "Character", B "isEqualTo?", [B "character"], B "boolean");
   (335, Method, B "Character", B "isLessThan?", [B "character"], B "boolean");
   (346, Method, B "Character", B "isLessThanOrEqualTo?", [B "character"], B "boolean");
   (357, Method, B "Character", B "isGreaterThan?", [B "character"], B "boolean");
   (368, Method, B "Character", B "isGreaterThanOrEqualTo?", [B "character"], B "boolean");
   (383, Constructor, B "Integer", B "create:withValue:", [B "variable"; B "integer"], B "null");
   (392, Constructor, B "Integer", B "createIfNotExists:withValue:", [B "variable"; B "integer"], B "null");
   (402, Method, B "Integer", B "get", [], B "integer");
   (411, Method, B "Integer", B "set:", [B "integer"], B "null");
   (422, Method, B "Integer", B "isEqualTo?", [B "integer"], B "boolean");
   (433, Method, B "Integer", B "isLessThan?", [B "integer"], B "boolean");
   (444, Method, B "Integer", B "isLessThanOrEqualTo?", [B "integer"], B "boolean");
   (455, Method, B "Integer", B "isGreaterThan?", [B "integer"], B "boolean");
   (466, Method, B "Integer", B "isGreaterThanOrEqualTo?", [B "integer"], B "boolean");
   (477, Method, B "Integer", B "add:", [B "integer"], B "null");
   (488, Method, B "Integer", B "subtract:", [B "integer"], B "null");
   (499, Method, B "Integer", B "multiplyBy:", [B "float"], B "null");
   (510, Method, B "Integer", B "divideBy:", [B "float"], B "null");
   (525, Constructor, B "Float", B "create:withValue:", [B "variable"; B "float"], B "null");
   (538, Constructor, B "Float", B "createIfNotExists:withValue:", [B "variable"; B "float"], B "null");
   (552, Method, B "Float", B "get", [], B "float");
   (561, Method, B "Float", B "set:", [B "float"], B "null");
   (572, Method, B "Float", B "isEqualTo?", [B "float"], B "boolean");
   (583, Method, B "Float", B "isLessThan?", [B "float"], B "boolean");
   (594, Method, B "Float", B "isLessThanOrEqualTo?", [B "float"], B "boolean");
   (605, Method, B "Float", B "isGreaterThan?", [B "float"], B "boolean");
   (616, Method, B "Float", B "isGreaterThanOrEqualTo?", [B "float"], B "boolean");
   (627, Method, B "Float", B "add:", [B "float"], B "null");
   (638, Method, B "Float", B "subtract:", [B "float"], B "null");
   (649, Method, B "Float", B "multiplyBy:", [B "float"], B "null");
   (660, Method, B "Float", B "divideBy:", [B "float"], B "null");
   (675, Constructor, B "String", B "create:", [B "variable"], B "null");
   (684, Constructor, B "String", B "createIfNotExists:", [B "variable"], B "null");
   (693, Constructor, B "String", B "create:withValue:", [B "variable"; B "string"], B "null");
   (702, Constructor, B "String", B "createIfNotExists:withValue:", [B "variable"; B "string"], B "null");
   (712, Method, B "String", B "get", [], B "string");
   (721, Method, B "String", B "set:", [B "string"], B "null");
   (732, Method, B "String", B "isEmpty?", [], B "boolean");
   (745, Method, B "String", B "startsWith?", [B "string"], B "boolean");
   (756, Method, B "String", B "endsWith?", [B "string"], B "boolean");
   (767, Method, B "String", B "isLexicographicallyEqualTo?", [B "string"], B "boolean");
   (778, Method, B "String", B "isLexicographicallyLessThan?", [B "string"], B "boolean");
   (789, Method, B "String", B "isLexicographicallyLessThanOrEqualTo?", [B "string"], B "boolean");
   (800, Method, B "String", B "isLexicographicallyGreaterThan?", [B "string"], B "boolean");
   (811, Method, B "String", B "isLexicographicallyGreaterThanOrEqualTo?", [B "string"], B "boolean");
   (822, Method, B "String", B "length", [], B "integer");
   (831, Method, B "String", B "atIndex:", [B "integer"], B "character");
   (840, Method, B "String", B "first:", [B "integer"], B "string");
   (849, Method, B "String", B "last:", [B "integer"], B "string");
   (858, Method, B "String", B "substringFromIndex:", [B "integer"], B "string");
   (867, Method, B "String", B "substringFromIndex:toIndex:", [B "integer"; B "integer"], B "string");
   (876, Method, B "String", B "pushBack:", [B "character"], B "null");
   (887, Method, B "String", B "pushFront:", [B "character"], B "null");
   (898, Method, B "String", B "popBack", [], B "character");
   (909, Method, B "String", B "popFront", [], B "character");
   (920, Method, B "String", B "popAtIndex:", [B "integer"], B "character");
   (931, Method, B "String", B "concatenate:", [B "string"], B "null");
   (942, Method, B "String", B "insert:beforeIndex:", [B "string"; B "integer"], B "null");
   (953, Method, B "String", B "eraseFromIndex:", [B "integer"], B "null");
   (964, Method, B "String", B "eraseFromIndex:toIndex:", [B "integer"; B "integer"], B "null");
   (975, Method, B "String", B "clear", [], B "null");
   (990, Constructor, B "Vector", B "create:", [B "variable"], B "null");
   (999, Constructor, B "Vector", B "createIfNotExists:", [B "variable"], B "null");
   (1009, Method, B "Vector", B "get", [], B "vector");
   (1018, Method, B "Vector", B "isEmpty?", [], B "boolean");
   (1031, Method, B "Vector", B "contains?", [B "object"], B "boolean");
   (1044, Method, B "Vector", B "contains?fromIndex:", [B "object"; B "integer"], B "boolean");
   (1061, Method, B "Vector", B "count:", [B "object"], B "integer");
   (1076, Method, B "Vector", B "atIndex:", [B "integer"], B "object");
   (1091, Method, B "Vector", B "firstIndexOf:", [B "object"], B "integer");
   (1108, Method, B "Vector", B "firstIndexOf:fromIndex:", [B "object"; B "integer"], B "integer");
   (1125, Method, B "Vector", B "allIndexesOf:", [B "object"], B "vector");
   (1140, Method, B "Vector", B "size", [], B "integer");
   (1155, Method, B "Vector", B "first:", [B "integer"], B "vector");
   (1170, Method, B "Vector", B "last:", [B "integer"], B "vector");
   (1185, Method, B "Vector", B "sliceFromIndex:", [B "integer"], B "vector");
   (1202, Method, B "Vector", B "sliceFromIndex:toIndex:", [B "integer"; B "integer"], B "vector");
   (1219, Method, B "Vector", B "pushBack:", [B "object"], B "null");
   (1234, Method, B "Vector", B "pushFront:", [B "object"], B "null");
   (1249, Method, B "Vector", B "popBack", [], B "object");
   (1266, Method, B "Vector", B "popFront", [], B "object");
   (1283, Method, B "Vector", B "popAtIndex:", [B "integer"], B "object");
   (1300, Method, B "Vector", B "insert:beforeIndex:", [B "object"; B "integer"], B "null");
   (1315, Method, B "Vector", B "eraseFromIndex:", [B "integer"], B "null");
   (1332, Method, B "Vector", B "eraseFromIndex:toIndex:", [B "integer"; B "integer"], B "null");
   (1349, Method, B "Vector", B "removeFirst:", [B "object"], B "null");
   (1368, Method, B "Vector", B "removeFirst:fromIndex:", [B "object"; B "integer"], B "null");
   (1387, Method, B "Vector", B "removeAll:", [B "object"], B "null");
   (1406, Method, B "Vector", B "replaceFirst:with:", [B "object"; B "object"], B "null");
   (1425, Method, B "Vector", B "replaceFirst:fromIndex:with:", [B "object"; B "integer"; B "object"], B "null");
   (1444, Method, B "Vector", B "replaceAll:with:", [B "object"; B "object"], B "null");
   (1463, Method, B "Vector", B "sort", [], B "null");
   (1480, Method, B "Vector", B "reverse", [], B "null");
   (1497, Method, B "Vector", B "clear", [], B "null");
   (1518, Constructor, B "Set", B "create:", [B "variable"], B "null");
   (1527, Constructor, B "Set", B "createIfNotExists:", [B "variable"], B "null");
   (1537, Method, B "Set", B "get", [], B "set");
   (1546, Method, B "Set", B "isEmpty?", [], B "boolean");
   (1559, Method, B "Set", B "contains?", [B "object"], B "boolean");
   (1572, Method, B "Set", B "size", [], B "integer");
   (1587, Method, B "Set", B "add:", [B "object"], B "null");
   (1598, Method, B "Set", B "remove:", [B "object"], B "null");
   (1611, Method, B "Set", B "clear", [], B "null");
   (1632, Constructor, B "Dictionary", B "create:", [B "variable"], B "null");
   (1641, Constructor, B "Dictionary", B "createIfNotExists:", [B "variable"], B "null");
   (1651, Method, B "Dictionary", B "get", [], B "dictionary");
   (1660, Method, B "Dictionary", B "isEmpty?", [], B "boolean");
   (1673, Method, B "Dictionary", B "containsKey?", [B "object"], B "boolean");
   (1686, Method, B "Dictionary", B "size", [], B "integer");
   (1699, Method, B "Dictionary", B "keys", [], B "vector");
   (1714, Method, B "Dictionary", B "values", [], B "vector");
   (1729, Method, B "Dictionary", B "getValueForKey:", [B "object"], B "object");
   (1740, Method, B "Dictionary", B "associateValue:withKey:", [B "object"; B "object"], B "null");
   (1751, Method, B "Dictionary", B "removeKey:", [B "object"], B "null");
   (1764, Method, B "Dictionary", B "clear", [], B "null");
   (1785, Method, B "Context", B "listNamespaces", [], B "vector");
   (1796, Method, B "Context", B "listVariables", [], B "vector");
   (1807, Method, B "Context", B "listVariablesOfNamespace:", [B "namespace"], B "vector");
   (1820, Method, B "Context", B "deleteVariable:", [B "variable"], B "null");
   (1833, Method, B "Context", B "deleteVariablesOfNamespace:", [B "namespace"], B "null");
   (1848, Method, B "Context", B "getFloatPrecision", [], B "integer");
   (1857, Method, B "Context", B "setFloatPrecision:", [B "integer"], B "null");
   (1868, Method, B "Context", B "getFloatComparisonTolerance", [], B "float");
   (1877, Method, B "Context", B "setFloatComparisonTolerance:", [B "float"], B "null");
   (1896, Method, B "Connection", B "authenticateWithPassword:", [B "string"], B "null");
   (1903, Method, B "Connection", B "close", [], B "null")]%nat.

(** [documents sec cls m takes gives]: the documentation has, for the class [cls], a message [m] with arguments described by
    the words [takes] and an answer described by the word [gives]. *)
Definition documents (sec : section) (cls m : bytes) (takes : list bytes) (gives : bytes) : Prop :=
  exists at_line, In (at_line, sec, cls, m, takes, gives) manual.
Definition documented (sec : section) (cls m : bytes) : Prop := exists takes gives, documents sec cls m takes gives.

(** The chapter of the documentation about a value. *)
Definition class_of (i : inst) : bytes :=
  match i with
  | IObj (OBool _) => B "Boolean" | IObj (OChar _) => B "Character" | IObj (OInt _) => B "Integer"
  | IObj (OFloat _) => B "Float" | IObj (OStr _) => B "String"
  | IVector _ _ => B "Vector" | ISet _ _ => B "Set" | IDict _ _ _ => B "Dictionary"
  end.
(** [chapter c a sec cls held]: messages to [a] are the subject of section [sec] of the chapter [cls]; [held] is the value
    [a] holds if it is a variable. *)
Inductive chapter (c : context) : bytes -> section -> bytes -> option inst -> Prop :=
| chap_variable n i : lookup c n = Some i -> chapter c n Method (class_of i) (Some i)
| chap_object t : object_type t -> chapter c t Constructor t None
| chap_vector t e : vector_type t e -> chapter c t Constructor (B "Vector") None
| chap_set t e : set_type t e -> chapter c t Constructor (B "Set") None
| chap_dictionary t k v : dictionary_type t k v -> chapter c t Constructor (B "Dictionary") None
| chap_context : chapter c (B "Context") Method (B "Context") None
| chap_connection : chapter c (B "Connection") Method (B "Connection") None.

(** The type meant by the word "object" for the argument number [k] of the message [m] to a container: the type of its
    elements; of a dictionary, the type of its keys, except for the value that is to be associated. *)
Definition object_taken (held : option inst) (m : bytes) (k : nat) (t : bytes) : Prop :=
  match held with
  | Some (IVector e _) | Some (ISet e _) => t = e
  | Some (IDict kt vt _) => (m = B "associateValue:withKey:" /\ k = 0%nat /\ t = vt) \/
                            ((m <> B "associateValue:withKey:" \/ k = 1%nat) /\ t = kt)
  | _ => False
  end.
(** The words for the types of values. *)
Definition value_words : list (bytes * bytes) :=
  [(B "boolean", B "Boolean"); (B "character", B "Character"); (B "integer", B "Integer"); (B "float", B "Float");
   (B "string", B "String")].
(** [fits_word held m k w a]: the text [a] is what the word [w] says about the argument number [k]. *)
Inductive fits_word (held : option inst) (m : bytes) (k : nat) : bytes -> bytes -> Prop :=
| fit_variable a : variable a -> fits_word held m k (B "variable") a
| fit_namespace a : namespace a -> fits_word held m k (B "namespace") a
| fit_value w t a : In (w, t) value_words -> literal_text t a -> fits_word held m k w a
| fit_object t a : object_taken held m k t -> literal_text t a -> fits_word held m k (B "object") a.
(** All arguments are as documented. *)
Definition as_documented (held : option inst) (m : bytes) (takes args : list bytes) : Prop :=
  length args = length takes /\
  forall k w a, nth_error takes k = Some w -> nth_error args k = Some a -> fits_word held m k w a.

(** The type meant by the word "object" for the answer. *)
Definition object_given (held : option inst) (t : bytes) : Prop :=
  match held with Some (IVector e _) | Some (ISet e _) => t = e | Some (IDict kt vt _) => t = vt | _ => False end.
(** The type of the elements of an answer described by the word "vector". *)
Definition elements_given (held : option inst) (m t : bytes) : Prop :=
  match held with
  | Some (IVector e _) => (m = B "allIndexesOf:" /\ t = B "Integer") \/ (m <> B "allIndexesOf:" /\ t = e)
  | Some (IDict kt vt _) => (m = B "keys" /\ t = kt) \/ (m = B "values" /\ t = vt)
  | _ => False
  end.
(** [answer_word p held m w ans]: the answer [ans] to the message [m] is what the word [w] says; [p] is the number of decimal
    places configured. *)
Inductive answer_word (p : Z) (held : option inst) (m : bytes) : bytes -> bytes -> Prop :=
| ans_null : answer_word p held m (B "null") (B "null")
| ans_value w t x ans : In (w, t) value_words -> has_type t x -> shows p x ans -> answer_word p held m w ans
| ans_object t x ans : object_given held t -> has_type t x -> shows p x ans -> answer_word p held m (B "object") ans
| ans_vector t l ans : elements_given held m t -> Forall (has_type t) l -> shows_list p l ans -> answer_word p held m (B "vector") ans
| ans_namespaces l : held = None -> m = B "listNamespaces" -> Forall namespace l -> answer_word p held m (B "vector") (listing l)
| ans_variables l : held = None -> m = B "listVariables" \/ m = B "listVariablesOfNamespace:" -> Forall variable l ->
    answer_word p held m (B "vector") (listing l)
| ans_set t v l ans : held = Some (ISet t v) -> Forall (has_type t) l -> shows_set p l ans -> answer_word p held m (B "set") ans
| ans_dictionary kt vt d e ans : held = Some (IDict kt vt d) ->
    Forall (fun q => has_type kt (fst q) /\ has_type vt (snd q)) e -> shows_dictionary p e ans ->
    answer_word p held m (B "dictionary") ans.
(** The messages that may answer null although another answer is documented: there was nothing to answer. *)
Definition may_find_nothing : list bytes := [B "popBack"; B "popFront"; B "getValueForKey:"].
(** When arguments as documented are nevertheless refused: an index or count of a String or Vector, a number that is no
    possible setting, a name that is (or is not) in use, a wrong password. *)
Inductive may_be_refused : section -> bytes -> bytes -> bytes -> Prop :=
| ref_index cls m takes gives : In cls [B "String"; B "Vector"] -> documents Method cls m takes gives -> In (B "integer") takes ->
    may_be_refused Method cls m ERR_ARGUMENT
| ref_setting m : In m [B "setFloatPrecision:"; B "setFloatComparisonTolerance:"] -> may_be_refused Method (B "Context") m ERR_ARGUMENT
| ref_used cls m : In m [B "create:"; B "create:withValue:"] -> may_be_refused Constructor cls m ERR_USED
| ref_unused : may_be_refused Method (B "Context") (B "deleteVariable:") ERR_UNKNOWN_NAME
| ref_password : may_be_refused Method (B "Connection") (B "authenticateWithPassword:") ERR_PASSWORD.
