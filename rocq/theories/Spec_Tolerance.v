(** Specification for C80: which lines depend on the tolerance of float comparisons. *)
From Coq Require Import String List Ascii.
From Verif Require Import Num Instance Context.
From Verif Require Import Spec_Grammar Spec_State Spec_Names Spec_Local.
Import ListNotations.
Open Scope list_scope.

(** The messages that compare values: of Character, Integer, Float and String; of Vector; of Set; of Dictionary. *)
Definition comparing_messages : list bytes :=
  [B "isEqualTo?"; B "isLessThan?"; B "isLessThanOrEqualTo?"; B "isGreaterThan?"; B "isGreaterThanOrEqualTo?";
   B "isLexicographicallyEqualTo?"; B "isLexicographicallyLessThan?"; B "isLexicographicallyLessThanOrEqualTo?";
   B "isLexicographicallyGreaterThan?"; B "isLexicographicallyGreaterThanOrEqualTo?";
   B "contains?"; B "contains?fromIndex:"; B "count:"; B "firstIndexOf:"; B "firstIndexOf:fromIndex:"; B "allIndexesOf:";
   B "removeFirst:"; B "removeFirst:fromIndex:"; B "removeAll:"; B "replaceFirst:with:"; B "replaceFirst:fromIndex:with:";
   B "replaceAll:with:"; B "sort";
   B "add:"; B "remove:";
   B "containsKey?"; B "getValueForKey:"; B "associateValue:withKey:"; B "removeKey:"].
(** The message makes the receiver compare floating-point numbers: a Float; an Integer compared with a literal that is no integer; a container of Float; a dictionary with Float keys. *)
Definition compares_floats (i : inst) (m : bytes) (args : list bytes) : Prop :=
  In m comparing_messages /\
  match i with
  | IObj (OFloat _) => m <> B "add:"
  | IObj (OInt _) => m <> B "add:" /\ exists a, In a args /\ float_value a /\ ~ integer_value a
  | IObj _ => False
  | IVector t _ | ISet t _ => t = B "Float"
  | IDict kt _ _ => kt = B "Float"
  end.
(** The line asks for the tolerance, or makes a variable compare floating-point numbers. *)
Definition tolerance_matters (c : context) (line : bytes) : Prop :=
  exists a m args, statement line a m args /\
    ((a = B "Context" /\ m = B "getFloatComparisonTolerance") \/ exists i, lookup c a = Some i /\ compares_floats i m args).
(** The same variables with the same values, and the same precision; the tolerance may differ. *)
Definition same_but_tolerance (c d : context) : Prop := (forall n, lookup d n = lookup c n) /\ float_precision d = float_precision c.

(** There are no floating-point numbers in the data where they could be compared, *)
Definition without_floats (c : context) : Prop := forall n i, lookup c n = Some i ->
  match i with IObj (OFloat _) => False | IObj _ => True | IVector t _ | ISet t _ => t <> B "Float" | IDict kt _ _ => kt <> B "Float" end.
(** and the line brings none: it does not use the type Float, vectors and sets of it and dictionaries with such keys, it has no argument that is a number but not an
    integer, and it does not ask for the tolerance.  (It may set it.) *)
Definition float_free (line : bytes) : Prop :=
  forall a m args, statement line a m args ->
    a <> B "Float" /\ ~ vector_type a (B "Float") /\ ~ set_type a (B "Float") /\ (forall v, ~ dictionary_type a (B "Float") v) /\
    (forall x, In x args -> float_value x -> integer_value x) /\ ~ (a = B "Context" /\ m = B "getFloatComparisonTolerance").
