(** Specification of undefined behaviour (C69): exactly which statements have it. *)
From Coq Require Import String List Ascii ZArith Reals.
From Coq Require Import Floats.SpecFloat.
From Verif Require Import Num Instance Context.
From Verif Require Import Spec_Grammar Spec_State Spec_Names Spec_Text Spec_Number Spec_Float Spec_Literal Spec_Order Spec_Vector Spec_String Spec_Set.
Import ListNotations.
Open Scope list_scope.

Definition integer_comparisons : list bytes :=
  [B "isEqualTo?"; B "isLessThan?"; B "isLessThanOrEqualTo?"; B "isGreaterThan?"; B "isGreaterThanOrEqualTo?"].
(** [reads_value i m args l]: the message [m] to a variable with the value [i] reads the literals [l] - types and texts - in this order,
    indexes and counts as Integers. *)
Inductive reads_value : inst -> bytes -> list bytes -> list (bytes * bytes) -> Prop :=
| reads_set_integer z a : reads_value (IObj (OInt z)) (B "set:") [a] [(B "Integer", a)]
| reads_string_index v m a : In m [B "atIndex:"; B "first:"; B "last:"; B "substringFromIndex:"; B "popAtIndex:"; B "eraseFromIndex:"] ->
    reads_value (IObj (OStr v)) m [a] [(B "Integer", a)]
| reads_string_indexes v m a b : In m [B "substringFromIndex:toIndex:"; B "eraseFromIndex:toIndex:"] ->
    reads_value (IObj (OStr v)) m [a; b] [(B "Integer", a); (B "Integer", b)]
| reads_string_insert v a b : reads_value (IObj (OStr v)) (B "insert:beforeIndex:") [a; b] [(B "String", a); (B "Integer", b)]
| reads_vector_index t v m a : In m [B "atIndex:"; B "first:"; B "last:"; B "sliceFromIndex:"; B "popAtIndex:"; B "eraseFromIndex:"] ->
    reads_value (IVector t v) m [a] [(B "Integer", a)]
| reads_vector_indexes t v m a b : In m [B "sliceFromIndex:toIndex:"; B "eraseFromIndex:toIndex:"] ->
    reads_value (IVector t v) m [a; b] [(B "Integer", a); (B "Integer", b)]
| reads_vector_element t v m a :
    In m [B "contains?"; B "count:"; B "firstIndexOf:"; B "allIndexesOf:"; B "pushBack:"; B "pushFront:"; B "removeFirst:"; B "removeAll:"] ->
    reads_value (IVector t v) m [a] [(t, a)]
| reads_vector_element_index t v m a b :
    In m [B "contains?fromIndex:"; B "firstIndexOf:fromIndex:"; B "insert:beforeIndex:"; B "removeFirst:fromIndex:"] ->
    reads_value (IVector t v) m [a; b] [(t, a); (B "Integer", b)]
| reads_vector_elements t v m a b : In m [B "replaceFirst:with:"; B "replaceAll:with:"] -> reads_value (IVector t v) m [a; b] [(t, a); (t, b)]
| reads_vector_replace t v a b w :
    reads_value (IVector t v) (B "replaceFirst:fromIndex:with:") [a; b; w] [(t, a); (t, w); (B "Integer", b)]
| reads_set_element t v m a : In m set_lookups -> reads_value (ISet t v) m [a] [(t, a)]
| reads_dictionary_key kt vt d m b : In m dictionary_lookups -> reads_value (IDict kt vt d) m [b] [(kt, b)]
| reads_association kt vt d a b : reads_value (IDict kt vt d) (B "associateValue:withKey:") [a; b] [(vt, a); (kt, b)].

(** The literals read before are accepted, then comes an Integer that does not fit 32 bits. *)
Definition undefined_reading (l : list (bytes * bytes)) : Prop :=
  exists before a after, l = before ++ (B "Integer", a) :: after /\ out_of_range a /\
    Forall (fun p => exists x, literal_of (fst p) (snd p) x) before.

(** [undefined_message tol i m args]: the message [m] to a variable with the value [i] has undefined behaviour. *)
Inductive undefined_message (tol : spec_float) : inst -> bytes -> list bytes -> Prop :=
| und_read i m args l : reads_value i m args l -> undefined_reading l -> undefined_message tol i m args
| und_compare z m a d : In m integer_comparisons -> denotes_int a d -> ~ fits d -> undefined_message tol (IObj (OInt z)) m [a]
| und_arithmetic z o a d : denotes_int a d -> ~ (fits d /\ exists r, exact_result o z d r /\ fits r) ->
    undefined_message tol (IObj (OInt z)) (message_of o) [a]
| und_float_arithmetic z o a neg x zd d res : ~ integer_value a -> denotes_real a neg x -> finite zd -> value zd = IZR z -> double neg x d ->
    ieee o zd d res -> (forall r, ~ truncates_to res r) -> undefined_message tol (IObj (OInt z)) (message_of o) [a]
| und_sort t v : ~ weak_order tol v -> undefined_message tol (IVector t v) (B "sort") []
| und_set t v m a x : In m set_lookups -> literal_of t a x -> ~ usable tol x v -> undefined_message tol (ISet t v) m [a]
| und_dictionary kt vt d m b k : In m dictionary_lookups -> literal_of kt b k -> ~ usable tol k (map fst d) ->
    undefined_message tol (IDict kt vt d) m [b]
| und_associate kt vt d a b x k : literal_of vt a x -> literal_of kt b k -> ~ usable tol k (map fst d) ->
    undefined_message tol (IDict kt vt d) (B "associateValue:withKey:") [a; b].

(** [undefined_statement c a m args]: so has a statement. *)
Inductive undefined_statement (c : context) : bytes -> bytes -> list bytes -> Prop :=
| und_create m n a : with_value m -> variable n -> out_of_range a -> undefined_statement c (B "Integer") m [n; a]
| und_precision a : out_of_range a -> undefined_statement c (B "Context") (B "setFloatPrecision:") [a]
| und_variable n i m args : lookup c n = Some i -> undefined_message (tolerance c) i m args -> undefined_statement c n m args.
