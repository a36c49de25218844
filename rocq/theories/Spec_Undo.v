(** Specification for C73: which statement takes back which. *)
From Coq Require Import String List Ascii ZArith.
From Verif Require Import Num Instance Context.
From Verif Require Import Spec_Grammar Spec_State Spec_Names Spec_Text Spec_Number Spec_Float Spec_Order Spec_Vector Spec_String Spec_Set Spec_Object Spec_Local.
Import ListNotations.
Open Scope list_scope.
Open Scope Z_scope.

(** [taken_back tol i m args m' args']: sent to a variable that holds [i], the message [m] with arguments [args] is taken back by the
    message [m'] with arguments [args']. *)
Inductive taken_back (tol : f32) : inst -> bytes -> list bytes -> bytes -> list bytes -> Prop :=
(* any variable with one value: [b] is a literal of the old value *)
| back_set t x a b : has_type t x -> literal_of t b x -> taken_back tol (IObj x) (B "set:") [a] (B "set:") [b]
(* integers, with integer literals *)
| back_add z a : integer_value a -> taken_back tol (IObj (OInt z)) (B "add:") [a] (B "subtract:") [a]
| back_subtract z a : integer_value a -> taken_back tol (IObj (OInt z)) (B "subtract:") [a] (B "add:") [a]
| back_multiply z a d : denotes_int a d -> d <> 0 -> taken_back tol (IObj (OInt z)) (B "multiplyBy:") [a] (B "divideBy:") [a]
(* strings *)
| back_string_pushBack v a : taken_back tol (IObj (OStr v)) (B "pushBack:") [a] (B "popBack") []
| back_string_pushFront v a : taken_back tol (IObj (OStr v)) (B "pushFront:") [a] (B "popFront") []
| back_string_popBack v x : taken_back tol (IObj (OStr (v ++ [x]))) (B "popBack") [] (B "pushBack:") [printed_character x]
| back_string_popFront v x : taken_back tol (IObj (OStr (x :: v))) (B "popFront") [] (B "pushFront:") [printed_character x]
| back_concatenate v a b : index_of b (size v) -> taken_back tol (IObj (OStr v)) (B "concatenate:") [a] (B "eraseFromIndex:") [b]
| back_string_insert v a u k b e : denotes_string a u -> index_of b k -> index_of e (k + size u) ->
    taken_back tol (IObj (OStr v)) (B "insert:beforeIndex:") [a; b] (B "eraseFromIndex:toIndex:") [b; e]
| back_string_erase pre mid post a b u : denotes_string u mid -> index_of a (size pre) -> index_of b (size pre + size mid) ->
    taken_back tol (IObj (OStr (pre ++ mid ++ post))) (B "eraseFromIndex:toIndex:") [a; b] (B "insert:beforeIndex:") [u; a]
(* vectors *)
| back_pushBack t v a : taken_back tol (IVector t v) (B "pushBack:") [a] (B "popBack") []
| back_pushFront t v a : taken_back tol (IVector t v) (B "pushFront:") [a] (B "popFront") []
| back_popBack t v x a : literal_of t a x -> taken_back tol (IVector t (v ++ [x])) (B "popBack") [] (B "pushBack:") [a]
| back_popFront t v x a : literal_of t a x -> taken_back tol (IVector t (x :: v)) (B "popFront") [] (B "pushFront:") [a]
| back_insert t v a b : taken_back tol (IVector t v) (B "insert:beforeIndex:") [a; b] (B "popAtIndex:") [b]
| back_popAtIndex t pre x post a b : literal_of t a x -> index_of b (size pre) ->
    taken_back tol (IVector t (pre ++ x :: post)) (B "popAtIndex:") [b] (B "insert:beforeIndex:") [a; b]
| back_reverse t v : taken_back tol (IVector t v) (B "reverse") [] (B "reverse") []
(* sets: the element was not there, or was there *)
| back_set_add t v a x : literal_of t a x -> Forall (fun y => ~ equals tol y x) v -> taken_back tol (ISet t v) (B "add:") [a] (B "remove:") [a]
| back_set_remove t v a x : literal_of t a x -> In x v -> taken_back tol (ISet t v) (B "remove:") [a] (B "add:") [a]
(* dictionaries: the key was not there, or was there *)
| back_associate kt vt d a b k : literal_of kt b k -> Forall (fun k' => ~ equals tol k' k) (map fst d) ->
    taken_back tol (IDict kt vt d) (B "associateValue:withKey:") [a; b] (B "removeKey:") [b]
| back_reassociate kt vt d a b a' k k' y : literal_of kt b k -> In (k', y) d -> equals tol k' k -> literal_of vt a' y ->
    taken_back tol (IDict kt vt d) (B "associateValue:withKey:") [a; b] (B "associateValue:withKey:") [a'; b]
| back_removeKey kt vt d a b k y : literal_of kt b k -> In (k, y) d -> literal_of vt a y ->
    taken_back tol (IDict kt vt d) (B "removeKey:") [b] (B "associateValue:withKey:") [a; b].

(** [reverted c a m args a' m' args']: on the data [c], the message [m] to [a] is taken back by the message [m'] to [a']. *)
Inductive reverted (c : context) : bytes -> bytes -> list bytes -> bytes -> bytes -> list bytes -> Prop :=
| rev_message n i m args m' args' : lookup c n = Some i -> taken_back (tolerance c) i m args m' args' -> reverted c n m args n m' args'
| rev_create t m args n i : creates t m args n i -> ~ live c n -> reverted c t m args (B "Context") (B "deleteVariable:") [n]
| rev_delete t m args n i : lookup c n = Some i -> creates t m args n i -> reverted c (B "Context") (B "deleteVariable:") [n] t m args
| rev_precision a b : index_of b (float_precision c) -> 0 < float_precision c ->
    reverted c (B "Context") (B "setFloatPrecision:") [a] (B "Context") (B "setFloatPrecision:") [b]
| rev_tolerance a b : literal_of (B "Float") b (OFloat (tolerance c)) -> ~ below_zero (tolerance c) ->
    reverted c (B "Context") (B "setFloatComparisonTolerance:") [a] (B "Context") (B "setFloatComparisonTolerance:") [b].

(** From [c] to [c'] by successful statements, each of which is taken back by the line beside it. *)
Inductive undoable (srt : sorter) (pw : bytes) (s : option session) : context -> list (bytes * bytes) -> context -> Prop :=
| undoable_none c : undoable srt pw s c [] c
| undoable_more c line undo a m args a' m' args' c1 ans rest c' : statement line a m args -> statement undo a' m' args' -> reverted c a m args a' m' args' ->
    runs srt pw c s line c1 s ans -> ~ error_answer ans -> undoable srt pw s c1 rest c' -> undoable srt pw s c ((line, undo) :: rest) c'.
