(** Specification for C75: how the answers to two messages to the same variable fit together. *)
From Coq Require Import String List Ascii ZArith.
From Verif Require Import Num Instance Context.
From Verif Require Import Spec_Grammar Spec_State Spec_Names Spec_Text Spec_Number Spec_Order Spec_Vector.
Import ListNotations.
Open Scope list_scope.
Open Scope Z_scope.

(** [fit m1 args1 m2 args2 P]: if the message [m1] with arguments [args1] is answered [a] and then [m2] with [args2] is answered [b], [P a b]. *)
Inductive fit : bytes -> list bytes -> bytes -> list bytes -> (bytes -> bytes -> Prop) -> Prop :=
(* emptiness and size *)
| fit_size : fit (B "isEmpty?") [] (B "size") [] (fun a b => a = B "true" <-> b = B "0")
| fit_length : fit (B "isEmpty?") [] (B "length") [] (fun a b => a = B "true" <-> b = B "0")
| fit_popFront : fit (B "isEmpty?") [] (B "popFront") [] (fun a b => a = B "true" <-> b = B "null")
| fit_popBack : fit (B "isEmpty?") [] (B "popBack") [] (fun a b => a = B "true" <-> b = B "null")
(* booleans *)
| fit_truth : fit (B "isTrue?") [] (B "isFalse?") [] (fun a b => a = B "true" <-> b = B "false")
(* searching: [x] is any argument *)
| fit_count x : fit (B "contains?") [x] (B "count:") [x] (fun a b => a = B "true" <-> b <> B "0")
| fit_firstIndexOf x : fit (B "contains?") [x] (B "firstIndexOf:") [x] (fun a b => a = B "true" <-> b <> B "-1")
| fit_indexes x : fit (B "firstIndexOf:") [x] (B "allIndexesOf:") [x]
    (fun a b => (a = B "-1" /\ b = listing []) \/ (a <> B "-1" /\ exists others, b = listing (a :: others)))
| fit_indexes_count x : fit (B "count:") [x] (B "allIndexesOf:") [x] (fun a b => exists l, b = listing l /\ prints_int (size l) a)
| fit_contains_from x z : index_of z 0 -> fit (B "contains?") [x] (B "contains?fromIndex:") [x; z] (fun a b => a = b)
| fit_firstIndexOf_from x z : index_of z 0 -> fit (B "firstIndexOf:") [x] (B "firstIndexOf:fromIndex:") [x; z] (fun a b => a = b)
(* elements and parts: [k] is any argument *)
| fit_front z : index_of z 0 -> fit (B "atIndex:") [z] (B "popFront") [] (fun a b => a = b)
| fit_at k : fit (B "atIndex:") [k] (B "popAtIndex:") [k] (fun a b => a = b)
| fit_slice z : index_of z 0 -> fit (B "get") [] (B "sliceFromIndex:") [z] (fun a b => a = b)
| fit_slice_to z k : index_of z 0 -> fit (B "first:") [k] (B "sliceFromIndex:toIndex:") [z; k] (fun a b => a = b)
| fit_substring z : index_of z 0 -> fit (B "get") [] (B "substringFromIndex:") [z] (fun a b => a = b)
| fit_substring_to z k : index_of z 0 -> fit (B "first:") [k] (B "substringFromIndex:toIndex:") [z; k] (fun a b => a = b)
| fit_starts u w k : denotes_string u w -> index_of k (size w) -> fit (B "startsWith?") [u] (B "first:") [k] (fun a b => a = B "true" <-> b = printed_string w)
| fit_ends u w k : denotes_string u w -> index_of k (size w) -> fit (B "endsWith?") [u] (B "last:") [k] (fun a b => a = B "true" <-> b = printed_string w)
(* dictionaries *)
| fit_key k : fit (B "containsKey?") [k] (B "getValueForKey:") [k] (fun a b => a = B "true" <-> b <> B "null").

(** [if_then m args m' args']: a variable that answers [m] with [args] also answers [m'] with [args']. *)
Inductive if_then : bytes -> list bytes -> bytes -> list bytes -> Prop :=
| then_isEmpty : if_then (B "size") [] (B "isEmpty?") []
| then_isEmpty_string : if_then (B "length") [] (B "isEmpty?") []
| then_isFalse : if_then (B "isTrue?") [] (B "isFalse?") []
| then_isTrue : if_then (B "isFalse?") [] (B "isTrue?") []
| then_contains x : if_then (B "count:") [x] (B "contains?") [x]
| then_firstIndexOf x : if_then (B "count:") [x] (B "firstIndexOf:") [x]
| then_allIndexesOf x : if_then (B "firstIndexOf:") [x] (B "allIndexesOf:") [x]
| then_count x : if_then (B "allIndexesOf:") [x] (B "count:") [x]
| then_popAtIndex k : if_then (B "atIndex:") [k] (B "popAtIndex:") [k]
| then_atIndex k : if_then (B "popAtIndex:") [k] (B "atIndex:") [k]
| then_getValueForKey k : if_then (B "containsKey?") [k] (B "getValueForKey:") [k]
| then_containsKey k : if_then (B "getValueForKey:") [k] (B "containsKey?") [k].
