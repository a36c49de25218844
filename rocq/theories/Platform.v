(** One concrete implementation of [std::sort] meeting the ISO contract, used by the unit tests and to show that the
    contract assumed by the sorting theorems is satisfiable.  The model itself never depends on it: every definition
    takes the sorter as a parameter. *)
From Verif Require Import Bytes Containers Instance Context.

Fixpoint insert_by (lt : obj -> obj -> bool) (x : obj) (l : list obj) : list obj :=
  match l with
  | [] => [x]
  | y :: r => if lt x y then x :: l else y :: insert_by lt x r
  end.
Definition insertion_sort : sorter := fun lt l => fold_left (fun acc x => insert_by (ltb lt) x acc) l [].
