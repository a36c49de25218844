(** Checked versions of the std::string / std::vector primitives the program uses, and models of std::set, std::map
    and std::sort over a comparator.  Sizes are exact ([int(_value.size())] is modelled without the wrap-around that
    would need 2^31 elements). *)
From Verif Require Import Bytes Outcome.
Open Scope Z_scope.

Definition zlen {A} (l : list A) : Z := Z.of_nat (length l).

(** ** std::string *)
(** [s[i]]; the terminating NUL is readable at [i = size()]. *)
Definition str_at (s : str) (i : Z) : res ascii :=
  if (i <? 0) || (zlen s <? i) then UB OutOfBounds else Ok (nth (Z.to_nat i) s zero).
(** [s.substr(pos, n)]: throws [std::out_of_range] when [pos > size()]; a negative [int] becomes a huge [size_t]. *)
Definition str_substr (s : str) (pos n : Z) : res str :=
  if (pos <? 0) || (zlen s <? pos) then Throw EUnknown
  else if n <? 0 then Ok (skipn (Z.to_nat pos) s)
  else Ok (firstn (Z.to_nat n) (skipn (Z.to_nat pos) s)).
(** [s.substr(pos)] *)
Definition str_substr_from (s : str) (pos : Z) : res str :=
  if (pos <? 0) || (zlen s <? pos) then Throw EUnknown else Ok (skipn (Z.to_nat pos) s).
(** [s.erase(pos)] and [s.erase(pos, n)]: throw [std::out_of_range] when [pos > size()]. *)
Definition str_erase_from (s : str) (pos : Z) : res str :=
  if (pos <? 0) || (zlen s <? pos) then Throw EUnknown else Ok (firstn (Z.to_nat pos) s).
Definition str_erase (s : str) (pos n : Z) : res str :=
  if (pos <? 0) || (zlen s <? pos) then Throw EUnknown
  else if n <? 0 then Ok (firstn (Z.to_nat pos) s)
  else Ok ((firstn (Z.to_nat pos) s ++ skipn (Z.to_nat pos + Z.to_nat n) s)%list).
(** [s.insert(pos, t)]: throws [std::out_of_range] when [pos > size()]. *)
Definition str_insert (s : str) (pos : Z) (t : str) : res str :=
  if (pos <? 0) || (zlen s <? pos) then Throw EUnknown
  else Ok ((firstn (Z.to_nat pos) s ++ t ++ skipn (Z.to_nat pos) s)%list).

(** [operator<] on [std::string]: [char_traits<char>::compare], i.e. byte-wise as [unsigned char]. *)
Fixpoint str_ltb (a b : str) : bool :=
  match a, b with
  | _, [] => false
  | [], _ :: _ => true
  | x :: a', y :: b' => if (uchar x <? uchar y)%N then true else if (uchar y <? uchar x)%N then false else str_ltb a' b'
  end.

(** ** Sequences (std::vector, and the iterator form of std::string::erase) *)
(** [v[i]] *)
Definition vec_at {A} (v : list A) (i : Z) : res A :=
  if i <? 0 then UB OutOfBounds
  else match nth_error v (Z.to_nat i) with Some x => Ok x | None => UB OutOfBounds end.
(** [v[i] = x] *)
Definition vec_set {A} (v : list A) (i : Z) (x : A) : res (list A) :=
  if (i <? 0) || (zlen v <=? i) then UB OutOfBounds
  else Ok ((firstn (Z.to_nat i) v ++ x :: skipn (S (Z.to_nat i)) v)%list).
(** the range [begin()+from, begin()+to) *)
Definition vec_range {A} (v : list A) (from to : Z) : res (list A) :=
  if (from <? 0) || (to <? from) || (zlen v <? to) then UB OutOfBounds
  else Ok (firstn (Z.to_nat to - Z.to_nat from) (skipn (Z.to_nat from) v)).
(** [v.erase(begin()+i)] *)
Definition vec_erase_at {A} (v : list A) (i : Z) : res (list A) :=
  if (i <? 0) || (zlen v <=? i) then UB OutOfBounds
  else Ok ((firstn (Z.to_nat i) v ++ skipn (S (Z.to_nat i)) v)%list).
(** [v.erase(begin()+from, begin()+to)] *)
Definition vec_erase_range {A} (v : list A) (from to : Z) : res (list A) :=
  if (from <? 0) || (to <? from) || (zlen v <? to) then UB OutOfBounds
  else Ok ((firstn (Z.to_nat from) v ++ skipn (Z.to_nat to) v)%list).
(** [v.insert(begin()+i, x)] *)
Definition vec_insert {A} (v : list A) (i : Z) (x : A) : res (list A) :=
  if (i <? 0) || (zlen v <? i) then UB OutOfBounds
  else Ok ((firstn (Z.to_nat i) v ++ x :: skipn (Z.to_nat i) v)%list).
(** [v.pop_back()] *)
Definition vec_pop_back {A} (v : list A) : res (list A) :=
  match v with [] => UB OutOfBounds | _ => Ok (removelast v) end.

(** ** Comparator-based containers.

    The comparator may be undefined on a pair (the program's one throws on values of different types), so it is a
    function to [option bool]. std::sort, std::set and std::map require it to be a strict weak order on the values
    involved; when it is not, the behaviour is undefined. *)
Section Ordered.
  Context {A : Type} (lt : A -> A -> option bool).

  Definition ltb (a b : A) : bool := match lt a b with Some b => b | None => false end.
  Definition incomparable (a b : A) : bool := negb (ltb a b) && negb (ltb b a).
  Definition defined_on (l : list A) : bool :=
    forallb (fun a => forallb (fun b => match lt a b with Some _ => true | None => false end) l) l.

  (** Strict weak order on the values of [l] (C++ [alg.sorting]). *)
  Definition strict_weak_order_on (l : list A) : bool :=
    defined_on l &&
    forallb (fun a => negb (ltb a a)) l &&
    forallb (fun a => forallb (fun b => forallb (fun c =>
      implb (ltb a b && ltb b c) (ltb a c) && implb (incomparable a b && incomparable b c) (incomparable a c)) l) l) l.

  (** Strictly increasing. *)
  Fixpoint strictly_sorted (l : list A) : bool :=
    match l with
    | [] => true
    | a :: r => forallb (ltb a) r && strictly_sorted r
    end.

  (** Precondition of every search/insert/erase in a std::set / std::map with contents [l] and argument [k]: the
      comparator is a strict weak order on the values, and the contents are in order under it (the tree invariant; it
      can be broken by changing the comparator's global tolerance after insertion). *)
  Definition tree_ok (k : A) (l : list A) : bool := strict_weak_order_on (k :: l) && strictly_sorted l.

  (** std::set: contents in order. *)
  Definition set_find (l : list A) (k : A) : res (option A) :=
    if tree_ok k l then Ok (find (fun x => incomparable x k) l) else UB BadOrder.
  Fixpoint insert_sorted (l : list A) (k : A) : list A :=
    match l with
    | [] => [k]
    | x :: r => if ltb x k then x :: insert_sorted r k
                else if ltb k x then k :: l else l        (* equivalent element present: no insertion *)
    end.
  Definition set_insert (l : list A) (k : A) : res (list A) :=
    if tree_ok k l then Ok (insert_sorted l k) else UB BadOrder.
  Definition set_erase (l : list A) (k : A) : res (list A) :=
    if tree_ok k l then Ok (filter (fun x => negb (incomparable x k)) l) else UB BadOrder.

  (** std::map: key/value pairs in key order. *)
  Context {V : Type}.
  Definition map_find (l : list (A * V)) (k : A) : res (option (A * V)) :=
    if tree_ok k (map fst l) then Ok (find (fun p => incomparable (fst p) k) l) else UB BadOrder.
  (** [m[k] = v]: an equivalent key keeps its key object and gets the new value. *)
  Fixpoint assign_sorted (l : list (A * V)) (k : A) (v : V) : list (A * V) :=
    match l with
    | [] => [(k, v)]
    | (x, w) :: r => if ltb x k then (x, w) :: assign_sorted r k v
                     else if ltb k x then (k, v) :: l else (x, v) :: r
    end.
  Definition map_assign (l : list (A * V)) (k : A) (v : V) : res (list (A * V)) :=
    if tree_ok k (map fst l) then Ok (assign_sorted l k v) else UB BadOrder.
  Definition map_erase (l : list (A * V)) (k : A) : res (list (A * V)) :=
    if tree_ok k (map fst l) then Ok (filter (fun p => negb (incomparable (fst p) k)) l) else UB BadOrder.
End Ordered.

(** ** std::map<std::string, ...> and std::set<std::string>: [operator<] on strings is a total order, so these have no
    undefined behaviour; contents in key order. *)
Fixpoint smap_find {V} (l : list (str * V)) (k : str) : option V :=
  match l with
  | [] => None
  | (x, v) :: r => if seq_eqb x k then Some v else smap_find r k
  end.
(** [m[k] = v] *)
Fixpoint smap_assign {V} (l : list (str * V)) (k : str) (v : V) : list (str * V) :=
  match l with
  | [] => [(k, v)]
  | (x, w) :: r => if str_ltb x k then (x, w) :: smap_assign r k v
                   else if str_ltb k x then (k, v) :: l else (x, v) :: r
  end.
(** [set.insert(k)] *)
Fixpoint sset_insert (l : list str) (k : str) : list str :=
  match l with
  | [] => [k]
  | x :: r => if str_ltb x k then x :: sset_insert r k
              else if str_ltb k x then k :: l else l
  end.
