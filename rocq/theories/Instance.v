(** Model of src/instance.cpp and src/instance.h. *)
From Verif Require Import Bytes StrUtils Grammar Outcome Num Containers.
Open Scope Z_scope.

(** The five object classes of src/instance.h (Boolean, Character, Integer, Float, String), by their [_value].  The
    [_name] attribute is only used as the key of Context::_instances and is kept there. *)
Inductive obj :=
| OBool (b : bool) | OChar (c : ascii) | OInt (z : Z) | OFloat (f : f32) | OStr (s : str).

(** All instances; containers carry their element-type strings (src/instance.h:258-359). *)
Inductive inst :=
| IObj (o : obj)
| IVector (element_type : str) (v : list obj)
| ISet (element_type : str) (v : list obj)
| IDict (key_type value_type : str) (v : list (obj * obj)).

(** What instances read from the Context singleton (src/context.cpp:59-76), plus the implementation of [std::sort]
    (an unspecified function; see [sort_contract] in Spec). *)
Record env := {
  e_precision : Z;
  e_tolerance : f32;
  e_sort : (obj -> obj -> option bool) -> list obj -> list obj
}.

(** src/instance.cpp:75-77 [type()] of an object. *)
Definition obj_type (o : obj) : str :=
  match o with
  | OBool _ => $"Boolean" | OChar _ => $"Character" | OInt _ => $"Integer" | OFloat _ => $"Float" | OStr _ => $"String"
  end.

Definition btext (b : bool) : str := if b then $"true" else $"false".
Definition null : str := $"null".
Definition quoted (s : str) : str := ([c_quote] ++ escape s c_quote ++ [c_quote])%list.
Definition apos (c : ascii) : str := [c_apos; c; c_apos].

(** [representation()]: src/instance.cpp:187-189 (Boolean), 259-261 (Character), 409-411 (Integer), 585-589 (Float),
    750-752 (String). *)
Definition obj_repr (E : env) (o : obj) : str :=
  match o with
  | OBool b => btext b
  | OChar c => apos c
  | OInt z => to_string z
  | OFloat f => fixed_repr (e_precision E) f
  | OStr s => quoted s
  end.

(** The text loop shared by src/instance.cpp:57-65, 1486-1494, 1583-1591: elements separated by commas. *)
Fixpoint comma_loop (first : bool) (l : list str) : str :=
  match l with
  | [] => []
  | x :: r => ((if first then [] else [c_comma]) ++ x ++ comma_loop false r)%list
  end.
Definition comma_sep (l : list str) : str := comma_loop true l.
(** src/instance.cpp:57-65 *)
Definition vector_representation (E : env) (v : list obj) : str :=
  ($"[" ++ comma_sep (map (obj_repr E) v) ++ $"]")%list.
(** src/instance.cpp:1486-1494 *)
Definition set_representation (E : env) (v : list obj) : str :=
  ($"{" ++ comma_sep (map (obj_repr E) v) ++ $"}")%list.
(** src/instance.cpp:1583-1591 *)
Definition dict_representation (E : env) (v : list (obj * obj)) : str :=
  ($"(" ++ comma_sep (map (fun p => $"(" ++ obj_repr E (fst p) ++ $"," ++ obj_repr E (snd p) ++ $")")%list v) ++ $")")%list.

(** ** Comparators *)
(** [a - b < -eps] and [a - b > eps] on floats. *)
Definition float_less (eps a b : f32) : bool := f_lt (f_sub a b) (f_opp eps).
Definition float_greater (eps a b : f32) : bool := f_lt eps (f_sub a b).

(** src/instance.cpp:92-115.  [operator<] on [char] is on signed values, on [bool] is false < true. *)
Definition is_less_than (eps : f32) (lhs rhs : obj) : res bool :=
  match lhs, rhs with
  | OBool a, OBool b => Ok (negb a && b)
  | OChar a, OChar b => Ok (schar a <? schar b)
  | OInt a, OInt b => Ok (a <? b)
  | OInt a, OFloat b => Ok (float_less eps (int_to_float a) b)
  | OFloat a, OFloat b => Ok (float_less eps a b)
  | OFloat a, OInt b => Ok (float_less eps a (int_to_float b))
  | OStr a, OStr b => Ok (str_ltb a b)
  | _, _ => Throw InvalidComparison
  end.
(** src/instance.cpp:126-149 *)
Definition is_greater_than (eps : f32) (lhs rhs : obj) : res bool :=
  match lhs, rhs with
  | OBool a, OBool b => Ok (negb b && a)
  | OChar a, OChar b => Ok (schar b <? schar a)
  | OInt a, OInt b => Ok (b <? a)
  | OInt a, OFloat b => Ok (float_greater eps (int_to_float a) b)
  | OFloat a, OFloat b => Ok (float_greater eps a b)
  | OFloat a, OInt b => Ok (float_greater eps a (int_to_float b))
  | OStr a, OStr b => Ok (str_ltb b a)
  | _, _ => Throw InvalidComparison
  end.
(** src/instance.cpp:85-88 *)
Definition is_equal_to (eps : f32) (lhs rhs : obj) : res bool :=
  let! l := is_less_than eps lhs rhs in
  if negb l then let! g := is_greater_than eps lhs rhs in Ok (negb g) else Ok false.
(** src/instance.cpp:119-122 *)
Definition is_less_than_or_equal_to (eps : f32) (lhs rhs : obj) : res bool :=
  let! l := is_less_than eps lhs rhs in if l then Ok true else is_equal_to eps lhs rhs.
(** src/instance.cpp:153-156 *)
Definition is_greater_than_or_equal_to (eps : f32) (lhs rhs : obj) : res bool :=
  let! g := is_greater_than eps lhs rhs in if g then Ok true else is_equal_to eps lhs rhs.

(** The comparator of std::set / std::map / std::sort, as the containers see it. *)
Definition less_opt (eps : f32) (a b : obj) : option bool :=
  match is_less_than eps a b with Ok b => Some b | _ => None end.

(** ** Constructors from a literal *)
(** src/instance.cpp:160-164 *)
Definition boolean_of (v : str) : res bool :=
  if negb (is_boolean_value v) then Throw InvalidArgument else Ok (seq_eqb v $"true").
(** src/instance.cpp:232-236; [value[1]] is checked. *)
Definition character_of (v : str) : res ascii :=
  if negb (is_character_value v) then Throw InvalidArgument else str_at v 1.
(** src/instance.cpp:384: the conditional expression has type [double]; its [int] branch is converted. *)
Definition number_of (v : str) : res f64 :=
  if is_integer_value v then let! z := atoi v in Ok (int_to_double z) else Ok (atof v).
(** src/instance.cpp:381-385 *)
Definition integer_of (v : str) : res Z :=
  if negb (is_integer_value v) && negb (is_float_value v) then Throw InvalidArgument
  else let! d := number_of v in double_to_int d.
(** src/instance.cpp:558-562 *)
Definition float_of (v : str) : res f32 :=
  if negb (is_float_value v) then Throw InvalidArgument else Ok (to_float (atof v)).
(** src/instance.cpp:718: [unescape] of [value.substr(1, int(value.size()) - 2)] for the double quote. *)
Definition unquote (v : str) : res str :=
  let! inner := str_substr v 1 (zlen v - 2) in Ok (unescape inner c_quote).
(** src/instance.cpp:715-719 *)
Definition string_of (v : str) : res str :=
  if negb (is_string_value v) then Throw InvalidArgument else unquote v.

(** src/instance.cpp:42-55.  For a type that is none of the five the C++ function returns a null pointer, which its
    callers store or dereference; modelled as immediate undefined behaviour (unreachable: C28). *)
Definition get_shared_instance (type value : str) : res obj :=
  if seq_eqb type $"Boolean" then let! b := boolean_of value in Ok (OBool b)
  else if seq_eqb type $"Character" then let! c := character_of value in Ok (OChar c)
  else if seq_eqb type $"Integer" then let! z := integer_of value in Ok (OInt z)
  else if seq_eqb type $"Float" then let! f := float_of value in Ok (OFloat f)
  else if seq_eqb type $"String" then let! s := string_of value in Ok (OStr s)
  else UB NullDeref.

(** ** Message dispatch and argument access *)
(** [arguments[i]], checked. *)
Definition arg {S} (args : list str) (i : nat) : M S str :=
  match nth_error args i with Some a => ret a | None => undefined OutOfBounds end.
(** [if (arguments.size() != n) throw EXC_WRONG_NUMBER_OF_ARGUMENTS;] *)
Definition check_nargs {S} (args : list str) (n : nat) : M S unit :=
  throw_if (negb (length args =? n)%nat) WrongNumberOfArguments.

(** The chain of [if (message_name == "...") return op_...(arguments);] ended by [throw EXC_INVALID_MESSAGE]. *)
Fixpoint dispatch {S} (table : list (str * (list str -> M S str))) (message : str) (args : list str) : M S str :=
  match table with
  | [] => throw InvalidMessage
  | (name, op) :: r => if seq_eqb message name then op args else dispatch r message args
  end.

(** ** Constructors from a creation message: the result is (name, initial instance). *)
Definition creation := (str * inst)%type.
Definition is_create_with (m : str) : bool := seq_eqb m $"create:withValue:" || seq_eqb m $"createIfNotExists:withValue:".
Definition is_create (m : str) : bool := seq_eqb m $"create:" || seq_eqb m $"createIfNotExists:".

(** src/instance.cpp:166-178 *)
Definition boolean_create {S} (m : str) (args : list str) : M S creation :=
  if is_create_with m then
    check_nargs args 2 ;;;
    a0 <- arg args 0 ;; a1 <- arg args 1 ;;
    throw_if (negb (is_variable a0) || negb (is_boolean_value a1)) InvalidArgument ;;;
    ret (a0, IObj (OBool (seq_eqb a1 $"true")))
  else throw InvalidMessage.
(** src/instance.cpp:238-250 *)
Definition character_create {S} (m : str) (args : list str) : M S creation :=
  if is_create_with m then
    check_nargs args 2 ;;;
    a0 <- arg args 0 ;; a1 <- arg args 1 ;;
    throw_if (negb (is_variable a0) || negb (is_character_value a1)) InvalidArgument ;;;
    c <- lift (str_at a1 1) ;;
    ret (a0, IObj (OChar c))
  else throw InvalidMessage.
(** src/instance.cpp:387-400 *)
Definition integer_create {S} (m : str) (args : list str) : M S creation :=
  if is_create_with m then
    check_nargs args 2 ;;;
    a0 <- arg args 0 ;; a1 <- arg args 1 ;;
    throw_if (negb (is_variable a0) || (negb (is_integer_value a1) && negb (is_float_value a1))) InvalidArgument ;;;
    z <- lift (let! d := number_of a1 in double_to_int d) ;;
    ret (a0, IObj (OInt z))
  else throw InvalidMessage.
(** src/instance.cpp:564-576 *)
Definition float_create {S} (m : str) (args : list str) : M S creation :=
  if is_create_with m then
    check_nargs args 2 ;;;
    a0 <- arg args 0 ;; a1 <- arg args 1 ;;
    throw_if (negb (is_variable a0) || negb (is_float_value a1)) InvalidArgument ;;;
    ret (a0, IObj (OFloat (to_float (atof a1))))
  else throw InvalidMessage.
(** src/instance.cpp:721-741 *)
Definition string_create {S} (m : str) (args : list str) : M S creation :=
  if is_create m then
    check_nargs args 1 ;;;
    a0 <- arg args 0 ;;
    throw_if (negb (is_variable a0)) InvalidArgument ;;;
    ret (a0, IObj (OStr []))
  else if is_create_with m then
    check_nargs args 2 ;;;
    a0 <- arg args 0 ;; a1 <- arg args 1 ;;
    throw_if (negb (is_variable a0) || negb (is_string_value a1)) InvalidArgument ;;;
    s <- lift (unquote a1) ;;
    ret (a0, IObj (OStr s))
  else throw InvalidMessage.
(** src/instance.cpp:1055-1068 (Vector), 1469-1482 (Set), 1564-1580 (Dictionary): same text, different empty value. *)
Definition container_create {S} (empty : inst) (m : str) (args : list str) : M S creation :=
  if is_create m then
    check_nargs args 1 ;;;
    a0 <- arg args 0 ;;
    throw_if (negb (is_variable a0)) InvalidArgument ;;;
    ret (a0, empty)
  else throw InvalidMessage.

(** ** BooleanInstance, src/instance.cpp:187-228; the state is [_value]. *)
(** src/instance.cpp:203-207 *)
Definition boolean_get (args : list str) : M bool str := check_nargs args 0 ;;; v <- get ;; ret (btext v).
(** src/instance.cpp:209-216 *)
Definition boolean_set (args : list str) : M bool str :=
  check_nargs args 1 ;;; a <- arg args 0 ;;
  throw_if (negb (is_boolean_value a)) InvalidArgument ;;;
  put (seq_eqb a $"true") ;;; ret null.
(** src/instance.cpp:218-222 *)
Definition boolean_isTrue (args : list str) : M bool str := check_nargs args 0 ;;; v <- get ;; ret (btext v).
(** src/instance.cpp:224-228 *)
Definition boolean_isFalse (args : list str) : M bool str := check_nargs args 0 ;;; v <- get ;; ret (btext (negb v)).
(** src/instance.cpp:191-201 *)
Definition boolean_receive : str -> list str -> M bool str :=
  dispatch [($"get", boolean_get); ($"set:", boolean_set); ($"isTrue?", boolean_isTrue); ($"isFalse?", boolean_isFalse)].

(** ** CharacterInstance, src/instance.cpp:259-373 *)
(** src/instance.cpp:289-293 *)
Definition character_get (args : list str) : M ascii str := check_nargs args 0 ;;; c <- get ;; ret (apos c).
(** src/instance.cpp:295-302 *)
Definition character_set (args : list str) : M ascii str :=
  check_nargs args 1 ;;; a <- arg args 0 ;;
  throw_if (negb (is_character_value a)) InvalidArgument ;;;
  c <- lift (str_at a 1) ;; put c ;;; ret null.
(** src/instance.cpp:304-326: isAlphabetic?, isNumeric?, isAlphanumeric?, isSpace? *)
Definition character_test (p : ascii -> bool) (args : list str) : M ascii str :=
  check_nargs args 0 ;;; c <- get ;; ret (btext (p c)).
(** src/instance.cpp:328-373: the five comparisons, each through its comparator. *)
Definition character_compare (cmp : obj -> obj -> res bool) (args : list str) : M ascii str :=
  check_nargs args 1 ;;; a <- arg args 0 ;;
  throw_if (negb (is_character_value a)) InvalidArgument ;;;
  c <- get ;; b <- lift (let! o := character_of a in cmp (OChar c) (OChar o)) ;; ret (btext b).
(** src/instance.cpp:263-287 *)
Definition character_receive (E : env) : str -> list str -> M ascii str :=
  let eps := e_tolerance E in
  dispatch [($"get", character_get); ($"set:", character_set);
            ($"isAlphabetic?", character_test is_alpha); ($"isNumeric?", character_test is_numeric);
            ($"isAlphanumeric?", character_test is_alphanumeric); ($"isSpace?", character_test is_space);
            ($"isEqualTo?", character_compare (is_equal_to eps));
            ($"isLessThan?", character_compare (is_less_than eps));
            ($"isLessThanOrEqualTo?", character_compare (is_less_than_or_equal_to eps));
            ($"isGreaterThan?", character_compare (is_greater_than eps));
            ($"isGreaterThanOrEqualTo?", character_compare (is_greater_than_or_equal_to eps))].

(** ** IntegerInstance, src/instance.cpp:409-550 *)
(** src/instance.cpp:439-443 *)
Definition integer_get (args : list str) : M Z str := check_nargs args 0 ;;; z <- get ;; ret (to_string z).
(** src/instance.cpp:445-452 *)
Definition integer_set (args : list str) : M Z str :=
  check_nargs args 1 ;;; a <- arg args 0 ;;
  throw_if (negb (is_integer_value a) && negb (is_float_value a)) InvalidArgument ;;;
  z <- lift (let! d := number_of a in double_to_int d) ;; put z ;;; ret null.
(** src/instance.cpp:454-514: an integer literal is compared as an Integer, any other float literal as a Float. *)
Definition integer_compare (cmp : obj -> obj -> res bool) (args : list str) : M Z str :=
  check_nargs args 1 ;;; a <- arg args 0 ;;
  throw_if (negb (is_integer_value a) && negb (is_float_value a)) InvalidArgument ;;;
  z <- get ;;
  b <- lift (if is_integer_value a then let! o := integer_of a in cmp (OInt z) (OInt o)
             else let! o := float_of a in cmp (OInt z) (OFloat o)) ;;
  ret (btext b).
(** src/instance.cpp:516-550: [_value op= (cond ? atoi : atof)], computed in [double] and converted back to [int]. *)
Definition integer_arith (op : f64 -> f64 -> f64) (args : list str) : M Z str :=
  check_nargs args 1 ;;; a <- arg args 0 ;;
  throw_if (negb (is_integer_value a) && negb (is_float_value a)) InvalidArgument ;;;
  z <- get ;;
  r <- lift (let! d := number_of a in double_to_int (op (int_to_double z) d)) ;; put r ;;; ret null.
(** src/instance.cpp:413-437 *)
Definition integer_receive (E : env) : str -> list str -> M Z str :=
  let eps := e_tolerance E in
  dispatch [($"get", integer_get); ($"set:", integer_set);
            ($"isEqualTo?", integer_compare (is_equal_to eps));
            ($"isLessThan?", integer_compare (is_less_than eps));
            ($"isLessThanOrEqualTo?", integer_compare (is_less_than_or_equal_to eps));
            ($"isGreaterThan?", integer_compare (is_greater_than eps));
            ($"isGreaterThanOrEqualTo?", integer_compare (is_greater_than_or_equal_to eps));
            ($"add:", integer_arith d_add); ($"subtract:", integer_arith d_sub);
            ($"multiplyBy:", integer_arith d_mul); ($"divideBy:", integer_arith d_div)].

(** ** FloatInstance, src/instance.cpp:585-711 *)
(** src/instance.cpp:617-621 *)
Definition float_get (E : env) (args : list str) : M f32 str :=
  check_nargs args 0 ;;; f <- get ;; ret (fixed_repr (e_precision E) f).
(** src/instance.cpp:623-630 *)
Definition float_set (args : list str) : M f32 str :=
  check_nargs args 1 ;;; a <- arg args 0 ;;
  throw_if (negb (is_float_value a)) InvalidArgument ;;;
  put (to_float (atof a)) ;;; ret null.
(** src/instance.cpp:632-675 *)
Definition float_compare (cmp : obj -> obj -> res bool) (args : list str) : M f32 str :=
  check_nargs args 1 ;;; a <- arg args 0 ;;
  throw_if (negb (is_float_value a)) InvalidArgument ;;;
  f <- get ;; b <- lift (let! o := float_of a in cmp (OFloat f) (OFloat o)) ;; ret (btext b).
(** src/instance.cpp:677-711: [_value op= atof(...)] computed in [double], rounded back to [float]. *)
Definition float_arith (op : f64 -> f64 -> f64) (args : list str) : M f32 str :=
  check_nargs args 1 ;;; a <- arg args 0 ;;
  throw_if (negb (is_float_value a)) InvalidArgument ;;;
  f <- get ;; put (to_float (op (to_double f) (atof a))) ;;; ret null.
(** src/instance.cpp:591-615 *)
Definition float_receive (E : env) : str -> list str -> M f32 str :=
  let eps := e_tolerance E in
  dispatch [($"get", float_get E); ($"set:", float_set);
            ($"isEqualTo?", float_compare (is_equal_to eps));
            ($"isLessThan?", float_compare (is_less_than eps));
            ($"isLessThanOrEqualTo?", float_compare (is_less_than_or_equal_to eps));
            ($"isGreaterThan?", float_compare (is_greater_than eps));
            ($"isGreaterThanOrEqualTo?", float_compare (is_greater_than_or_equal_to eps));
            ($"add:", float_arith d_add); ($"subtract:", float_arith d_sub);
            ($"multiplyBy:", float_arith d_mul); ($"divideBy:", float_arith d_div)].

(** ** StringInstance, src/instance.cpp:754-1051 *)
(** src/instance.cpp:810-814 *)
Definition string_get (args : list str) : M str str := check_nargs args 0 ;;; s <- get ;; ret (quoted s).
(** src/instance.cpp:816-823 *)
Definition string_set (args : list str) : M str str :=
  check_nargs args 1 ;;; a <- arg args 0 ;;
  throw_if (negb (is_string_value a)) InvalidArgument ;;;
  v <- lift (unquote a) ;; put v ;;; ret null.
(** src/instance.cpp:825-829 *)
Definition string_isEmpty (args : list str) : M str str :=
  check_nargs args 0 ;;; s <- get ;; ret (btext (zlen s =? 0)).
(** src/instance.cpp:831-845: startsWith?, endsWith? *)
Definition string_affix (p : str -> str -> bool) (args : list str) : M str str :=
  check_nargs args 1 ;;; a <- arg args 0 ;;
  throw_if (negb (is_string_value a)) InvalidArgument ;;;
  s <- get ;; v <- lift (string_of a) ;; ret (btext (p s v)).
(** src/instance.cpp:847-891 *)
Definition string_compare (cmp : obj -> obj -> res bool) (args : list str) : M str str :=
  check_nargs args 1 ;;; a <- arg args 0 ;;
  throw_if (negb (is_string_value a)) InvalidArgument ;;;
  s <- get ;; b <- lift (let! o := string_of a in cmp (OStr s) (OStr o)) ;; ret (btext b).
(** src/instance.cpp:893-897 *)
Definition string_length (args : list str) : M str str := check_nargs args 0 ;;; s <- get ;; ret (to_string (zlen s)).
(** src/instance.cpp:899-906 *)
Definition string_atIndex (args : list str) : M str str :=
  check_nargs args 1 ;;; a <- arg args 0 ;; index <- lift (integer_of a) ;; s <- get ;;
  throw_if ((index <? 0) || (zlen s <=? index)) InvalidArgument ;;;
  c <- lift (str_at s index) ;; ret (apos c).
(** src/instance.cpp:908-916 *)
Definition string_first (args : list str) : M str str :=
  check_nargs args 1 ;;; a <- arg args 0 ;; n <- lift (integer_of a) ;;
  throw_if (n <? 0) InvalidArgument ;;;
  s <- get ;; let n := Z.min n (zlen s) in
  r <- lift (str_substr s 0 n) ;; ret (quoted r).
(** src/instance.cpp:918-926 *)
Definition string_last (args : list str) : M str str :=
  check_nargs args 1 ;;; a <- arg args 0 ;; n <- lift (integer_of a) ;;
  throw_if (n <? 0) InvalidArgument ;;;
  s <- get ;; let n := Z.min n (zlen s) in
  r <- lift (str_substr_from s (zlen s - n)) ;; ret (quoted r).
(** src/instance.cpp:928-935 *)
Definition string_substringFromIndex (args : list str) : M str str :=
  check_nargs args 1 ;;; a <- arg args 0 ;; from <- lift (integer_of a) ;; s <- get ;;
  throw_if ((from <? 0) || (zlen s <? from)) InvalidArgument ;;;
  r <- lift (str_substr_from s from) ;; ret (quoted r).
(** src/instance.cpp:937-949 *)
Definition string_substringFromIndex_toIndex (args : list str) : M str str :=
  check_nargs args 2 ;;; a <- arg args 0 ;; from <- lift (integer_of a) ;;
  b <- arg args 1 ;; to <- lift (integer_of b) ;; s <- get ;;
  throw_if ((from <? 0) || (zlen s <? from)) InvalidArgument ;;;
  throw_if ((to <? 0) || (zlen s <? to)) InvalidArgument ;;;
  throw_if (to - from <? 0) InvalidArgument ;;;
  r <- lift (str_substr s from (to - from)) ;; ret (quoted r).
(** src/instance.cpp:951-958 *)
Definition string_pushBack (args : list str) : M str str :=
  check_nargs args 1 ;;; a <- arg args 0 ;;
  throw_if (negb (is_character_value a)) InvalidArgument ;;;
  c <- lift (str_at a 1) ;; s <- get ;; put (s ++ s1 c)%list ;;; ret null.
(** src/instance.cpp:960-967 *)
Definition string_pushFront (args : list str) : M str str :=
  check_nargs args 1 ;;; a <- arg args 0 ;;
  throw_if (negb (is_character_value a)) InvalidArgument ;;;
  c <- lift (str_at a 1) ;; s <- get ;; put (s1 c ++ s)%list ;;; ret null.
(** src/instance.cpp:969-977 *)
Definition string_popBack (args : list str) : M str str :=
  check_nargs args 0 ;;; s <- get ;;
  if zlen s =? 0 then ret null
  else c <- lift (str_at s (zlen s - 1)) ;; r <- lift (str_substr s 0 (zlen s - 1)) ;; put r ;;; ret (apos c).
(** src/instance.cpp:979-987 *)
Definition string_popFront (args : list str) : M str str :=
  check_nargs args 0 ;;; s <- get ;;
  if zlen s =? 0 then ret null
  else c <- lift (str_at s 0) ;; r <- lift (str_substr s 1 (zlen s - 1)) ;; put r ;;; ret (apos c).
(** src/instance.cpp:989-998 *)
Definition string_popAtIndex (args : list str) : M str str :=
  check_nargs args 1 ;;; a <- arg args 0 ;; index <- lift (integer_of a) ;; s <- get ;;
  throw_if ((index <? 0) || (zlen s <=? index)) InvalidArgument ;;;
  c <- lift (str_at s index) ;; r <- lift (vec_erase_at s index) ;; put r ;;; ret (apos c).
(** src/instance.cpp:1000-1007 *)
Definition string_concatenate (args : list str) : M str str :=
  check_nargs args 1 ;;; a <- arg args 0 ;;
  throw_if (negb (is_string_value a)) InvalidArgument ;;;
  v <- lift (string_of a) ;; s <- get ;; put (s ++ v)%list ;;; ret null.
(** src/instance.cpp:1009-1019 *)
Definition string_insert_beforeIndex (args : list str) : M str str :=
  check_nargs args 2 ;;; a <- arg args 0 ;;
  throw_if (negb (is_string_value a)) InvalidArgument ;;;
  b <- arg args 1 ;; index <- lift (integer_of b) ;; s <- get ;;
  throw_if ((index <? 0) || (zlen s <? index)) InvalidArgument ;;;
  v <- lift (string_of a) ;; r <- lift (str_insert s index v) ;; put r ;;; ret null.
(** src/instance.cpp:1021-1029 *)
Definition string_eraseFromIndex (args : list str) : M str str :=
  check_nargs args 1 ;;; a <- arg args 0 ;; from <- lift (integer_of a) ;; s <- get ;;
  throw_if ((from <? 0) || (zlen s <? from)) InvalidArgument ;;;
  r <- lift (str_erase_from s from) ;; put r ;;; ret null.
(** src/instance.cpp:1031-1044 *)
Definition string_eraseFromIndex_toIndex (args : list str) : M str str :=
  check_nargs args 2 ;;; a <- arg args 0 ;; from <- lift (integer_of a) ;;
  b <- arg args 1 ;; to <- lift (integer_of b) ;; s <- get ;;
  throw_if ((from <? 0) || (zlen s <? from)) InvalidArgument ;;;
  throw_if ((to <? 0) || (zlen s <? to)) InvalidArgument ;;;
  throw_if (to - from <? 0) InvalidArgument ;;;
  r <- lift (str_erase s from (to - from)) ;; put r ;;; ret null.
(** src/instance.cpp:1046-1051 *)
Definition string_clear (args : list str) : M str str := check_nargs args 0 ;;; put [] ;;; ret null.
(** src/instance.cpp:754-808 *)
Definition string_receive (E : env) : str -> list str -> M str str :=
  let eps := e_tolerance E in
  dispatch [($"get", string_get); ($"set:", string_set); ($"isEmpty?", string_isEmpty);
            ($"startsWith?", string_affix starts_with); ($"endsWith?", string_affix ends_with);
            ($"isLexicographicallyEqualTo?", string_compare (is_equal_to eps));
            ($"isLexicographicallyLessThan?", string_compare (is_less_than eps));
            ($"isLexicographicallyLessThanOrEqualTo?", string_compare (is_less_than_or_equal_to eps));
            ($"isLexicographicallyGreaterThan?", string_compare (is_greater_than eps));
            ($"isLexicographicallyGreaterThanOrEqualTo?", string_compare (is_greater_than_or_equal_to eps));
            ($"length", string_length); ($"atIndex:", string_atIndex);
            ($"first:", string_first); ($"last:", string_last);
            ($"substringFromIndex:", string_substringFromIndex);
            ($"substringFromIndex:toIndex:", string_substringFromIndex_toIndex);
            ($"pushBack:", string_pushBack); ($"pushFront:", string_pushFront);
            ($"popBack", string_popBack); ($"popFront", string_popFront); ($"popAtIndex:", string_popAtIndex);
            ($"concatenate:", string_concatenate); ($"insert:beforeIndex:", string_insert_beforeIndex);
            ($"eraseFromIndex:", string_eraseFromIndex);
            ($"eraseFromIndex:toIndex:", string_eraseFromIndex_toIndex); ($"clear", string_clear)].

(** ** VectorInstance, src/instance.cpp:1072-1465; the state is [_value], [et] is [_element_type]. *)
Section Vector.
Context (E : env) (et : str).
Let eps := e_tolerance E.
Notation V := (list obj).

(** The [for] loops of contains?, count:, firstIndexOf:, removeFirst: over the elements from position [i] on. *)
(** src/instance.cpp:1158-1161, 1171-1174 *)
Fixpoint contains_loop (rest : V) (x : obj) : res bool :=
  match rest with
  | [] => Ok false
  | y :: r => let! e := is_equal_to eps y x in if e then Ok true else contains_loop r x
  end.
(** src/instance.cpp:1182-1184 *)
Fixpoint count_loop (rest : V) (x : obj) (count : Z) : res Z :=
  match rest with
  | [] => Ok count
  | y :: r => let! e := is_equal_to eps y x in count_loop r x (if e then count + 1 else count)
  end.
(** src/instance.cpp:1201-1204, 1214-1217 (and 1371-1375, 1386-1390): the index found, if any. *)
Fixpoint first_index_loop (rest : V) (x : obj) (i : Z) : res (option Z) :=
  match rest with
  | [] => Ok None
  | y :: r => let! e := is_equal_to eps y x in if e then Ok (Some i) else first_index_loop r x (i + 1)
  end.
(** src/instance.cpp:1225-1230: the string built so far is [acc]. *)
Fixpoint all_indexes_loop (rest : V) (x : obj) (i : Z) (acc : str) : res str :=
  match rest with
  | [] => Ok acc
  | y :: r =>
      let! e := is_equal_to eps y x in
      all_indexes_loop r x (i + 1)
        (if e then (if (0 <? zlen acc) then acc ++ [c_comma] ++ to_string i else acc ++ to_string i)%list else acc)
  end.

(** src/instance.cpp:1142-1146 *)
Definition vector_get (args : list str) : M V str := check_nargs args 0 ;;; v <- get ;; ret (vector_representation E v).
(** src/instance.cpp:1148-1152 *)
Definition vector_isEmpty (args : list str) : M V str :=
  check_nargs args 0 ;;; v <- get ;; ret (btext (zlen v =? 0)).
(** src/instance.cpp:1154-1162 *)
Definition vector_contains (args : list str) : M V str :=
  check_nargs args 1 ;;; a <- arg args 0 ;; x <- lift (get_shared_instance et a) ;;
  v <- get ;; b <- lift (contains_loop v x) ;; ret (btext b).
(** src/instance.cpp:1164-1175 *)
Definition vector_contains_fromIndex (args : list str) : M V str :=
  check_nargs args 2 ;;; a <- arg args 0 ;; x <- lift (get_shared_instance et a) ;;
  i <- arg args 1 ;; from <- lift (integer_of i) ;; v <- get ;;
  throw_if ((from <? 0) || (zlen v <? from)) InvalidArgument ;;;
  rest <- lift (vec_range v from (zlen v)) ;; b <- lift (contains_loop rest x) ;; ret (btext b).
(** src/instance.cpp:1177-1186 *)
Definition vector_count (args : list str) : M V str :=
  check_nargs args 1 ;;; a <- arg args 0 ;; x <- lift (get_shared_instance et a) ;;
  v <- get ;; n <- lift (count_loop v x 0) ;; ret (to_string n).
(** src/instance.cpp:1188-1195 *)
Definition vector_atIndex (args : list str) : M V str :=
  check_nargs args 1 ;;; a <- arg args 0 ;; index <- lift (integer_of a) ;; v <- get ;;
  throw_if ((index <? 0) || (zlen v <=? index)) InvalidArgument ;;;
  x <- lift (vec_at v index) ;; ret (obj_repr E x).
Definition index_text (i : option Z) : str := match i with Some i => to_string i | None => $"-1" end.
(** src/instance.cpp:1197-1205 *)
Definition vector_firstIndexOf (args : list str) : M V str :=
  check_nargs args 1 ;;; a <- arg args 0 ;; x <- lift (get_shared_instance et a) ;;
  v <- get ;; i <- lift (first_index_loop v x 0) ;; ret (index_text i).
(** src/instance.cpp:1207-1218 *)
Definition vector_firstIndexOf_fromIndex (args : list str) : M V str :=
  check_nargs args 2 ;;; a <- arg args 0 ;; x <- lift (get_shared_instance et a) ;;
  i <- arg args 1 ;; from <- lift (integer_of i) ;; v <- get ;;
  throw_if ((from <? 0) || (zlen v <? from)) InvalidArgument ;;;
  rest <- lift (vec_range v from (zlen v)) ;; i <- lift (first_index_loop rest x from) ;; ret (index_text i).
(** src/instance.cpp:1220-1232 *)
Definition vector_allIndexesOf (args : list str) : M V str :=
  check_nargs args 1 ;;; a <- arg args 0 ;; x <- lift (get_shared_instance et a) ;;
  v <- get ;; t <- lift (all_indexes_loop v x 0 []) ;; ret ($"[" ++ t ++ $"]")%list.
(** src/instance.cpp:1234-1238 *)
Definition vector_size (args : list str) : M V str := check_nargs args 0 ;;; v <- get ;; ret (to_string (zlen v)).
(** src/instance.cpp:1240-1248 *)
Definition vector_first (args : list str) : M V str :=
  check_nargs args 1 ;;; a <- arg args 0 ;; n <- lift (integer_of a) ;;
  throw_if (n <? 0) InvalidArgument ;;;
  v <- get ;; let n := Z.min n (zlen v) in
  r <- lift (vec_range v 0 n) ;; ret (vector_representation E r).
(** src/instance.cpp:1250-1258 *)
Definition vector_last (args : list str) : M V str :=
  check_nargs args 1 ;;; a <- arg args 0 ;; n <- lift (integer_of a) ;;
  throw_if (n <? 0) InvalidArgument ;;;
  v <- get ;; let n := Z.min n (zlen v) in
  r <- lift (vec_range v (zlen v - n) (zlen v)) ;; ret (vector_representation E r).
(** src/instance.cpp:1260-1267 *)
Definition vector_sliceFromIndex (args : list str) : M V str :=
  check_nargs args 1 ;;; a <- arg args 0 ;; from <- lift (integer_of a) ;; v <- get ;;
  throw_if ((from <? 0) || (zlen v <? from)) InvalidArgument ;;;
  r <- lift (vec_range v from (zlen v)) ;; ret (vector_representation E r).
(** src/instance.cpp:1269-1282 *)
Definition vector_sliceFromIndex_toIndex (args : list str) : M V str :=
  check_nargs args 2 ;;; a <- arg args 0 ;; from <- lift (integer_of a) ;;
  b <- arg args 1 ;; to <- lift (integer_of b) ;; v <- get ;;
  throw_if ((from <? 0) || (zlen v <? from)) InvalidArgument ;;;
  throw_if ((to <? 0) || (zlen v <? to)) InvalidArgument ;;;
  throw_if (to - from <? 0) InvalidArgument ;;;
  r <- lift (vec_range v from to) ;; ret (vector_representation E r).
(** src/instance.cpp:1284-1290 *)
Definition vector_pushBack (args : list str) : M V str :=
  check_nargs args 1 ;;; a <- arg args 0 ;; x <- lift (get_shared_instance et a) ;;
  v <- get ;; put (v ++ [x])%list ;;; ret null.
(** src/instance.cpp:1292-1298 *)
Definition vector_pushFront (args : list str) : M V str :=
  check_nargs args 1 ;;; a <- arg args 0 ;; x <- lift (get_shared_instance et a) ;;
  v <- get ;; r <- lift (vec_insert v 0 x) ;; put r ;;; ret null.
(** src/instance.cpp:1300-1308 *)
Definition vector_popBack (args : list str) : M V str :=
  check_nargs args 0 ;;; v <- get ;;
  if zlen v =? 0 then ret null
  else x <- lift (vec_at v (zlen v - 1)) ;; r <- lift (vec_pop_back v) ;; put r ;;; ret (obj_repr E x).
(** src/instance.cpp:1310-1318 *)
Definition vector_popFront (args : list str) : M V str :=
  check_nargs args 0 ;;; v <- get ;;
  if zlen v =? 0 then ret null
  else x <- lift (vec_at v 0) ;; r <- lift (vec_erase_at v 0) ;; put r ;;; ret (obj_repr E x).
(** src/instance.cpp:1320-1329 *)
Definition vector_popAtIndex (args : list str) : M V str :=
  check_nargs args 1 ;;; a <- arg args 0 ;; index <- lift (integer_of a) ;; v <- get ;;
  throw_if ((index <? 0) || (zlen v <=? index)) InvalidArgument ;;;
  x <- lift (vec_at v index) ;; r <- lift (vec_erase_at v index) ;; put r ;;; ret (obj_repr E x).
(** src/instance.cpp:1331-1340 *)
Definition vector_insert_beforeIndex (args : list str) : M V str :=
  check_nargs args 2 ;;; a <- arg args 0 ;; x <- lift (get_shared_instance et a) ;;
  b <- arg args 1 ;; index <- lift (integer_of b) ;; v <- get ;;
  throw_if ((index <? 0) || (zlen v <? index)) InvalidArgument ;;;
  r <- lift (vec_insert v index x) ;; put r ;;; ret null.
(** src/instance.cpp:1342-1350 *)
Definition vector_eraseFromIndex (args : list str) : M V str :=
  check_nargs args 1 ;;; a <- arg args 0 ;; from <- lift (integer_of a) ;; v <- get ;;
  throw_if ((from <? 0) || (zlen v <? from)) InvalidArgument ;;;
  r <- lift (vec_erase_range v from (zlen v)) ;; put r ;;; ret null.
(** src/instance.cpp:1352-1365 *)
Definition vector_eraseFromIndex_toIndex (args : list str) : M V str :=
  check_nargs args 2 ;;; a <- arg args 0 ;; from <- lift (integer_of a) ;;
  b <- arg args 1 ;; to <- lift (integer_of b) ;; v <- get ;;
  throw_if ((from <? 0) || (zlen v <? from)) InvalidArgument ;;;
  throw_if ((to <? 0) || (zlen v <? to)) InvalidArgument ;;;
  throw_if (to - from <? 0) InvalidArgument ;;;
  r <- lift (vec_erase_range v from to) ;; put r ;;; ret null.
(** src/instance.cpp:1367-1377: the loop finds the first equal element, erases it and breaks. *)
Definition vector_removeFirst (args : list str) : M V str :=
  check_nargs args 1 ;;; a <- arg args 0 ;; x <- lift (get_shared_instance et a) ;;
  v <- get ;; i <- lift (first_index_loop v x 0) ;;
  match i with
  | Some i => r <- lift (vec_erase_at v i) ;; put r ;;; ret null
  | None => ret null
  end.
(** src/instance.cpp:1379-1392 *)
Definition vector_removeFirst_fromIndex (args : list str) : M V str :=
  check_nargs args 2 ;;; a <- arg args 0 ;; x <- lift (get_shared_instance et a) ;;
  b <- arg args 1 ;; from <- lift (integer_of b) ;; v <- get ;;
  throw_if ((from <? 0) || (zlen v <? from)) InvalidArgument ;;;
  rest <- lift (vec_range v from (zlen v)) ;; i <- lift (first_index_loop rest x from) ;;
  match i with
  | Some i => r <- lift (vec_erase_at v i) ;; put r ;;; ret null
  | None => ret null
  end.
(** src/instance.cpp:1398-1402: [for (i = 0; i < size; i++) if (equal) { erase(i); i--; }].  Every round shortens the vector or
    advances [i], so [fuel = size] rounds suffice (exhaustion would be [UB Diverges]; proved unreachable). *)
Fixpoint remove_all_loop (fuel : nat) (i : Z) (x : obj) : M V unit :=
  v <- get ;;
  if i <? zlen v then
    match fuel with
    | O => undefined Diverges
    | S f => y <- lift (vec_at v i) ;; e <- lift (is_equal_to eps y x) ;;
             if e then r <- lift (vec_erase_at v i) ;; put r ;;; remove_all_loop f i x
             else remove_all_loop f (i + 1) x
    end
  else ret tt.
(** src/instance.cpp:1394-1404 *)
Definition vector_removeAll (args : list str) : M V str :=
  check_nargs args 1 ;;; a <- arg args 0 ;; x <- lift (get_shared_instance et a) ;;
  v <- get ;; remove_all_loop (length v) 0 x ;;; ret null.
(** src/instance.cpp:1411-1415, 1427-1431, 1440-1442: replace equal elements from [i] on, each time by a new object made from [w];
    [once]: stop after the first. *)
Fixpoint replace_loop (fuel : nat) (once : bool) (i : Z) (x : obj) (w : str) : M V unit :=
  v <- get ;;
  if i <? zlen v then
    match fuel with
    | O => undefined Diverges
    | S f => y <- lift (vec_at v i) ;; e <- lift (is_equal_to eps y x) ;;
             if e then
               z <- lift (get_shared_instance et w) ;; r <- lift (vec_set v i z) ;; put r ;;;
               (if once then ret tt else replace_loop f once (i + 1) x w)
             else replace_loop f once (i + 1) x w
    end
  else ret tt.
(** src/instance.cpp:1406-1417 *)
Definition vector_replaceFirst_with (args : list str) : M V str :=
  check_nargs args 2 ;;; a <- arg args 0 ;; x <- lift (get_shared_instance et a) ;;
  w <- arg args 1 ;; _t <- lift (get_shared_instance et w) ;;
  v <- get ;; replace_loop (length v) true 0 x w ;;; ret null.
(** src/instance.cpp:1419-1433 *)
Definition vector_replaceFirst_fromIndex_with (args : list str) : M V str :=
  check_nargs args 3 ;;; a <- arg args 0 ;; x <- lift (get_shared_instance et a) ;;
  w <- arg args 2 ;; _t <- lift (get_shared_instance et w) ;;
  b <- arg args 1 ;; from <- lift (integer_of b) ;; v <- get ;;
  throw_if ((from <? 0) || (zlen v <? from)) InvalidArgument ;;;
  replace_loop (length v) true from x w ;;; ret null.
(** src/instance.cpp:1435-1444 *)
Definition vector_replaceAll_with (args : list str) : M V str :=
  check_nargs args 2 ;;; a <- arg args 0 ;; x <- lift (get_shared_instance et a) ;;
  w <- arg args 1 ;; _t <- lift (get_shared_instance et w) ;;
  v <- get ;; replace_loop (length v) false 0 x w ;;; ret null.
(** src/instance.cpp:1446-1451: std::sort's precondition is that the comparator is a strict weak order on the elements. *)
Definition vector_sort (args : list str) : M V str :=
  check_nargs args 0 ;;; v <- get ;;
  if strict_weak_order_on (less_opt eps) v then put (e_sort E (less_opt eps) v) ;;; ret null
  else undefined BadOrder.
(** src/instance.cpp:1453-1458 *)
Definition vector_reverse (args : list str) : M V str := check_nargs args 0 ;;; v <- get ;; put (rev v) ;;; ret null.
(** src/instance.cpp:1460-1465 *)
Definition vector_clear (args : list str) : M V str := check_nargs args 0 ;;; put [] ;;; ret null.
(** src/instance.cpp:1076-1140 *)
Definition vector_receive : str -> list str -> M V str :=
  dispatch [($"get", vector_get); ($"isEmpty?", vector_isEmpty); ($"contains?", vector_contains);
            ($"contains?fromIndex:", vector_contains_fromIndex); ($"count:", vector_count);
            ($"atIndex:", vector_atIndex); ($"firstIndexOf:", vector_firstIndexOf);
            ($"firstIndexOf:fromIndex:", vector_firstIndexOf_fromIndex); ($"allIndexesOf:", vector_allIndexesOf);
            ($"size", vector_size); ($"first:", vector_first); ($"last:", vector_last);
            ($"sliceFromIndex:", vector_sliceFromIndex); ($"sliceFromIndex:toIndex:", vector_sliceFromIndex_toIndex);
            ($"pushBack:", vector_pushBack); ($"pushFront:", vector_pushFront);
            ($"popBack", vector_popBack); ($"popFront", vector_popFront); ($"popAtIndex:", vector_popAtIndex);
            ($"insert:beforeIndex:", vector_insert_beforeIndex); ($"eraseFromIndex:", vector_eraseFromIndex);
            ($"eraseFromIndex:toIndex:", vector_eraseFromIndex_toIndex); ($"removeFirst:", vector_removeFirst);
            ($"removeFirst:fromIndex:", vector_removeFirst_fromIndex); ($"removeAll:", vector_removeAll);
            ($"replaceFirst:with:", vector_replaceFirst_with);
            ($"replaceFirst:fromIndex:with:", vector_replaceFirst_fromIndex_with);
            ($"replaceAll:with:", vector_replaceAll_with); ($"sort", vector_sort); ($"reverse", vector_reverse);
            ($"clear", vector_clear)].

(** ** SetInstance, src/instance.cpp:1496-1560 *)
(** src/instance.cpp:1514-1518 *)
Definition set_get (args : list str) : M V str := check_nargs args 0 ;;; v <- get ;; ret (set_representation E v).
(** src/instance.cpp:1520-1524 *)
Definition set_isEmpty (args : list str) : M V str :=
  check_nargs args 0 ;;; v <- get ;; ret (btext (match v with [] => true | _ => false end)).
(** src/instance.cpp:1526-1531 *)
Definition set_contains (args : list str) : M V str :=
  check_nargs args 1 ;;; a <- arg args 0 ;; x <- lift (get_shared_instance et a) ;;
  v <- get ;; r <- lift (set_find (less_opt eps) v x) ;;
  ret (btext (match r with Some _ => true | None => false end)).
(** src/instance.cpp:1533-1537 *)
Definition set_size (args : list str) : M V str := check_nargs args 0 ;;; v <- get ;; ret (to_string (zlen v)).
(** src/instance.cpp:1539-1545 *)
Definition set_add (args : list str) : M V str :=
  check_nargs args 1 ;;; a <- arg args 0 ;; x <- lift (get_shared_instance et a) ;;
  v <- get ;; r <- lift (set_insert (less_opt eps) v x) ;; put r ;;; ret null.
(** src/instance.cpp:1547-1553 *)
Definition set_remove (args : list str) : M V str :=
  check_nargs args 1 ;;; a <- arg args 0 ;; x <- lift (get_shared_instance et a) ;;
  v <- get ;; r <- lift (set_erase (less_opt eps) v x) ;; put r ;;; ret null.
(** src/instance.cpp:1555-1560 *)
Definition set_clear (args : list str) : M V str := check_nargs args 0 ;;; put [] ;;; ret null.
(** src/instance.cpp:1496-1512 *)
Definition set_receive : str -> list str -> M V str :=
  dispatch [($"get", set_get); ($"isEmpty?", set_isEmpty); ($"contains?", set_contains); ($"size", set_size);
            ($"add:", set_add); ($"remove:", set_remove); ($"clear", set_clear)].
End Vector.

(** ** DictionaryInstance, src/instance.cpp:1583-1692; [kt], [vt] are [_key_type], [_value_type]. *)
Section Dictionary.
Context (E : env) (kt vt : str).
Let eps := e_tolerance E.
Notation D := (list (obj * obj)).
(** src/instance.cpp:1617-1621 *)
Definition dict_get (args : list str) : M D str := check_nargs args 0 ;;; d <- get ;; ret (dict_representation E d).
(** src/instance.cpp:1623-1627 *)
Definition dict_isEmpty (args : list str) : M D str :=
  check_nargs args 0 ;;; d <- get ;; ret (btext (match d with [] => true | _ => false end)).
(** src/instance.cpp:1629-1634 *)
Definition dict_containsKey (args : list str) : M D str :=
  check_nargs args 1 ;;; a <- arg args 0 ;; k <- lift (get_shared_instance kt a) ;;
  d <- get ;; r <- lift (map_find (less_opt eps) d k) ;;
  ret (btext (match r with Some _ => true | None => false end)).
(** src/instance.cpp:1636-1640 *)
Definition dict_size (args : list str) : M D str := check_nargs args 0 ;;; d <- get ;; ret (to_string (zlen d)).
(** src/instance.cpp:1642-1649 *)
Definition dict_keys (args : list str) : M D str :=
  check_nargs args 0 ;;; d <- get ;; ret (vector_representation E (map fst d)).
(** src/instance.cpp:1651-1658 *)
Definition dict_values (args : list str) : M D str :=
  check_nargs args 0 ;;; d <- get ;; ret (vector_representation E (map snd d)).
(** src/instance.cpp:1660-1668 *)
Definition dict_getValueForKey (args : list str) : M D str :=
  check_nargs args 1 ;;; a <- arg args 0 ;; k <- lift (get_shared_instance kt a) ;;
  d <- get ;; r <- lift (map_find (less_opt eps) d k) ;;
  match r with Some p => ret (obj_repr E (snd p)) | None => ret null end.
(** src/instance.cpp:1670-1677 *)
Definition dict_associateValue_withKey (args : list str) : M D str :=
  check_nargs args 2 ;;; a <- arg args 0 ;; v <- lift (get_shared_instance vt a) ;;
  b <- arg args 1 ;; k <- lift (get_shared_instance kt b) ;;
  d <- get ;; r <- lift (map_assign (less_opt eps) d k v) ;; put r ;;; ret null.
(** src/instance.cpp:1679-1685 *)
Definition dict_removeKey (args : list str) : M D str :=
  check_nargs args 1 ;;; a <- arg args 0 ;; k <- lift (get_shared_instance kt a) ;;
  d <- get ;; r <- lift (map_erase (less_opt eps) d k) ;; put r ;;; ret null.
(** src/instance.cpp:1687-1692 *)
Definition dict_clear (args : list str) : M D str := check_nargs args 0 ;;; put [] ;;; ret null.
(** src/instance.cpp:1593-1615 *)
Definition dict_receive : str -> list str -> M D str :=
  dispatch [($"get", dict_get); ($"isEmpty?", dict_isEmpty); ($"containsKey?", dict_containsKey);
            ($"size", dict_size); ($"keys", dict_keys); ($"values", dict_values);
            ($"getValueForKey:", dict_getValueForKey); ($"associateValue:withKey:", dict_associateValue_withKey);
            ($"removeKey:", dict_removeKey); ($"clear", dict_clear)].
End Dictionary.

(** Virtual [receive]: run the class's one on the instance's value and store the value back. *)
Definition on {S} (wrap : S -> inst) (r : S * res str) : inst * res str := (wrap (fst r), snd r).
Definition receive (E : env) (i : inst) (message : str) (args : list str) : inst * res str :=
  match i with
  | IObj (OBool b) => on (fun b => IObj (OBool b)) (boolean_receive message args b)
  | IObj (OChar c) => on (fun c => IObj (OChar c)) (character_receive E message args c)
  | IObj (OInt z) => on (fun z => IObj (OInt z)) (integer_receive E message args z)
  | IObj (OFloat f) => on (fun f => IObj (OFloat f)) (float_receive E message args f)
  | IObj (OStr s) => on (fun s => IObj (OStr s)) (string_receive E message args s)
  | IVector et v => on (IVector et) (vector_receive E et message args v)
  | ISet et v => on (ISet et) (set_receive E et message args v)
  | IDict kt vt d => on (IDict kt vt) (dict_receive E kt vt message args d)
  end.
