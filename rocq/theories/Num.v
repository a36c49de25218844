(** Numbers: [int], [float], [double] and the conversions the program uses (x86-64, glibc, libstdc++).

    Floating-point data and arithmetic are those of Coq's [SpecFloat] (IEEE-754, round to nearest even, one NaN). *)
From Coq Require Export Floats.SpecFloat.
From Verif Require Import Bytes StrUtils Outcome.
Open Scope Z_scope.

(** ** int *)
Definition INT_MIN : Z := - 2 ^ 31.
Definition INT_MAX : Z := 2 ^ 31 - 1.
Definition in_int (z : Z) : bool := (INT_MIN <=? z) && (z <=? INT_MAX).

Definition digit (c : ascii) : Z := Z.of_N (N_of_ascii c) - 48.

(** Maximal leading run of decimal digits: its value (starting from [acc]), its length (added to [n]) and the rest. *)
Fixpoint read_digits (s : str) (acc : Z) (n : Z) : Z * Z * str :=
  match s with
  | c :: r => if is_numeric c then read_digits r (10 * acc + digit c) (n + 1) else (acc, n, s)
  | [] => (acc, n, s)
  end.

(** Optional sign, as read by [atoi], [atof] and their exponent part: (negative?, rest). *)
Definition read_sign (s : str) : bool * str :=
  match s with
  | c :: r => if ceq c c_minus then (true, r) else if ceq c c_plus then (false, r) else (false, s)
  | [] => (false, s)
  end.

(** [atoi] (called at src/instance.cpp:384,396,450,521,530,539,548 on texts without leading blanks): sign, digits;
    undefined behaviour (ISO C 7.22.1) when the value does not fit [int]. *)
Definition atoi (s : str) : res Z :=
  let '(neg, r) := read_sign s in
  let '(v, _, _) := read_digits r 0 0 in
  let z := if neg then - v else v in
  if in_int z then Ok z else UB AtoiRange.

(** ** float and double *)
Definition f32 := spec_float.
Definition f64 := spec_float.
Definition prec32 := 24. Definition emax32 := 128.
Definition prec64 := 53. Definition emax64 := 1024.

(** float -> double conversion (exact). *)
Definition to_double (x : f32) : f64 :=
  match x with S754_finite s m e => binary_round prec64 emax64 s m e | _ => x end.
(** double -> float conversion (rounded; overflow gives an infinity). *)
Definition to_float (x : f64) : f32 :=
  match x with S754_finite s m e => binary_round prec32 emax32 s m e | _ => x end.
(** int -> double (exact) and int -> float (rounded). *)
Definition int_to_double (z : Z) : f64 := binary_normalize prec64 emax64 z 0 false.
Definition int_to_float (z : Z) : f32 := binary_normalize prec32 emax32 z 0 false.

(** Truncation of a finite double towards zero. *)
Definition trunc_mag (m : positive) (e : Z) : Z :=
  if 0 <=? e then Zpos m * 2 ^ e else Zpos m / 2 ^ (- e).
(** double -> int conversion: truncation; undefined behaviour when the truncated value does not fit. *)
Definition double_to_int (x : f64) : res Z :=
  match x with
  | S754_zero _ => Ok 0
  | S754_finite s m e =>
      let z := cond_Zopp s (trunc_mag m e) in if in_int z then Ok z else UB IntConversion
  | _ => UB IntConversion
  end.

(** The double nearest to [(-1)^neg * m * 10^k]. *)
Definition decimal_to_double (neg : bool) (m k : Z) : f64 :=
  match m with
  | Zpos p =>
      if 0 <=? k then binary_round prec64 emax64 neg (p * Z.to_pos (10 ^ k)) 0
      else let '(mz, ez, lz) := SFdiv_core_binary prec64 emax64 (Zpos p) 0 (10 ^ (- k)) 0 in
           binary_round_aux prec64 emax64 neg mz ez lz
  | _ => S754_zero neg
  end.

(** [atof] (glibc, correctly rounded; called at src/instance.cpp:384,396,450,521..548,561,572,628,682..709): sign,
    digits, optional fraction, optional exponent.  Overflow gives an infinity. *)
Definition atof (s : str) : f64 :=
  let '(neg, r) := read_sign s in
  let '(ip, _, r1) := read_digits r 0 0 in
  let '(m, nf, r2) :=
    match r1 with
    | c :: r' => if ceq c c_dot then read_digits r' ip 0 else (ip, 0, r1)
    | [] => (ip, 0, r1)
    end in
  let x :=
    match r2 with
    | c :: r' => if ceq c c_e
                 then let '(eneg, r'') := read_sign r' in
                      let '(ev, _, _) := read_digits r'' 0 0 in
                      if eneg then - ev else ev
                 else 0
    | [] => 0
    end in
  decimal_to_double neg m (x - nf).

(** float arithmetic in double precision, as [_value op= atof(...)] does for a float [_value]
    (src/instance.cpp:682,691,700,709), and double arithmetic on an int [_value] (src/instance.cpp:521,530,539,548). *)
Definition d_add : f64 -> f64 -> f64 := SFadd prec64 emax64.
Definition d_sub : f64 -> f64 -> f64 := SFsub prec64 emax64.
Definition d_mul : f64 -> f64 -> f64 := SFmul prec64 emax64.
Definition d_div : f64 -> f64 -> f64 := SFdiv prec64 emax64.
(** float subtraction and comparison, used by the comparators (src/instance.cpp:104-111, 138-145). *)
Definition f_sub : f32 -> f32 -> f32 := SFsub prec32 emax32.
Definition f_opp : f32 -> f32 := SFopp.
Definition f_lt : f32 -> f32 -> bool := SFltb.

(** ** Printing *)
Definition digit_char (n : Z) : ascii := ascii_of_N (Z.to_N (n + 48)).

(** Decimal digits of [n >= 0], most significant first. *)
Fixpoint dec_loop (fuel : nat) (n : Z) (acc : str) : str :=
  match fuel with
  | O => acc
  | S f => let acc' := digit_char (n mod 10) :: acc in
           if n <? 10 then acc' else dec_loop f (n / 10) acc'
  end.
Definition dec (n : Z) : str := dec_loop (S (Z.to_nat (Z.log2 n))) n [].

(** [std::to_string(int)] *)
Definition to_string (z : Z) : str := if z <? 0 then c_minus :: dec (- z) else dec z.

(** [round_half_even n d]: [n / d] rounded to the nearest integer, ties to even ([n >= 0], [d > 0]). *)
Definition round_half_even (n d : Z) : Z :=
  let q := n / d in let r := n mod d in
  match 2 * r ?= d with
  | Lt => q
  | Gt => q + 1
  | Eq => if Z.even q then q else q + 1
  end.

(** [m * 2^e * 10^p] rounded to an integer. *)
Definition scaled (m : positive) (e : Z) (p : nat) : Z :=
  if 0 <=? e then Zpos m * 2 ^ e * 10 ^ Z.of_nat p
  else round_half_even (Zpos m * 10 ^ Z.of_nat p) (2 ^ (- e)).

(** Place the decimal point [p] digits from the right, padding with zeros. *)
Definition fixed_digits (n : Z) (p : nat) : str :=
  let d := dec n in
  let d := (repeat "0"%char (S p - length d) ++ d)%list in
  let i := (length d - p)%nat in
  match p with
  | O => d
  | _ => (firstn i d ++ c_dot :: skipn i d)%list
  end.

(** [oss << std::fixed << std::setprecision(p) << x] (src/instance.cpp:585-589). libstdc++ replaces a negative
    precision by 6; glibc's printf rounds exactly, ties to even. *)
Definition fixed_repr (precision : Z) (x : f32) : str :=
  let p := if precision <? 0 then 6%nat else Z.to_nat precision in
  match x with
  | S754_zero s => ((if s then [c_minus] else []) ++ fixed_digits 0 p)%list
  | S754_finite s m e => ((if s then [c_minus] else []) ++ fixed_digits (scaled m e p) p)%list
  | S754_infinity s => if s then $"-inf" else $"inf"
  | S754_nan => $"-nan"
  end.
