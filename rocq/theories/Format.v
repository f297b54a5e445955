(** * How Rust's std writes the numbers of the reports.
    No code of /repo: models what [{}], [{:>w}], [{:.k}], [{:.ke}] and [Duration]'s [{:?}],
    [{:>w.3?}] produce, so that the texts built at presentable_measurements.rs:32-37,
    types_impl.rs:53-205 and common.rs:27,39,54 are strings.  A Rust string is its UTF-8 bytes. *)
From Coq Require Import ZArith String Ascii List Bool.
From Flocq Require Import Core.Core IEEE754.BinarySingleNaN.
From Verif Require Import Machine Floats Analysis Report CrudMsg.
Import ListNotations.
Open Scope Z_scope.

(** std (no code of /repo): one decimal digit *)
Definition digit (n : Z) : ascii := ascii_of_nat (48 + Z.to_nat n).
(** std (no code of /repo): the last [k] decimal digits of [n], with leading zeros *)
Fixpoint digits (k : nat) (n : Z) : string :=
  match k with
  | O => EmptyString
  | S k => digits k (n / 10)%Z ++ String (digit (n mod 10)%Z) EmptyString
  end%string.
(** std (no code of /repo): [n / 10^k] written with [k] decimals; 0 <= n *)
Definition decimals (k : nat) (n : Z) : string :=
  match k with
  | O => dec n
  | S _ => dec (n / 10 ^ Z.of_nat k)%Z ++ "." ++ digits k (n mod 10 ^ Z.of_nat k)%Z
  end%string.

(** std (no code of /repo): [{:.k}] of a float: the exact value rounded to [k] decimals, ties to even
    (core::fmt::float, flt2dec::to_exact_fixed_str) *)
Definition scaled_mantissa (k : nat) (m : positive) (e : Z) : Z :=
  if 0 <=? e then Zpos m * 2 ^ e * 10 ^ Z.of_nat k
  else round_half_even (Zpos m * 10 ^ Z.of_nat k) (2 ^ (- e)).
(** std (no code of /repo): the sign of a float *)
Definition minus (s : bool) : string := if s then "-"%string else EmptyString.
(** std (no code of /repo): [{:.k}] *)
Definition fixed {prec emax} (k : nat) (x : binary_float prec emax) : string :=
  match x with
  | B754_nan => "NaN"
  | B754_infinity s => minus s ++ "inf"
  | B754_zero s => minus s ++ decimals k 0
  | B754_finite s m e _ => minus s ++ decimals k (scaled_mantissa k m e)
  end%string.

(** std (no code of /repo): the decimal exponent of [num / den > 0]: the E with 10^E <= num/den < 10^(E+1) *)
Definition exponent10 (num den : Z) : Z :=
  if den <=? num then Z.of_nat (String.length (dec (num / den))) - 1
  else - Z.of_nat (String.length (dec ((den - 1) / num))).
(** std (no code of /repo): [num / den] to [k + 1] significant digits, ties to even: the digits and the
    decimal exponent of the first one *)
Definition significant (k : nat) (num den : Z) : Z * Z :=
  let e := exponent10 num den in
  let p := Z.of_nat k - e in
  let n := if 0 <=? p then round_half_even (num * 10 ^ p) den else round_half_even num (den * 10 ^ (- p)) in
  if n =? 10 ^ (Z.of_nat k + 1) then (10 ^ Z.of_nat k, e + 1) else (n, e).
(** std (no code of /repo): a signed integer *)
Definition dec_signed (n : Z) : string := (minus (n <? 0)%Z ++ dec (Z.abs n))%string.
(** std (no code of /repo): [{:.ke}] (core::fmt::float, flt2dec::to_exact_exp_str) *)
Definition exponential {prec emax} (k : nat) (x : binary_float prec emax) : string :=
  match x with
  | B754_nan => "NaN"
  | B754_infinity s => minus s ++ "inf"
  | B754_zero s => minus s ++ decimals k 0 ++ "e0"
  | B754_finite s m e _ =>
      let '(n, x) := (if 0 <=? e then significant k (Zpos m * 2 ^ e) 1 else significant k (Zpos m) (2 ^ (- e)))%Z in
      minus s ++ decimals k n ++ "e" ++ dec_signed x
  end%string.

(** ** Durations (core::time::fmt_decimal) *)
(** std (no code of /repo): the digits of [fractional_part], most significant first, up to the last that
    is not zero; [fuel] of them at most *)
Fixpoint fraction (fuel : nat) (fractional_part divisor : Z) : string :=
  match fuel with
  | O => EmptyString
  | S fuel =>
      if fractional_part =? 0 then EmptyString
      else String (digit (fractional_part / divisor)) (fraction fuel (fractional_part mod divisor) (divisor / 10))
  end.
(** std (no code of /repo): an integer and its fraction, with no precision *)
Definition fmt_decimal (integer_part fractional_part divisor : Z) (postfix : string) : string :=
  let s := fraction 9 fractional_part divisor in
  (dec integer_part ++ (if String.eqb s EmptyString then EmptyString else "." ++ s) ++ postfix)%string.
(** std (no code of /repo): the unit of a duration and its length in nanoseconds *)
Definition duration_unit (d : duration) : string * Z :=
  if nanos_per_sec <=? d then ("s"%string, 1000000000)
  else if 1000000 <=? d then ("ms"%string, 1000000)
  else if 1000 <=? d then ("µs"%string, 1000)
  else ("ns"%string, 1).
(** std (no code of /repo): [{:?}] of a [Duration] *)
Definition duration_debug (d : duration) : string :=
  let '(u, ns) := duration_unit d in
  if ns =? 1 then fmt_decimal d 0 1 u else fmt_decimal (d / ns) (d mod ns) (ns / 10) u.
(** std (no code of /repo): [{:.k?}] of a [Duration]: [k] decimals, ties to even *)
Definition duration_debug_prec (k : nat) (d : duration) : string :=
  let '(u, ns) := duration_unit d in
  (decimals k (round_half_even (d * 10 ^ Z.of_nat k)%Z ns) ++ u)%string.

(** ** Padding *)
(** std (no code of /repo): characters are the bytes that do not continue one *)
Fixpoint chars (s : string) : nat :=
  match s with
  | EmptyString => O
  | String c s => let n := nat_of_ascii c in
      (if (Nat.ltb n 128 || Nat.leb 192 n)%bool then 1 else 0) + chars s
  end%nat.
(** std (no code of /repo): a number of blanks *)
Fixpoint blanks (n : nat) : string := match n with O => EmptyString | S n => String " " (blanks n) end.
(** std (no code of /repo): [{:>w}] *)
Definition pad (w : nat) (s : string) : string := (blanks (w - chars s) ++ s)%string.
