(** * The complexity analyses: one transcription, two number systems.

    Models /repo/src/low_level_analysis/low_level_analysis.rs:12-72,
    time_analysis.rs:11-73, space_analysis.rs:14-72 and the tolerance constants
    of /repo/src/features.rs:7-13. *)
From Coq Require Import ZArith Reals.
From Flocq Require Import Core.Core IEEE754.BinarySingleNaN.
From Verif Require Import Machine Complexity Floats.
Open Scope Z_scope.

(** The operations the two analyses use. *)
Record numsys := NumSys {
  num : Type;
  n_div : num -> num -> num;
  n_mul : num -> num -> num;
  n_sub : num -> num -> num;
  n_abs : num -> num;
  n_ltb : num -> num -> bool;
  n_leb : num -> num -> bool;
  n_log2 : num -> num;
  n_powi : num -> Z -> num;
  n_powf : num -> num -> num;
  n_one : num;
  n_three : num;
  n_tol : num            (* PERCENT_TOLERANCE, features.rs:7-13 *)
}.

Section Generic.
Variable N : numsys.
Local Notation "x / y" := (n_div N x y).
Local Notation "x * y" := (n_mul N x y).
Local Notation "x - y" := (n_sub N x y).
Local Notation "x < y" := (n_ltb N x y).
Local Notation "x <= y" := (n_leb N x y).
Local Notation abs := (n_abs N).
Local Notation log2 := (n_log2 N).
Local Notation powi := (n_powi N).
Local Notation powf := (n_powf N).
Local Notation "1" := (n_one N).
Local Notation "3" := (n_three N).
Local Notation TOL := (n_tol N).

(** low_level_analysis.rs:12-48 [analyse_complexity] -- literal transcription. *)
Definition analyse_complexity (u1 u2 n1 n2 : num N) : complexity :=
  if (u2 / u1) < (1 - TOL) then BetterThanO1
  else if abs ((u2 / u1) - 1) <= TOL then O1
  else if ((u2 / u1) / (log2 n2 / log2 n1)) < (1 - TOL) then BetweenO1AndOLogN
  else if abs (((u2 / u1) / (log2 n2 / log2 n1)) - 1) <= TOL then OLogN
  else if ((u2 / u1) / (n2 / n1)) < (1 - TOL) then BetweenOLogNAndON
  else if abs (((u2 / u1) / (n2 / n1)) - 1) <= TOL then ON
  else if ((u2 / u1) / ((n2 * log2 n2) / (n1 * log2 n1))) < (1 - TOL) then BetweenONAndONLogN
  else if abs (((u2 / u1) / ((n2 * log2 n2) / (n1 * log2 n1))) - 1) <= TOL then ONLogN
  else if ((u2 / u1) / (powi (n2 / n1) 2%Z)) < (1 - TOL) then BetweenONLogNAndON2
  else if abs (((u2 / u1) / (powi (n2 / n1) 2%Z)) - 1) <= TOL then ON2
  else if ((u2 / u1) / (powi (n2 / n1) 3%Z)) < (1 - TOL) then BetweenON2AndON3
  else if abs (((u2 / u1) / (powi (n2 / n1) 3%Z)) - 1) <= TOL then ON3
  else if ((u2 / u1) / (powi (n2 / n1) 4%Z)) < (1 - TOL) then BetweenON3AndON4
  else if abs (((u2 / u1) / (powi (n2 / n1) 4%Z)) - 1) <= TOL then ON4
  else if (u2 / (powf u1 (n2 / n1))) < (1 - TOL) then BetweenON4AndOkN
  else if abs ((u2 / (powf u1 (n2 / n1))) - 1) <= TOL then OkN
  else WorseThanExponential.

(** low_level_analysis.rs:54-72 [analyse_set_resizing_iterator_complexity] --
    literal transcription ([a > b] is [b < a]). *)
Definition analyse_set_resizing (u1 u2 n : num N) : complexity :=
  if TOL < ((u1 / u2) - 1) then BetterThanO1
  else if abs ((u2 / u1) - 1) <= TOL then O1
  else if ((u2 / u1) / (log2 (n * 3) / log2 n)) < 1 then BetweenO1AndOLogN
  else if abs (((u2 / u1) / (log2 (n * 3) / log2 n)) - 1) < TOL then OLogN
  else if abs (((u2 / u1) / 3) - 1) <= TOL then ON
  else if TOL < (((u2 / u1) / 3) - 1) then BetweenONAndONLogN
  else BetweenOLogNAndON.
End Generic.

(** features.rs:7-13: the two tolerances a build can select. *)
Inductive tolerance := Tol10 | Tol25.

(** ** binary64 instance *)
(** 0.10_f64 = 7205759403792794 * 2^-56 and 0.25_f64 = 2^-2 (literals of
    features.rs:9 and :13, correctly rounded by rustc). *)
Definition tol64 (t : tolerance) : f64 :=
  match t with Tol10 => f64_scaled 7205759403792794 (-56) | Tol25 => f64_scaled 1 (-2) end.

(** The three functions rustc gets from the platform's libm / compiler-rt; the
    theorems quantify over them. *)
(** low_level_analysis.rs:12-72 calls [log2], [powi] and [powf] *)
Record libm := Libm {
  lm_log2 : f64 -> f64;
  lm_powi : f64 -> Z -> f64;
  lm_powf : f64 -> f64 -> f64
}.

(** low_level_analysis.rs:12-72, in f64 *)
Definition N64 (t : tolerance) (l : libm) : numsys :=
  NumSys f64 f64_div f64_mul f64_sub f64_abs f64_ltb f64_leb
         (lm_log2 l) (lm_powi l) (lm_powf l) (f64_of_int 1) (f64_of_int 3) (tol64 t).

(** low_level_analysis.rs:12-48 *)
Definition analyse64 t l : f64 -> f64 -> f64 -> f64 -> complexity := analyse_complexity (N64 t l).
(** low_level_analysis.rs:54-72 *)
Definition resizing64 t l : f64 -> f64 -> f64 -> complexity := analyse_set_resizing (N64 t l).

(** ** Real-number instance *)
(** features.rs:7-13 *)
Definition tolR (t : tolerance) : R := match t with Tol10 => (1/10)%R | Tol25 => (1/4)%R end.

(** low_level_analysis.rs:12-72, in exact arithmetic (specification) *)
Definition NR (t : tolerance) : numsys :=
  NumSys R Rdiv Rmult Rminus Rabs Rlt_bool Rle_bool
         (fun x => (ln x / ln 2)%R) (fun x k => powerRZ x k) Rpower 1%R 3%R (tolR t).

(** low_level_analysis.rs:12-48, in exact arithmetic *)
Definition analyseR t : R -> R -> R -> R -> complexity := analyse_complexity (NR t).
(** low_level_analysis.rs:54-72, in exact arithmetic *)
Definition resizingR t : R -> R -> R -> complexity := analyse_set_resizing (NR t).

(** ** Measurements and the six public analyses *)

(** std (no code of /repo); std::time::Duration: a number of nanoseconds, 0 <= d < 2^64 * 10^9 *)
Definition duration := Z.
Bind Scope Z_scope with duration.
(** std (no code of /repo) *)
Definition nanos_per_sec : Z := 1000000000.
(** std (no code of /repo) *)
Definition duration_ok (d : duration) : Prop := 0 <= d < two64 * nanos_per_sec.
(** std (no code of /repo); [Duration::as_secs_f64]: (secs as f64) + (nanos as f64) / 1e9 (Rust std) *)
Definition as_secs_f64 (d : duration) : f64 :=
  f64_add (f64_of_int (d / nanos_per_sec))
          (f64_div (f64_of_int (d mod nanos_per_sec)) (f64_of_int nanos_per_sec)).

(** types.rs:137-146 [BigOSpacePassMeasurements] *)
Record space_pass := SpacePass {
  used_memory_before : Z;
  used_memory_after : Z;
  max_used_memory : Z;
  min_used_memory : Z
}.

(** space_analysis.rs:18,41,68 [(max_used_memory - used_memory_before) as f64] *)
Definition max_growth (b : build) (m : space_pass) : res f64 :=
  d <- usize_sub b (max_used_memory m) (used_memory_before m) ;; Val (f64_of_int d).

(** time_analysis.rs:11-24; [pass1_n], [pass2_n]: u32 *)
Definition analyse_time_complexity t l (pass1_n pass2_n : Z) (t1 t2 : duration) : complexity :=
  analyse64 t l (as_secs_f64 t1) (as_secs_f64 t2) (f64_of_int pass1_n) (f64_of_int pass2_n).

(** time_analysis.rs:37-50 *)
Definition analyse_time_complexity_constant_set t l (pass_1_set_size pass_2_set_size : Z) (t1 t2 : duration)
  : complexity :=
  analyse64 t l (as_secs_f64 t1) (as_secs_f64 t2)
    (f64_of_int (Z.min pass_1_set_size pass_2_set_size))
    (f64_of_int (Z.max pass_1_set_size pass_2_set_size)).

(** time_analysis.rs:63-73 *)
Definition analyse_time_complexity_set_resizing t l (delta_set_size : Z) (t1 t2 : duration) : complexity :=
  resizing64 t l (as_secs_f64 t1) (as_secs_f64 t2) (f64_of_int delta_set_size).

(** space_analysis.rs:14-26 *)
Definition analyse_space_complexity b t l (pass1_n pass2_n : Z) (m1 m2 : space_pass) : res complexity :=
  s1 <- max_growth b m1 ;;
  s2 <- max_growth b m2 ;;
  Val (analyse64 t l s1 s2 (f64_of_int pass1_n) (f64_of_int pass2_n)).

(** space_analysis.rs:37-49 *)
Definition analyse_space_complexity_constant_set b t l (pass_1_set_size pass_2_set_size : Z) (m1 m2 : space_pass)
  : res complexity :=
  s1 <- max_growth b m1 ;;
  s2 <- max_growth b m2 ;;
  Val (analyse64 t l s1 s2
         (f64_of_int (Z.min pass_1_set_size pass_2_set_size))
         (f64_of_int (Z.max pass_1_set_size pass_2_set_size))).

(** space_analysis.rs:62-72 *)
Definition analyse_space_complexity_set_resizing b t l (delta_set_size : Z) (m1 m2 : space_pass)
  : res complexity :=
  s1 <- max_growth b m1 ;;
  s2 <- max_growth b m2 ;;
  Val (resizing64 t l s1 s2 (f64_of_int delta_set_size)).

(** common.rs:156-165, 205-214, 261-272: the sentinel used when the save-point
    ring buffer overflowed during a pass. *)
Definition sentinel_space : space_pass :=
  {| used_memory_before := 0; used_memory_after := two64 - 1;
     max_used_memory := two64 - 1; min_used_memory := 0 |}.
