(** * The textual reports: which values they show and when building them panics.
    Models /repo/src/low_level_analysis/types/types_impl.rs:51-201.

    Here a rendered number is kept as the float it renders, with its number of
    decimals, and the fixed text of the tables is dropped; ReportText.v turns
    these values into the strings. *)
From Coq Require Import ZArith String List DecimalString.
From Flocq Require Import Core.Core IEEE754.BinarySingleNaN.
From Verif Require Import Machine Complexity Floats Analysis.
Import ListNotations.
Open Scope Z_scope.

(** std (no code of /repo); ["\n"] *)
Definition newline : string := String (Ascii.Ascii false true false true false false false false) EmptyString.
(** std (no code of /repo); [{}] on a u32 or usize: decimal digits, no leading zeros, "0" for zero (std) *)
Definition dec (n : Z) : string := NilZero.string_of_uint (N.to_uint (Z.to_N n)).

(** std (no code of /repo); round(a / d) to the nearest integer, ties to even; 0 < d *)
Definition round_half_even (a d : Z) : Z :=
  let q := a / d in
  let r := a mod d in
  if 2 * r <? d then q
  else if d <? 2 * r then q + 1
  else if Z.even q then q else q + 1.

(** [Duration::from_secs_f64] (Rust std): exact value rounded to the nearest
    nanosecond (ties to even); panics on negative, NaN, infinite and on
    2^64 seconds or more. *)
(** std (no code of /repo) *)
Definition from_secs_f64 (x : f64) : res duration :=
  match x with
  | B754_zero _ => Val 0
  | B754_finite false m e _ =>
      let ns := if 0 <=? e then Zpos m * 2 ^ e * nanos_per_sec
                else round_half_even (Zpos m * nanos_per_sec) (2 ^ (- e)) in
      if ns <? two64 * nanos_per_sec then Val ns else Panic PDuration
  | _ => Panic PDuration
  end.

(** types_impl.rs:85,89,115,119,140-141:
    [Duration::from_secs_f64(t.as_secs_f64() / n as f64)] *)
Definition time_per (t : duration) (n : Z) : res duration :=
  from_secs_f64 (f64_div (as_secs_f64 t) (f64_of_int n)).

(** ** Memory amounts *)
Definition f32_abs : f32 -> f32 := Babs.
(** std (no code of /repo); f32::round -- nearest integer, ties away from zero *)
Definition f32_round : f32 -> f32 := Bnearbyint mode_NA.
(** literals of types_impl.rs:165-166, 190-194 *)
Definition f32_zero : f32 := f32_of_int 0.
(** types_impl.rs:196: the f32 literal 1e-3 = 8589935 * 2^-33 *)
Definition f32_milli : f32 := binary_normalize 24 128 _ _ mode_NE 8589935 (-33) false.
(** literals of types_impl.rs:165-166, 190-194 *)
Definition kib : f32 := f32_of_int 1024.
(** literals of types_impl.rs:165-166, 190-194 *)
Definition mib : f32 := f32_of_int 1048576.
(** literals of types_impl.rs:165-166, 190-194 *)
Definition gib : f32 := f32_of_int 1073741824.

(** types_impl.rs:188-201: a rendered amount of memory: sign, number, decimals, unit *)
Record shown := Shown { sh_sign : string; sh_value : f32; sh_decimals : nat; sh_unit : string }.

(** types_impl.rs:188-201 [fmt_over_n]; [n : u32].  The branch for GiB does not
    take the absolute value, the others do, as in the source. *)
Definition fmt_over_n (b : build) (m : space_pass) (n : Z) : res shown :=
  let delta := f32_div (f32_sub (f32_of_int (used_memory_after m)) (f32_of_int (used_memory_before m))) (f32_of_int n) in
  let sign := if f32_ltb f32_zero delta then "+"%string
              else if f32_ltb delta f32_zero then "-"%string else ""%string in
  up <- usize_sub b (max_used_memory m) (used_memory_before m) ;;
  down <- usize_sub b (used_memory_before m) (min_used_memory m) ;;
  let used := f32_div (f32_of_int (Z.max up down)) (f32_of_int n) in
  let unit := if f32_ltb gib (f32_abs used) then "GiB"%string
              else if f32_ltb mib (f32_abs used) then "MiB"%string
              else if f32_ltb kib (f32_abs used) then "KiB"%string else "b"%string in
  let value := if f32_ltb gib (f32_abs used) then f32_div used gib
               else if f32_ltb mib (f32_abs used) then f32_div (f32_abs used) mib
               else if f32_ltb kib (f32_abs used) then f32_div (f32_abs used) kib
               else f32_abs used in
  let decimals := if f32_ltb (f32_abs (f32_sub (f32_round value) value)) f32_milli && String.eqb unit "b"
                  then 0%nat else 2%nat in
  Val (Shown sign value decimals unit).

(** types_impl.rs:150-153 [used_memory_delta], left to right, in isize *)
Definition used_memory_delta (b : build) (m1 m2 : space_pass) : res Z :=
  x <- checked_i64 b (usize_as_isize (used_memory_after m2) - usize_as_isize (used_memory_before m2)) ;;
  y <- checked_i64 b (x + usize_as_isize (used_memory_after m1)) ;;
  checked_i64 b (y - usize_as_isize (used_memory_before m1)).

(** types_impl.rs:156-159 [used_auxiliary_space], left to right, in usize *)
Definition used_auxiliary_space (b : build) (m1 m2 : space_pass) : res Z :=
  x <- usize_sub b (max_used_memory m2) (Z.max (used_memory_after m2) (used_memory_before m2)) ;;
  y <- usize_add b x (max_used_memory m1) ;;
  usize_sub b y (Z.max (used_memory_after m1) (used_memory_before m1)).

(** types_impl.rs:164-168 [to_human_readable_string] *)
Definition human_readable (used : f32) : shown :=
  let unit := if f32_ltb gib used then "GiB"%string else if f32_ltb mib used then "MiB"%string
              else if f32_ltb kib used then "KiB"%string else "b"%string in
  let value := if f32_ltb gib used then f32_div used gib else if f32_ltb mib used then f32_div used mib
               else if f32_ltb kib used then f32_div used kib else used in
  Shown "" value 2 unit.

(** types_impl.rs:161-177: "allocated"/"freed", the amount, the auxiliary space.
    [isize::abs] overflows on isize::MIN. *)
Record space_summary := SpaceSummary { ss_op : string; ss_amount : shown; ss_auxiliary : shown }.
(** types_impl.rs:161-177 *)
Definition space_display (b : build) (m1 m2 : space_pass) : res space_summary :=
  d <- used_memory_delta b m1 m2 ;;
  let op := if 0 <=? d then "allocated"%string else "freed"%string in
  aux <- used_auxiliary_space b m1 m2 ;;
  a <- checked_i64 b (Z.abs d) ;;
  Val (SpaceSummary op (human_readable (f32_of_int a)) (human_readable (f32_of_int aux))).

(** ** Per-pass rows and the whole report of an analysis *)
Record row := Row { row_time : duration; row_space : shown; row_n : Z; row_detail : list shown; row_repetitions : list Z; row_per_n : duration }.
(** types_impl.rs:51-60 *)
Record analysis_report := AnalysisReport {
  rep_rows : list row;
  rep_time : string;            (* as_time_pretty_str *)
  rep_space : string;           (* as_space_pretty_str *)
  rep_summary : space_summary }.

(** types_impl.rs:68-92 *)
Definition regular_rows (b : build) (n1 n2 : Z) (t1 t2 : duration) (m1 m2 : space_pass) : res (list row) :=
  s1 <- fmt_over_n b m1 1 ;;
  s2 <- fmt_over_n b m2 1 ;;
  p1 <- fmt_over_n b m1 n1 ;;
  p2 <- fmt_over_n b m2 n2 ;;
  d1 <- time_per t1 n1 ;;
  d2 <- time_per t2 n2 ;;
  Val [Row t1 s1 n1 [p1] [] d1; Row t2 s2 n2 [p2] [] d2].

(** types_impl.rs:100-122 *)
Definition constant_set_rows (b : build) (size1 size2 repetitions : Z) (t1 t2 : duration) (m1 m2 : space_pass) : res (list row) :=
  s1 <- fmt_over_n b m1 1 ;;
  s2 <- fmt_over_n b m2 1 ;;
  d1 <- time_per t1 repetitions ;;
  d2 <- time_per t2 repetitions ;;
  Val [Row t1 s1 size1 [] [repetitions] d1; Row t2 s2 size2 [] [repetitions] d2].

(** types_impl.rs:130-144 *)
Definition set_resizing_rows (b : build) (delta : Z) (t1 t2 : duration) (m1 m2 : space_pass) : res (list row) :=
  s1 <- fmt_over_n b m1 1 ;;
  s2 <- fmt_over_n b m2 1 ;;
  d1 <- time_per t1 delta ;;
  twice <- u32_mul b delta 2 ;;
  d2 <- time_per t2 delta ;;
  Val [Row t1 s1 delta [] [] d1; Row t2 s2 twice [] [] d2].

(** types_impl.rs:51-60 *)
Definition analysis_display (b : build) (rows : res (list row)) (tc sc : complexity) (m1 m2 : space_pass) : res analysis_report :=
  rs <- rows ;;
  s <- space_display b m1 m2 ;;
  Val (AnalysisReport rs (as_time_pretty_str tc) (as_space_pretty_str sc) s).
