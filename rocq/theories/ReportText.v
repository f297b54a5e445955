(** * The texts of the reports.
    Models /repo/src/low_level_analysis/types/types_impl.rs:51-205 and the lines of
    /repo/src/runners/common.rs:27,39,54: the strings written for the values of Report.v.
    A line continuation in a format string of the source swallows the indentation of the next line. *)
From Coq Require Import ZArith String List.
From Verif Require Import Machine Complexity Floats Analysis Report CrudMsg Format.
Import ListNotations.
Open Scope string_scope.

(** types_impl.rs:197, 199 and (with no sign) 167: sign, number, unit *)
Definition cell (s : shown) : string := sh_sign s ++ fixed (sh_decimals s) (sh_value s) ++ sh_unit s.
(** types_impl.rs:172-175 *)
Definition summary_text (s : space_summary) : string :=
  ss_op s ++ ": " ++ cell (ss_amount s) ++ "; auxiliary used space: " ++ cell (ss_auxiliary s).

(** types_impl.rs:78-79, 108-109, 138-139: [{:>13}  {:>14}  {:>12}  {:>12}  {:>12.3?}]: time, memory, size,
    then the memory per element (regular algorithms) or the repetitions (constant set), then the time per element *)
Definition row_line (label : string) (r : row) : string :=
  label ++ " " ++ pad 13 (duration_debug (row_time r)) ++ "  " ++ pad 14 (cell (row_space r)) ++ "  " ++ pad 12 (dec (row_n r)) ++ "  "
  ++ String.concat "" (map (fun s => pad 12 (cell s) ++ "  ") (row_detail r))
  ++ String.concat "" (map (fun n => pad 12 (dec n) ++ "  ") (row_repetitions r))
  ++ pad 12 (duration_debug_prec 3 (row_per_n r)) ++ newline.
(** the kinds of measurements: types_impl.rs:68, 100, 130 *)
Inductive kind := Regular | ConstantSet | SetResizing.
(** types_impl.rs:76, 106, 136 *)
Definition kind_name (k : kind) : string :=
  match k with Regular => "regular-algorithm" | ConstantSet => "constant set iterator-algorithm" | SetResizing => "set resizing iterator-algorithm" end.
(** types_impl.rs:77, 107, 137 *)
Definition columns (k : kind) : string :=
  match k with
  | Regular => "pass          Δt              Δs             n            s⁻           t⁻"
  | ConstantSet => "pass          Δt              Δs            Σn            ⊆r            t⁻"
  | SetResizing => "pass          Δt              Δs            Σn            t⁻"
  end.
(** types_impl.rs:76-92, 106-122, 136-142 *)
Definition measurements_text (k : kind) (name : string) (rows : list row) : string :=
  "'" ++ name ++ "' " ++ kind_name k ++ " measurements:" ++ newline ++ columns k ++ newline
  ++ match rows with [r1; r2] => row_line "1)" r1 ++ row_line "2)" r2 | _ => EmptyString end.
(** types_impl.rs:51-60 [Display] of an analysis *)
Definition analysis_text (k : kind) (name : string) (r : analysis_report) : string :=
  measurements_text k name (rep_rows r)
  ++ "--> Algorithm  Time Analysis: " ++ rep_time r ++ newline
  ++ "--> Algorithm Space Analysis: " ++ rep_space r ++ " (" ++ summary_text (rep_summary r) ++ ")" ++ newline.

(** common.rs:27, 39, 54 *)
Definition pass_line (prefix : string) (t : duration) (s : shown) (suffix : string) : string :=
  prefix ++ duration_debug t ++ "/" ++ cell s ++ suffix.

(** types_impl.rs:51-92: the text of the analysis of a regular algorithm *)
Definition regular_report b name n1 n2 t1 t2 m1 m2 tc sc : res string :=
  r <- analysis_display b (regular_rows b n1 n2 t1 t2 m1 m2) tc sc m1 m2 ;; Val (analysis_text Regular name r).
(** types_impl.rs:51-60, 100-122: of an iterator algorithm on a constant set *)
Definition constant_set_report b name size1 size2 repetitions t1 t2 m1 m2 tc sc : res string :=
  r <- analysis_display b (constant_set_rows b size1 size2 repetitions t1 t2 m1 m2) tc sc m1 m2 ;; Val (analysis_text ConstantSet name r).
(** types_impl.rs:51-60, 130-144: of an iterator algorithm that resizes the set *)
Definition set_resizing_report b name delta t1 t2 m1 m2 tc sc : res string :=
  r <- analysis_display b (set_resizing_rows b delta t1 t2 m1 m2) tc sc m1 m2 ;; Val (analysis_text SetResizing name r).
(** common.rs:27, 39, 54: the line of a pass *)
Definition pass_output b prefix t m suffix : res string :=
  s <- fmt_over_n b m 1 ;; Val (pass_line prefix t s suffix).
