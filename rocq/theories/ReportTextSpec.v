(** * What the texts of a report must say (specification; no code of /repo). *)
From Coq Require Import ZArith Reals String List.
From Verif Require Import Complexity Analysis Report ReadSpec.
Import ListNotations.
Open Scope R_scope.

(** an amount of memory is shown to within 0.006 bytes or 1/199 of it, whichever is more *)
Definition close (x amount : R) : Prop := Rabs (x - amount) <= Rmax (6 / 1000) (amount / 199).
(** the largest distance the memory in use got from where it was when the pass started, per element *)
Definition swing_per (m : space_pass) (n : Z) : R :=
  IZR (Z.max (max_used_memory m - used_memory_before m) (used_memory_before m - min_used_memory m)) / IZR n.
(** a memory cell: the largest swing; "+" only if memory grew, "-" only if it shrank *)
Definition memory_text (txt : string) (m : space_pass) (n : Z) : Prop :=
  exists sign x, read_memory txt = Some (sign, x) /\ close x (swing_per m n) /\
    (sign = "+"%string -> (used_memory_before m < used_memory_after m)%Z) /\
    (sign = "-"%string -> (used_memory_after m < used_memory_before m)%Z).
(** a time per element: to within 0.51 nanoseconds and 1/1999 *)
Definition time_per_text (txt : string) (t : duration) (n : Z) : Prop :=
  exists x, read_duration txt = Some x /\ Rabs (x - IZR t / IZR n) <= 51 / 100 + IZR t / IZR n / 1999.
(** the row of a pass: its label, time, memory, size, other columns, and time per element *)
Definition pass_row (line label : string) (t : duration) (m : space_pass) (size : Z) (others : list string -> Prop) (per : Z) : Prop :=
  exists T M N O Q, words line = [label; T; M; N] ++ O ++ [Q] /\
    read_duration T = Some (IZR t) /\ memory_text M m 1 /\ read_int N = Some size /\ others O /\ time_per_text Q t per.
Definition no_other (l : list string) : Prop := l = [].
Definition memory_per (m : space_pass) (n : Z) (l : list string) : Prop := exists P, l = [P] /\ memory_text P m n.
Definition repetitions_column (rep : Z) (l : list string) : Prop := exists N, l = [N] /\ read_int N = Some rep.

(** net memory over both passes, and memory used only during them *)
Definition net (m1 m2 : space_pass) : Z :=
  ((used_memory_after m1 - used_memory_before m1) + (used_memory_after m2 - used_memory_before m2))%Z.
Definition auxiliary (m1 m2 : space_pass) : Z :=
  ((max_used_memory m1 - Z.max (used_memory_before m1) (used_memory_after m1))
   + (max_used_memory m2 - Z.max (used_memory_before m2) (used_memory_after m2)))%Z.
Definition summary_says (txt : string) (m1 m2 : space_pass) : Prop :=
  exists A X a x, txt = ((if (0 <=? net m1 m2)%Z then "allocated" else "freed") ++ ": " ++ A ++ "; auxiliary used space: " ++ X)%string /\
    read_bytes A = Some a /\ close a (IZR (Z.abs (net m1 m2))) /\ read_bytes X = Some x /\ close x (IZR (auxiliary m1 m2)).

(** a whole report: heading, column names, a row per pass, the two verdicts *)
Definition report_says (txt heading : string) (columns : list string) (row1 row2 : string -> Prop) (tc sc : complexity) (m1 m2 : space_pass) : Prop :=
  exists cols line1 line2 summary,
    lines txt = [heading; cols; line1; line2;
                 "--> Algorithm  Time Analysis: " ++ as_time_pretty_str tc;
                 "--> Algorithm Space Analysis: " ++ as_space_pretty_str sc ++ " (" ++ summary ++ ")";
                 ""]%string /\
    words cols = columns /\ row1 line1 /\ row2 line2 /\ summary_says summary m1 m2.
