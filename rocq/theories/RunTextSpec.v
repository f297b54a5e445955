(** * What the runners must print (specification; no code of /repo). *)
From Coq Require Import ZArith Reals String Ascii List.
From Verif Require Import Machine Complexity Analysis Report Crud CrudMsg ReadSpec ReportTextSpec.
Import ListNotations.
Local Open Scope string_scope.

(** what a pass measured: time "/" memory; the time reads back exactly *)
Definition measured_text (txt : string) (m : pass_result) : Prop :=
  exists T M, txt = T ++ "/" ++ M /\ split_on "/"%char txt = [T; M] /\
    read_duration T = Some (IZR (pr_time m)) /\ memory_text M (pr_space m) 1.
(** the report on a regular algorithm *)
Definition regular_report_text (txt name : string) (n1 n2 : Z) (m1 m2 : pass_result) (tc sc : complexity) : Prop :=
  report_says txt ("'" ++ name ++ "' regular-algorithm measurements:") ["pass"; "Δt"; "Δs"; "n"; "s⁻"; "t⁻"]
    (fun line => pass_row line "1)" (pr_time m1) (pr_space m1) n1 (memory_per (pr_space m1) n1) n1)
    (fun line => pass_row line "2)" (pr_time m2) (pr_space m2) n2 (memory_per (pr_space m2) n2) n2) tc sc (pr_space m1) (pr_space m2).
