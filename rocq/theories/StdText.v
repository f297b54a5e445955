(** * Everything test_algorithm prints.
    Models /repo/src/runners/standard.rs:67-70, 104-118 and common.rs:39: the strings given to
    [OUTPUT] for the items of Standard.v. *)
From Coq Require Import ZArith String List.
From Verif Require Import Machine Complexity Analysis Report Crud CrudMsg Free Standard StandardSpec RunnerMsg Format ReportText.
Import ListNotations.
Local Open Scope string_scope.

(** standard.rs:67, 104 (fixed), common.rs:39, standard.rs:105, 109-110 and 113-114, 117-118 *)
Definition sitem_text (i : sitem) : string :=
  match i with
  | SIText s => s
  | SIPass prefix t s suffix => pass_line prefix t s suffix
  | SIAnalysis name r => analysis_text Regular name r ++ newline
  | SIMismatch name w max observed => mismatch_msg name w max observed
  | SIComputed r => "r=" ++ dec r ++ newline ++ newline
  end.
(** features.rs:15-25, 51-66: what was given to [OUTPUT], in order (with `report_stdout` or `report_stderr`: what was printed) *)
Definition printed (tr : list (fevent sans)) : string := String.concat "" (map sitem_text (sshown tr)).
