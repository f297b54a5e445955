(** * Everything test_crud_algorithms prints, and the reports it returns.
    Models /repo/src/runners/crud.rs:87, 89, 223-227, 363, 372, 428-501 and common.rs:27: the strings
    given to [OUTPUT] for the items of Crud.v. *)
From Coq Require Import ZArith String List.
From Verif Require Import Machine Complexity Analysis Report Crud CrudMsg CrudSpec Format ReportText.
Import ListNotations.
Local Open Scope string_scope.

(** types_impl.rs:100, 130: the measurements' [Display] *)
Definition kind_of (i : passes_info) : ReportText.kind :=
  match i with ConstantSetInfo _ _ _ => ReportText.ConstantSet | SetResizingInfo _ => ReportText.SetResizing end.
(** crud.rs:428-478, 494 (fixed); 465; common.rs:27; crud.rs:363 and 372; 482, 485, 488, 501; 498 *)
Definition item_text (i : item) : string :=
  match i with
  | IText s => s
  | IElapsed d => duration_debug d ++ ", "
  | IPass _ prefix t s suffix => pass_line prefix t s suffix
  | IAborted op w max observed =>
      " ** Aborted due to " ++ what_name w ++ " complexity mismatch on '" ++ operation_name op ++ "' operation: maximum: " ++
      debug_name max ++ ", measured: " ++ debug_name observed ++ newline ++ newline
  | IAnalysis op i r => analysis_text (kind_of i) (operation_name op) r ++ newline ++ newline
  | IComputed r => ") r=" ++ dec r ++ ":" ++ newline
  end.
(** crud.rs:221-227: [full_report], all that was given to [_output] *)
Definition report_text (items : list item) : string := String.concat "" (map item_text items).
(** features.rs:15-25, 51-66: what was given to [OUTPUT], in order (with `report_stdout` or `report_stderr`: what was printed) *)
Definition crud_printed (tr : list event) : string := report_text (outputs tr).
