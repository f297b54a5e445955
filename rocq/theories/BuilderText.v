(** * Everything the async builder's test_algorithm prints.
    Models /repo/src/api/builders/regular_async_builder.rs:65, 83, 89-134, 173-189 and
    common.rs:54: the strings given to [OUTPUT] for the items of Builder.v. *)
From Coq Require Import ZArith String List.
From Verif Require Import Machine Complexity Analysis Report Crud CrudMsg Free Builder RunnerMsg Format ReportText.
Import ListNotations.
Local Open Scope string_scope.

(** regular_async_builder.rs:65, 83, 173 (fixed), common.rs:54, regular_async_builder.rs:174, 178-180 and 187-189;
    l.272 and 301 are [println!]s of the dry run and do not go to [OUTPUT] *)
Definition bitem_text (i : bitem) : list string :=
  match i with
  | BIText s => [s]
  | BIPass prefix t s suffix => [pass_line prefix t s suffix]
  | BIAnalysis name r => [analysis_text Regular name r ++ newline]
  | BIMismatch name w max observed => [mismatch_msg name w max observed]
  | BIMeasurement _ _ => []
  end.
(** features.rs:15-25, 51-66: what was given to [OUTPUT], in order *)
Definition b_printed {F D X} (tr : list (fevent (@bans F D X))) : string :=
  String.concat "" (flat_map (fun e => match ev_query e with BOut i => bitem_text i | _ => [] end) tr).
