(** * The texts of the panics of test_algorithm and of the async builder's test_algorithm.
    Models /repo/src/runners/standard.rs:44-53, 109, 113 and
    /repo/src/api/builders/regular_async_builder.rs:70-79, 178-179, 187-188.  Which of them
    happens is Standard.v and Builder.v.

    Simplified: the code makes the text of a mismatch when it happens and keeps the text;
    here the values are kept and rendered at the end.  [loggable_retry_errors] is
    keen_retry's (external): any function of the list of texts. *)
From Coq Require Import ZArith String Ascii List Bool.
From Verif Require Import Machine Complexity Report Analysis Crud CrudMsg Free Standard Builder.
Import ListNotations.
Open Scope Z_scope.

(** standard.rs:109 and 113; regular_async_builder.rs:178-179 and 187-188 (the same format strings) *)
Definition mismatch_msg (test_name : string) (w : what) (expected observed : complexity) : string :=
  match w with
  | Space => (newline ++ " ** Aborted due to SPACE complexity mismatch on '" ++ test_name ++ "' operation: maximum: " ++
              debug_name expected ++ ", measured: " ++ debug_name observed ++ newline ++ newline)%string
  | Time => (newline ++ " ** TIME complexity mismatch on '" ++ test_name ++ "' operation: maximum: " ++
             debug_name expected ++ ", measured: " ++ debug_name observed ++ " -- a reattempt may be performed..." ++ newline ++ newline)%string
  end.
(** standard.rs:109,113 *)
Definition std_msg (test_name : string) (e : std_error) : string := mismatch_msg test_name (se_what e) (se_max e) (se_observed e).
(** regular_async_builder.rs:178-179,187-188 *)
Definition b_msg (e : b_error) : string := mismatch_msg (be_name e) (be_what e) (be_max e) (be_observed e).

Section Loggable.
Variable loggable_retry_errors : list string -> string.
(** standard.rs:44-50; regular_async_builder.rs:70-76 (the same match) *)
Definition failure_msg {O E} (render : E -> string) (max_attempts : Z) (result : resolved O E) : option string :=
  match result with
  | ResOk _ => None
  | ResFatal error => Some (render error)
  | ResRecovered _ _ => None
  | ResGivenUp retry_errors fatal_error =>
      Some ("Given up with '" ++ render fatal_error ++ "' after " ++ dec max_attempts ++
            " attempts. Previous transient errors: " ++ loggable_retry_errors (map render retry_errors))%string
  | ResUnrecoverable retry_errors fatal_error =>
      Some ("Stopped after retrying for " ++ dec max_attempts ++ " attempts due to the fatal outcome '" ++ render fatal_error ++
            "'. Previous transient errors: " ++ loggable_retry_errors (map render retry_errors))%string
  end.
Local Notation "x <-- m ; k" := (fbind m (fun x => k)) (at level 61, m at next level, right associativity).
(** standard.rs:32-54: the text given to [panic!], if any *)
Definition test_algorithm_text b t l cfg (max_retry_attempts : Z) : fprog sans (option string) :=
  result <-- retry_with_delays (fun _ => analyse_algorithm b t l cfg) (analyse_algorithm b t l cfg) (Z.to_nat max_retry_attempts) ;
  FRet (failure_msg (std_msg (st_name cfg)) max_retry_attempts result).
(** regular_async_builder.rs:61-80: the text given to [panic!], if any *)
Definition test_algorithm_async_text {F D X} b t l (self : builder F X) : fprog (@bans F D X) (option string) :=
  let max_attempts := unwrap_or (b_max_reattempts self) 0 in
  result <-- retry_with_delays (reattempt b t l) (raw_analyse b t l self None) (Z.to_nat max_attempts) ;
  FRet (failure_msg b_msg max_attempts result).
End Loggable.
