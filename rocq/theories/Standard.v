(** * test_algorithm.
    Models /repo/src/runners/standard.rs:32-122 and common.rs:31-41, 191-225.

    Everything output is here; StdText.v turns the items into strings.
    Simplified: the 5 s delays between runs and the computation of a pass's
    measurements from clock and allocator (common.rs:193-216) are not modelled: a
    pass's measurements are whatever the world answers. *)
From Coq Require Import List ZArith String.
From Verif Require Import Machine Complexity Analysis Report Crud CrudMsg Free.
Import ListNotations.
Open Scope Z_scope.
Local Open Scope string_scope.

Inductive squery :=
| SReset                       (* reset_fn *)
| SPass1                       (* pass1_algorithm *)
| SPass2                       (* pass2_algorithm *)
| SOut (i : sitem)             (* OUTPUT *)
with sitem :=
| SIText (s : string)                          (* standard.rs:67,104: a fixed text *)
| SIPass (prefix : string) (t : duration) (s : shown) (suffix : string)  (* common.rs:39 *)
| SIAnalysis (name : string) (r : analysis_report)  (* standard.rs:105 *)
| SIMismatch (name : string) (w : what) (max observed : complexity)  (* standard.rs:109-110,113-114 *)
| SIComputed (r : Z).                          (* standard.rs:117 *)
(** common.rs:191-225: a pass answers what was measured and the computed number; [reset_fn] returns () *)
Definition sans (q : squery) : Type :=
  match q with
  | SReset => pass_result
  | SPass1 | SPass2 => pass_result * Z
  | SOut _ => unit
  end.

(** standard.rs:32-54: the parameters *)
Record std_cfg := StdCfg {
  st_name : string;                                   (* test_name *)
  st_n1 : Z; st_n2 : Z;                               (* pass1_set_size, pass2_set_size : u32 *)
  st_max_time : complexity; st_max_space : complexity }.
(** standard.rs:108-116: the values the message is made of *)
Record std_error := StdError { se_what : what; se_max : complexity; se_observed : complexity }.

Section Run.
Variables (b : build) (t : tolerance) (l : libm) (cfg : std_cfg).
Local Notation "x <-- m ; k" := (fbind m (fun x => k)) (at level 61, m at next level, right associativity).
Local Notation P := (fprog sans).

Definition s_out (i : sitem) : P unit := ask (SOut i).
(** common.rs:38-40: output after [run_sync_pass] *)
Definition show_pass (prefix : string) (m : pass_result) (suffix : string) : P unit :=
  s <-- flift (fmt_over_n b (pr_space m) 1) ;
  s_out (SIPass prefix (pr_time m) s suffix).

(** standard.rs:57-122 *)
Definition analyse_algorithm : P (retry_result unit Z std_error) :=
  _ <-- s_out (SIText ("Running '" ++ st_name cfg ++ "' algorithm:" ++ newline)) ;   (* l.67 *)
  m0 <-- ask SReset ;                                                                (* l.68 *)
  _ <-- show_pass "  Resetting: " m0 "" ;
  x1 <-- ask SPass1 ;                                                                (* l.69 *)
  _ <-- show_pass "; Pass 1: " (fst x1) "" ;
  x2 <-- ask SPass2 ;                                                                (* l.70 *)
  _ <-- show_pass "; Pass 2: " (fst x2) "" ;
  let m1 := fst x1 in
  let m2 := fst x2 in
  let tc := analyse_time_complexity t l (st_n1 cfg) (st_n2 cfg) (pr_time m1) (pr_time m2) in
  sc <-- flift (analyse_space_complexity b t l (st_n1 cfg) (st_n2 cfg) (pr_space m1) (pr_space m2)) ;
  _ <-- s_out (SIText (newline ++ newline)) ;                                        (* l.104 *)
  rep <-- flift (analysis_display b (regular_rows b (st_n1 cfg) (st_n2 cfg) (pr_time m1) (pr_time m2) (pr_space m1) (pr_space m2))
                   tc sc (pr_space m1) (pr_space m2)) ;
  _ <-- s_out (SIAnalysis (st_name cfg) rep) ;
  if worse_than sc (st_max_space cfg) then
    _ <-- s_out (SIMismatch (st_name cfg) Space (st_max_space cfg) sc) ;
    FRet (RFatal tt (StdError Space (st_max_space cfg) sc))
  else if worse_than tc (st_max_time cfg) then
    _ <-- s_out (SIMismatch (st_name cfg) Time (st_max_time cfg) tc) ;
    FRet (RTransient tt (StdError Time (st_max_time cfg) tc))
  else
    let r := Z.lxor (Z.lxor 0 (snd x1)) (snd x2) in
    _ <-- s_out (SIComputed r) ;
    FRet (ROk r).

(** standard.rs:32-54; [StdPanicked] is the [panic!] of l.52 with what its message contains *)
Inductive std_end := StdPassed | StdPanicked (retry_errors : list std_error) (e : std_error).
(** standard.rs:32-54 *)
Definition test_algorithm (max_retry_attempts : Z) : P std_end :=
  result <-- retry_with_delays (fun _ => analyse_algorithm) analyse_algorithm (Z.to_nat max_retry_attempts) ;
  FRet match result with
       | ResOk _ | ResRecovered _ _ => StdPassed
       | ResFatal e => StdPanicked [] e
       | ResGivenUp es e | ResUnrecoverable es e => StdPanicked es e
       end.
End Run.
