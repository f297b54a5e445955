(** * The CRUD runner.
    Models /repo/src/runners/crud.rs:28-507 and common.rs:16-29, 277-295.

    The functions are transcribed into programs whose only effects are passes over
    the user's closures, calls of [reset_fn] and report output; [exec] below gives
    them their executions.  Output is kept as items; CrudText.v gives their strings.
    Simplified: the two clock reads around the warm-up (crud.rs:437,463-465) are one
    question for the time elapsed; the stdout flush (crud.rs:439) is dropped. *)
From Coq Require Import ZArith String Ascii List Bool.
From Verif Require Import Machine Complexity Analysis IterPass Report.
Import ListNotations.
Open Scope Z_scope.

(** common.rs:277-282 [PassResult] *)
Record pass_result := PassResult { pr_time : duration; pr_space : space_pass }.
(** common.rs:283-295 *)
Definition pass_result_default : pass_result := PassResult 0 (SpacePass 0 0 0 0).

Inductive operation := Create | Read | Update | Delete.
(** crud.rs:393,402,408,414: the [$operation_name] literals *)
Definition operation_name (op : operation) : string :=
  match op with Create => "Create" | Read => "Read" | Update => "Update" | Delete => "Delete" end%string.
(** std (no code of /repo); [to_ascii_lowercase] *)
Fixpoint lowercase (s : string) : string :=
  match s with
  | EmptyString => EmptyString
  | String c s => let n := nat_of_ascii c in
      String (if ((65 <=? n) && (n <=? 90))%nat then ascii_of_nat (n + 32) else c) (lowercase s)
  end.
(** bookkeeping (no code of /repo) *)
Definition operation_eqb (a b : operation) : bool :=
  match a, b with Create, Create | Read, Read | Update, Update | Delete, Delete => true | _, _ => false end.
(** Label of a pass: [Warmup] passes call [run_iterator_pass] directly (crud.rs:442-457),
    the two measured passes of an operation are [First] (pass_number 0) and [Second] (1).
    The label does not influence the execution. *)
Inductive phase := Warmup | First | Second.
(** crud.rs:245: [$pass_number], 0 or 1 *)
Definition phase_of (pass_number : Z) : phase := if pass_number =? 0 then First else Second.

(** ** Report items and analyses *)
(** types.rs:160-177: [passes_info] of the two kinds of iterator measurements *)
Inductive passes_info :=
| ConstantSetInfo (pass_1_set_size pass_2_set_size repetitions : Z)
| SetResizingInfo (delta_set_size : Z).
Inductive what := Time | Space.
Inductive item :=
| IText (s : string)                                                (* fixed texts: crud.rs:428, 438-460, 468, 473, 478, 494 *)
| IElapsed (d : duration)                                           (* crud.rs:465 *)
| IPass (op : operation) (prefix : string) (t : duration) (s : shown) (suffix : string)   (* common.rs:27 *)
| IAborted (op : operation) (w : what) (max observed : complexity)  (* crud.rs:363,372 *)
| IAnalysis (op : operation) (info : passes_info) (r : analysis_report)   (* crud.rs:482-488,501 *)
| IComputed (r : Z).                                                (* crud.rs:498 *)

(** types.rs:62-66: [BigOAlgorithmAnalysis] *)
Record analysis := Analysis {
  an_info : passes_info;
  an_pass_1 : pass_result;
  an_pass_2 : pass_result;
  an_time : complexity;
  an_space : complexity }.

(** crud.rs:183-190 [CRUDComplexityAnalysisError] *)
Record crud_error := CrudError {
  ce_operation : operation;       (* failed_operation *)
  ce_analysis : what;             (* failed_analysis *)
  ce_complexity : complexity;     (* failed_complexity *)
  ce_max : complexity;            (* failed_assertion_msg names the maximum *)
  ce_report : list item }.        (* partial_report *)

(** crud.rs:213-217 *)
Record crud_result := CrudResult {
  cr_create : option analysis;
  cr_read : option analysis;
  cr_update : option analysis;
  cr_delete : option analysis;
  cr_report : list item }.

(** ** The parameters *)
Record op_cfg := OpCfg {
  oc_iterations : Z;              (* *_iterations_per_pass : u32 *)
  oc_threads : Z;                 (* *_threads : u32 *)
  oc_max_time : complexity;       (* expected_*_time_complexity *)
  oc_max_space : complexity }.
(** crud.rs:201-212 *)
Record crud_cfg := CrudCfg {
  cc_name : string;               (* crud_name : &str *)
  cc_warmup : Z;                  (* warmup_percentage : u32 *)
  cc_create : op_cfg; cc_read : op_cfg; cc_update : op_cfg; cc_delete : op_cfg }.
(** bookkeeping (no code of /repo) *)
Definition cfg_of (c : crud_cfg) (op : operation) : op_cfg :=
  match op with Create => cc_create c | Read => cc_read c | Update => cc_update c | Delete => cc_delete c end.
(** bookkeeping (no code of /repo) *)
Definition iterations (c : crud_cfg) (op : operation) : Z := oc_iterations (cfg_of c op).

(** ** Programs *)
(** vocabulary of programs (no code of /repo) *)
Inductive prog (A : Type) :=
| Ret (a : A)
| Stop (p : panic)
| Pass (ph : phase) (op : operation) (ty : algorithm_type) (r : range) (threads : Z) (k : pass_result -> Z -> prog A)
| Reset (n : Z) (k : prog A)
| Output (i : item) (k : prog A)
| Clock (k : duration -> prog A).
Arguments Ret {A} a. Arguments Stop {A} p. Arguments Pass {A}. Arguments Reset {A}. Arguments Output {A}. Arguments Clock {A}.

(** bookkeeping (no code of /repo): sequencing *)
Fixpoint pbind {A B} (m : prog A) (k : A -> prog B) : prog B :=
  match m with
  | Ret a => k a
  | Stop p => Stop p
  | Pass ph op ty r T c => Pass ph op ty r T (fun x y => pbind (c x y) k)
  | Reset n c => Reset n (pbind c k)
  | Output i c => Output i (pbind c k)
  | Clock c => Clock (fun d => pbind (c d) k)
  end.
(** bookkeeping (no code of /repo); a sequential computation that may panic ([Spin] does not occur; it is mapped to a panic) *)
Definition lift {A} (m : res A) : prog A :=
  match m with Val a => Ret a | Panic p => Stop p | Spin => Stop PBugLoop end.

(** ** internal_analyse_crud_algorithms (crud.rs:200-507) *)
Section Internal.
Variables (b : build) (t : tolerance) (l : libm).
Variable cfg : crud_cfg.

(** crud.rs:221-238: the mutable locals *)
Record locals := Locals {
  lo_results : operation -> list pass_result;   (* the four *_passes_results arrays *)
  lo_r : Z;                                     (* r *)
  lo_report : list item }.                      (* full_report *)
(** crud.rs:221-238 *)
Definition locals_init : locals := Locals (fun _ => [pass_result_default; pass_result_default]) 0 [].

(** bookkeeping (no code of /repo); statements: may change the locals, may [return Err(..)] *)
Definition stmt (A : Type) := locals -> prog (A * locals + crud_error).
(** bookkeeping (no code of /repo) *)
Definition sret {A} (a : A) : stmt A := fun lo => Ret (inl (a, lo)).
(** bookkeeping (no code of /repo): sequencing; [return Err(..)] ends the function *)
Definition sbind {A B} (m : stmt A) (k : A -> stmt B) : stmt B :=
  fun lo => pbind (m lo) (fun x => match x with inl (a, lo') => k a lo' | inr e => Ret (inr e) end).
(** bookkeeping (no code of /repo) *)
Definition slift {A} (m : res A) : stmt A := fun lo => pbind (lift m) (fun a => Ret (inl (a, lo))).
Local Notation "x <-- m ; k" := (sbind m (fun x => k)) (at level 61, m at next level, right associativity).

(** crud.rs:224-227 [_output] *)
Definition output_ (i : item) : stmt unit :=
  fun lo => Output i (Ret (inl (tt, Locals (lo_results lo) (lo_r lo) (lo_report lo ++ [i])))).

(** common.rs:72-178 [run_iterator_pass] *)
Definition run_iterator_pass ph op ty r T : stmt (pass_result * Z) :=
  fun lo => Pass ph op ty r T (fun m v => Ret (inl ((m, v), lo))).
(** common.rs:16-29 [run_iterator_pass_verbosely] *)
Definition run_iterator_pass_verbosely ph op prefix suffix ty r T : stmt (pass_result * Z) :=
  x <-- run_iterator_pass ph op ty r T ;
  s <-- slift (fmt_over_n b (pr_space (fst x)) 1) ;
  _ <-- output_ (IPass op prefix (pr_time (fst x)) s suffix) ;
  sret x.

(** crud.rs:241 *)
Definition calc_regular_cru_range (iterations_per_pass pass_number : Z) : res range :=
  s <- u32_mul b iterations_per_pass pass_number ;;
  p <- u32_add b pass_number 1 ;;
  e <- u32_mul b iterations_per_pass p ;;
  Val (Range s e).
(** crud.rs:242 *)
Definition calc_regular_d_range (iterations_per_pass pass_number : Z) : res range :=
  p <- u32_add b pass_number 1 ;;
  s <- u32_mul b iterations_per_pass p ;;
  e <- u32_mul b iterations_per_pass pass_number ;;
  Val (Range s e).

(** [$passes_results[$pass_number] = pass_result; r ^= pass_r] (crud.rs:263-264, 327-328) *)
Definition store op (pass_number : Z) (m : pass_result) (pass_r : Z) : stmt unit :=
  fun lo => Ret (inl (tt, Locals
    (fun o => if operation_eqb o op then upd (Z.to_nat pass_number) m (lo_results lo o) else lo_results lo o)
    (Z.lxor (lo_r lo) pass_r) (lo_report lo))).
(** crud.rs:274-288, 336-341: [$passes_results[i]] *)
Definition load op (i : nat) : stmt pass_result :=
  fun lo => match nth_error (lo_results lo op) i with
            | Some m => Ret (inl (m, lo))
            | None => Stop PIndex
            end.

(** crud.rs:358-388 [yield_analysis_or_return_with_error!] *)
Definition yield_analysis op (info : passes_info) (m1 m2 : pass_result) (tc sc : complexity) : stmt (option analysis) :=
  let c := cfg_of cfg op in
  if worse_than tc (oc_max_time c) then
    _ <-- output_ (IAborted op Time (oc_max_time c) tc) ;
    fun lo => Ret (inr (CrudError op Time tc (oc_max_time c) (lo_report lo)))
  else if worse_than sc (oc_max_space c) then
    _ <-- output_ (IAborted op Space (oc_max_space c) sc) ;
    fun lo => Ret (inr (CrudError op Space sc (oc_max_space c) (lo_report lo)))
  else sret (Some (Analysis info m1 m2 tc sc)).

(** crud.rs:254-303 [run_constant_set_pass!]; crud.rs:399-410 instantiate it *)
Definition run_constant_set_pass op (suffix : string) (pass_number : Z) : stmt (option analysis) :=
  let c := cfg_of cfg op in
  if 0 <? oc_iterations c then
    r <-- slift (calc_regular_cru_range (oc_iterations c) pass_number) ;
    x <-- run_iterator_pass_verbosely (phase_of pass_number) op (lowercase (operation_name op) ++ ": ")%string suffix SetResizing r (oc_threads c) ;
    _ <-- store op pass_number (fst x) (snd x) ;
    if pass_number =? 2 - 1 then
      twice <-- slift (u32_mul b (iterations cfg Create) 2) ;
      m1 <-- load op 0%nat ;
      m2 <-- load op 1%nat ;
      let size := iterations cfg Create in
      let tc := analyse_time_complexity_constant_set t l size twice (pr_time m1) (pr_time m2) in
      sc <-- slift (analyse_space_complexity_constant_set b t l size twice (pr_space m1) (pr_space m2)) ;
      yield_analysis op (ConstantSetInfo size twice (oc_iterations c)) m1 m2 tc sc
    else sret None
  else sret None.

(** crud.rs:317-354 [run_set_resizing_pass!]; crud.rs:390-398 and 411-425 instantiate it *)
Definition run_set_resizing_pass op (suffix : string) (prefix_fn : Z -> string -> string) (range_fn : Z -> Z -> res range) (last_pass_number pass_number : Z) : stmt (option analysis) :=
  let c := cfg_of cfg op in
  if 0 <? oc_iterations c then
    r <-- slift (range_fn (oc_iterations c) pass_number) ;
    x <-- run_iterator_pass_verbosely (phase_of pass_number) op (prefix_fn pass_number (operation_name op)) suffix SetResizing r (oc_threads c) ;
    _ <-- store op pass_number (fst x) (snd x) ;
    if pass_number =? last_pass_number then
      m1 <-- load op 0%nat ;
      m2 <-- load op 1%nat ;
      let delta := oc_iterations c in
      let tc := analyse_time_complexity_set_resizing t l delta (pr_time m1) (pr_time m2) in
      sc <-- slift (analyse_space_complexity_set_resizing b t l delta (pr_space m1) (pr_space m2)) ;
      yield_analysis op (SetResizingInfo delta) m1 m2 tc sc
    else sret None
  else sret None.

(** crud.rs:391, 400: the separator after an operation's measurements *)
Definition separator (more : bool) : string := (if more then ", " else "")%string.
(** crud.rs:389-398 *)
Definition run_create_pass :=
  run_set_resizing_pass Create (separator ((0 <? iterations cfg Read) || (0 <? iterations cfg Update)))
    (fun _ pass_name => lowercase pass_name ++ ": ")%string calc_regular_cru_range (2 - 1).
(** crud.rs:399-404 *)
Definition run_read_pass := run_constant_set_pass Read (separator (0 <? iterations cfg Update)).
(** crud.rs:405-410 *)
Definition run_update_pass := run_constant_set_pass Update ""%string.
(** crud.rs:411-425 *)
Definition run_delete_pass :=
  run_set_resizing_pass Delete ""%string (fun pass_number _ => if pass_number =? 2 - 1 then "2nd: "%string else "; 1st: "%string)
    calc_regular_d_range 0.

(** [iterations_per_pass * warmup_percentage / 100] (crud.rs:434-435, 461) *)
Definition warmup_count (iterations_per_pass : Z) : res Z :=
  x <- u32_mul b iterations_per_pass (cc_warmup cfg) ;; Val (x / 100).
(** crud.rs:434 *)
Definition calc_warmup_cru_range (n : Z) : res range := e <- warmup_count n ;; Val (Range 0 e).
(** crud.rs:435 *)
Definition calc_warmup_d_range (n : Z) : res range := s <- warmup_count n ;; Val (Range s 0).

(** crud.rs:440-459: one of the four warm-up passes *)
Definition warmup_pass op (letter : string) ty (range_fn : Z -> res range) : stmt unit :=
  let c := cfg_of cfg op in
  if 0 <? oc_iterations c then
    _ <-- output_ (IText letter) ;
    r <-- slift (range_fn (oc_iterations c)) ;
    x <-- run_iterator_pass Warmup op ty r (oc_threads c) ;
    fun lo => Ret (inl (tt, Locals (lo_results lo) (Z.lxor (lo_r lo) (snd x)) (lo_report lo)))
  else sret tt.

(** crud.rs:431-466 *)
Definition warmup : stmt unit :=
  if 0 <? cc_warmup cfg then
    _ <-- output_ (IText "warming up ["%string) ;
    _ <-- warmup_pass Create "C"%string SetResizing calc_warmup_cru_range ;
    _ <-- warmup_pass Read "R"%string ConstantSet calc_warmup_cru_range ;
    _ <-- warmup_pass Update "U"%string ConstantSet calc_warmup_cru_range ;
    _ <-- warmup_pass Delete "D"%string SetResizing calc_warmup_d_range ;
    _ <-- output_ (IText "] "%string) ;
    n <-- slift (warmup_count (iterations cfg Create)) ;
    _ <-- (fun lo => Reset n (Ret (inl (tt, lo)))) ;
    elapsed <-- (fun lo => Clock (fun d => Ret (inl (d, lo)))) ;
    output_ (IElapsed elapsed)
  else sret tt.

(** Display of an analysis (types_impl.rs:51-144) *)
Definition display (a : analysis) : res analysis_report :=
  let m1 := an_pass_1 a in
  let m2 := an_pass_2 a in
  analysis_display b
    match an_info a with
    | ConstantSetInfo s1 s2 reps => constant_set_rows b s1 s2 reps (pr_time m1) (pr_time m2) (pr_space m1) (pr_space m2)
    | SetResizingInfo delta => set_resizing_rows b delta (pr_time m1) (pr_time m2) (pr_space m1) (pr_space m2)
    end (an_time a) (an_space a) (pr_space m1) (pr_space m2).

(** crud.rs:481-489: [if *_iterations_per_pass > 0 { _output(&format!("{}\n\n", analysis.as_ref().unwrap())) }] *)
Definition report_analysis op (a : option analysis) : stmt unit :=
  if 0 <? iterations cfg op then
    match a with
    | None => slift (Panic PExpect)
    | Some a => r <-- slift (display a) ; output_ (IAnalysis op (an_info a) r)
    end
  else sret tt.

(** crud.rs:428-478: warm-up and the passes of the creates, reads and updates *)
Definition cru_passes : stmt (option analysis * option analysis * option analysis) :=
  _ <-- output_ (IText (cc_name cfg ++ " CRUD Algorithm Complexity Analysis:" ++ newline ++ "  ")%string) ;
  _ <-- warmup ;
  _ <-- output_ (IText "First Pass ("%string) ;
  _ <-- run_create_pass 0 ;
  _ <-- run_read_pass 0 ;
  _ <-- run_update_pass 0 ;
  _ <-- output_ (IText "); Second Pass ("%string) ;
  create_analysis <-- run_create_pass 1 ;
  read_analysis <-- run_read_pass 1 ;
  update_analysis <-- run_update_pass 1 ;
  _ <-- output_ (IText ("):" ++ newline ++ newline)%string) ;
  sret (create_analysis, read_analysis, update_analysis).
(** crud.rs:492-504: the passes of the deletes *)
Definition delete_passes : stmt (option analysis) :=
  if 0 <? iterations cfg Delete then
    _ <-- output_ (IText "Delete Passes ("%string) ;
    _ <-- run_delete_pass 1 ;
    a <-- run_delete_pass 0 ;
    _ <-- (fun lo => output_ (IComputed (lo_r lo)) lo) ;
    _ <-- report_analysis Delete a ;
    sret a
  else sret None.
(** crud.rs:428-507 *)
Definition internal_body : stmt crud_result :=
  cru <-- cru_passes ;
  let '(create_analysis, read_analysis, update_analysis) := cru in
  _ <-- report_analysis Create create_analysis ;
  _ <-- report_analysis Read read_analysis ;
  _ <-- report_analysis Update update_analysis ;
  delete_analysis <-- delete_passes ;
  fun lo => Ret (inl (CrudResult create_analysis read_analysis update_analysis delete_analysis (lo_report lo), lo)).

(** crud.rs:200-507 *)
Definition internal_analyse_crud_algorithms : prog (crud_result + crud_error) :=
  pbind (internal_body locals_init)
    (fun x => Ret match x with inl (r, _) => inl r | inr e => inr e end).
End Internal.

(** ** analyse_crud_algorithms (crud.rs:153-180); [.unwrap()] on the error panics *)
Definition no_maximum (c : op_cfg) : op_cfg :=
  OpCfg (oc_iterations c) (oc_threads c) WorseThanExponential WorseThanExponential.
(** crud.rs:153-180 *)
Definition analyse_crud_algorithms b t l (cfg : crud_cfg) : prog crud_result :=
  pbind (internal_analyse_crud_algorithms b t l
           (CrudCfg (cc_name cfg) (cc_warmup cfg) (no_maximum (cc_create cfg)) (no_maximum (cc_read cfg))
                    (no_maximum (cc_update cfg)) (no_maximum (cc_delete cfg))))
    (fun x => match x with inl r => Ret r | inr _ => Stop PExpect end).

(** ** test_crud_algorithms (crud.rs:28-121) *)
(** crud.rs:44-56; the [match] on [(attempt-1) % 3] is exhaustive up to the [panic!] arm *)
Definition adapt (b : build) (attempt iterations_per_pass : Z) : res Z :=
  x <- u32_mul b ((attempt mod 15) / 3) 2 ;;
  factor <- u32_sub b 10 x ;;
  if attempt =? 0 then Val iterations_per_pass
  else
    a1 <- u32_sub b attempt 1 ;;
    (* each arm divides by [factor] itself; u32 division panics on 0 *)
    let quotient := if factor =? 0 then Panic PDivZero else Val (iterations_per_pass / factor) in
    match a1 mod 3 with
    | 0 => quotient
    | 1 => q <- quotient ;; u32_sub b iterations_per_pass q
    | 2 => q <- quotient ;; u32_add b iterations_per_pass q
    | _ => Panic PAssert
    end.

Definition with_iterations (c : op_cfg) (n : Z) : op_cfg := OpCfg n (oc_threads c) (oc_max_time c) (oc_max_space c).
(** crud.rs:64-75 *)
Definition adapted (b : build) (attempt : Z) (cfg : crud_cfg) : res crud_cfg :=
  c <- adapt b attempt (iterations cfg Create) ;;
  r <- adapt b attempt (iterations cfg Read) ;;
  u <- adapt b attempt (iterations cfg Update) ;;
  d <- adapt b attempt (iterations cfg Delete) ;;
  Val (CrudCfg (cc_name cfg) (cc_warmup cfg) (with_iterations (cc_create cfg) c) (with_iterations (cc_read cfg) r)
               (with_iterations (cc_update cfg) u) (with_iterations (cc_delete cfg) d)).

(** How test_crud_algorithms ends; [GaveUp] and [SpaceMismatch] are the two
    [panic!]s of crud.rs:110 and 116 with what their messages are made of. *)
Inductive test_end :=
| Passed
| GaveUp (e : crud_error) (collected : list crud_error)
| SpaceMismatch (attempt : Z) (e : crud_error).

(** crud.rs:87; [attempt+1] cannot overflow: attempt < max_retry_attempts-1 *)
Definition retry_text (attempt : Z) : string :=
  (newline ++ "Attempt " ++ dec (attempt + 1) ++ " failed. Resetting before retrying")%string.
(** crud.rs:62-120: [for attempt in 0..max_retry_attempts]; [n] is the number of iterations left *)
Fixpoint attempts (b : build) t l cfg (max_retry_attempts : Z) (n : nat) (attempt : Z) (collected : list crud_error)
  : prog test_end :=
  match n with
  | O => Ret Passed
  | S n =>
      pbind (lift (adapted b attempt cfg)) (fun cfg' =>
      pbind (internal_analyse_crud_algorithms b t l cfg') (fun x =>
      match x with
      | inl _ => Ret Passed                                              (* crud.rs:119 *)
      | inr e =>
          match ce_analysis e with
          | Time =>
              pbind (lift (u32_sub b max_retry_attempts 1)) (fun last =>
              if attempt <? last then
                Output (IText (retry_text attempt)) (Reset 100 (Output (IText ("..." ++ newline)%string)
                  (attempts b t l cfg max_retry_attempts n (attempt + 1) (collected ++ [e]))))   (* crud.rs:86-90 *)
              else Ret (GaveUp e collected))
          | Space => Ret (SpaceMismatch attempt e)
          end
      end))
  end.
(** crud.rs:28-121 *)
Definition test_crud_algorithms b t l (cfg : crud_cfg) (max_retry_attempts : Z) : prog test_end :=
  attempts b t l cfg max_retry_attempts (Z.to_nat max_retry_attempts) 0 [].

(** ** Executions
    The user's closures share a state of type [S] (they may have interior
    mutability) and may panic.  A pass is any complete execution of
    [iterator_pass]; its measurements are arbitrary: the clock and the allocator
    belong to the environment (every theorem quantifies over them). *)
(** crud.rs:34-38: the user's closures *)
Record user (S : Type) := User {
  u_op : operation -> S -> Z -> S * option Z;     (* create_fn, read_fn, update_fn, delete_fn *)
  u_reset : S -> Z -> S * option Z }.             (* reset_fn *)
Arguments u_op {S}. Arguments u_reset {S}. Arguments User {S}.

(** what happened, in order; a pass carries the calls it made and, unless it
    panicked, what it measured *)
(** ghost (no code of /repo) *)
Inductive event :=
| EvPass (ph : phase) (op : operation) (r : range) (threads : Z) (log : list (nat * Z)) (m : option pass_result)
| EvReset (n : Z)
| EvOutput (i : item)
| EvClock (d : duration).   (* crud.rs:437, 463-464: the time elapsed between two readings of the clock *)

(** an execution of the program with the user's closures (no code of /repo) *)
Inductive exec {S A : Type} (b : build) (u : user S) : prog A -> S -> list event -> S -> res A -> Prop :=
| ex_ret a s : exec b u (Ret a) s [] s (Val a)
| ex_stop p s : exec b u (Stop p) s [] s (Panic p)
| ex_pass ph op ty r T k s log s1 v m tr s2 out :
    iterator_pass (u_op u op) b ty r T s log s1 (Val v) ->
    exec b u (k m v) s1 tr s2 out ->
    exec b u (Pass ph op ty r T k) s (EvPass ph op r T log (Some m) :: tr) s2 out
| ex_pass_panic ph op ty r T k s log s1 p :
    iterator_pass (u_op u op) b ty r T s log s1 (Panic p) ->
    exec b u (Pass ph op ty r T k) s [EvPass ph op r T log None] s1 (Panic p)
| ex_reset n k s s1 v tr s2 out :
    u_reset u s n = (s1, Some v) ->
    exec b u k s1 tr s2 out ->
    exec b u (Reset n k) s (EvReset n :: tr) s2 out
| ex_reset_panic n k s s1 :
    u_reset u s n = (s1, None) ->
    exec b u (Reset n k) s [EvReset n] s1 (Panic PClosure)
| ex_output i k s tr s2 out :
    exec b u k s tr s2 out ->
    exec b u (Output i k) s (EvOutput i :: tr) s2 out
(* Duration: a non-negative number of nanoseconds *)
| ex_clock d k s tr s2 out :
    0 <= d ->
    exec b u (k d) s tr s2 out ->
    exec b u (Clock k) s (EvClock d :: tr) s2 out.
