(** * The async builder for regular algorithms, and the custom measurers.
    Models /repo/src/api/builders/regular_async_builder.rs:21-471,
    /repo/src/utils/measurements/measurer.rs:13-150 and common.rs:44-56, 238-275.

    Closures are identified by elements of a type [F] (their state is in the world, see
    Free.v); [D] is the user's AlgoDataType; [X] is the disjoint union of the measurers'
    BeforeMeasurerOutput types.  An async call is modelled as the call and the await of
    the future it returns, in one step; dropping a future half-way (cancellation) is not
    modelled.  The boxing of closures and futures (l.356, 368, ...) is the identity here.
    Everything the test outputs is here; BuilderText.v turns the items into strings.  The
    1 s delays between attempts are not modelled; a pass's measurements
    (common.rs:250-274) are whatever the world answers. *)
From Coq Require Import List ZArith String.
From Verif Require Import Machine Complexity Analysis Report Crud CrudMsg Free Present.
Import ListNotations.
Open Scope Z_scope.
Local Open Scope string_scope.

Section Builder.
Variables F D X : Type.

(** measurer.rs:62-80 [CustomMeasurer]; the PhantomData field is dropped *)
Record measurer := Measurer {
  me_name : string; me_expected : complexity; me_description : string;
  me_before : F; me_value : option X; me_after : F }.
(** measurer.rs:51-56 *)
Record custom_measurement := CustomMeasurement {
  cm_name : string; cm_expected : complexity; cm_description : string; cm_data : presentable }.
(** measurer.rs:90-104 *)
Definition new_measurer name expected description before after : measurer :=
  Measurer name expected description before None after.

(** regular_async_builder.rs:21-51 *)
Record builder := Builder {
  b_name : string;
  b_reset : option F;
  b_max_reattempts : option Z;
  b_warmup : option F;
  b_n1 : Z; b_pass1 : option F; b_measurements1 : option (list custom_measurement); b_assert1 : option F;
  b_n2 : Z; b_pass2 : option F; b_measurements2 : option (list custom_measurement); b_assert2 : option F;
  b_time : option complexity; b_space : option complexity; b_auxiliary : option complexity;
  b_measurers : list measurer }.

(** regular_async_builder.rs:323-349 *)
Definition new_builder (name : string) : builder :=
  Builder name None None None 0 None None None 0 None None None None None None [].

(** regular_async_builder.rs:352-471: the builder's methods *)
Inductive setting :=
| WithMaxReattempts (n : Z)
| WithResetFn (f : F)
| WarmupPass (f : F)
| FirstPass (n : Z) (f : F)
| FirstPassAssertion (f : F)
| SecondPass (n : Z) (f : F)
| SecondPassAssertion (f : F)
| WithTimeMeasurements (c : complexity)
| WithSpaceMeasurements (c : complexity)
| WithAuxiliarySpaceMeasurements (c : complexity)
| AddCustomMeasurement (name : string) (expected : complexity) (description : string) (before after : F)
| AddCustomMeasurementWithAverages (name : string) (expected : complexity) (description : string) (before after : F).
(** regular_async_builder.rs:352-471, by line as said inside *)
Definition set (x : builder) (s : setting) : builder :=
  let '(Builder nm rs mx wu n1 p1 ms1 a1 n2 p2 ms2 a2 ti sp au cs) := x in
  match s with
  | WithMaxReattempts n => Builder nm rs (Some n) wu n1 p1 ms1 a1 n2 p2 ms2 a2 ti sp au cs         (* l.352-355 *)
  | WithResetFn f => Builder nm (Some f) mx wu n1 p1 ms1 a1 n2 p2 ms2 a2 ti sp au cs               (* l.359-365 *)
  | WarmupPass f => Builder nm rs mx (Some f) n1 p1 ms1 a1 n2 p2 ms2 a2 ti sp au cs                (* l.371-377 *)
  | FirstPass n f => Builder nm rs mx wu n (Some f) ms1 a1 n2 p2 ms2 a2 ti sp au cs                (* l.382-389 *)
  | FirstPassAssertion f => Builder nm rs mx wu n1 p1 ms1 (Some f) n2 p2 ms2 a2 ti sp au cs        (* l.395-401 *)
  | SecondPass n f => Builder nm rs mx wu n1 p1 ms1 a1 n (Some f) ms2 a2 ti sp au cs               (* l.406-413 *)
  | SecondPassAssertion f => Builder nm rs mx wu n1 p1 ms1 a1 n2 p2 ms2 (Some f) ti sp au cs       (* l.420-426 *)
  | WithTimeMeasurements c => Builder nm rs mx wu n1 p1 ms1 a1 n2 p2 ms2 a2 (Some c) sp au cs      (* l.428-431 *)
  | WithSpaceMeasurements c => Builder nm rs mx wu n1 p1 ms1 a1 n2 p2 ms2 a2 ti (Some c) au cs     (* l.433-436 *)
  | WithAuxiliarySpaceMeasurements c => Builder nm rs mx wu n1 p1 ms1 a1 n2 p2 ms2 a2 ti sp (Some c) cs (* l.438-441 *)
  | AddCustomMeasurement a e d f g => Builder nm rs mx wu n1 p1 ms1 a1 n2 p2 ms2 a2 ti sp au (cs ++ [new_measurer a e d f g])  (* l.443-456 *)
  | AddCustomMeasurementWithAverages a e d f g => Builder nm rs mx wu n1 p1 ms1 a1 n2 p2 ms2 a2 ti sp au (cs ++ [new_measurer a e d f g])  (* l.458-471 *)
  end.

(** What the code asks of the world: run a user function on data (answering what was
    measured around it and the data it returned), an assertion, a measurer's two
    functions, and output. *)
Inductive bitem :=
| BIText (s : string)                                (* l.65, 83, 173: a fixed text *)
| BIPass (prefix : string) (t : duration) (s : shown) (suffix : string)  (* common.rs:54 *)
| BIAnalysis (name : string) (r : analysis_report)   (* l.174 *)
| BIMismatch (name : string) (w : what) (max observed : complexity)  (* l.178-180, 187-189 *)
| BIMeasurement (name : string) (m : presentable).   (* l.272, 301; [None]: the Display panicked *)
(** the user's closures (regular_async_builder.rs:21-25, measurer.rs:63-68) and the output *)
Inductive bquery :=
| BRun (f : F) (data : option D)
| BAssert (f : F) (data : D)
| BBefore (f : F) (data : option D)
| BAfter (f : F) (data : option D) (x : X)
| BOut (i : bitem).
(** regular_async_builder.rs:21-25, measurer.rs:63-68: what the closures return *)
Definition bans (q : bquery) : Type :=
  match q with
  | BRun _ _ => pass_result * D
  | BAssert _ _ => unit
  | BBefore _ _ => X
  | BAfter _ _ _ => presentable
  | BOut _ => unit
  end.
Local Notation "x <-- m ; k" := (fbind m (fun x => k)) (at level 61, m at next level, right associativity).
Local Notation P := (fprog bans).
(** features.rs:15-25 *)
Definition b_out (i : bitem) : P unit := ask (Ans := bans) (BOut i).

Section Run.
Variables (b : build) (t : tolerance) (l : libm).

(** common.rs:44-56 *)
Definition run_verbosely (prefix suffix : string) (f : F) (data : option D) : P (pass_result * D) :=
  x <-- ask (Ans := bans) (BRun f data) ;
  s <-- flift (fmt_over_n b (pr_space (fst x)) 1) ;
  _ <-- b_out (BIPass prefix (pr_time (fst x)) s suffix) ;
  FRet x.
(** regular_async_builder.rs:119-121, 135-137; [if let Some(f) = assertion { f(&algo_data).await }] *)
Definition run_assertion (f : option F) (data : D) : P unit :=
  match f with Some f => ask (Ans := bans) (BAssert f data) | None => FRet tt end.
(** regular_async_builder.rs:113-114, 263, 294; [Option::expect] *)
Definition expect {A} (o : option A) : P A := match o with Some a => FRet a | None => FStop PExpect end.

(** regular_async_builder.rs:178-181, 187-190: the values the message is made of *)
Record b_error := BError { be_name : string; be_what : what; be_max : complexity; be_observed : complexity }.

(** regular_async_builder.rs:82-196 *)
Definition raw_analyse (self : builder) (previous : option D) : P (retry_result (builder * D) (builder * D) b_error) :=
  _ <-- b_out (BIText ("Running '" ++ b_name self ++ "' async algorithm:" ++ newline)) ;  (* l.83 *)
  d0 <-- match b_reset self with                                  (* l.86-92 *)
         | Some reset => x <-- run_verbosely "  Resetting: " ";" reset previous ; FRet (Some (snd x))
         | None => FRet None
         end ;
  d1 <-- match b_warmup self with                                 (* l.95-107 *)
         | Some warmup =>
             x <-- run_verbosely "  Warming up: " ";" warmup d0 ;
             match b_reset self with
             | Some reset => y <-- run_verbosely "  Resetting again: " ";" reset None ; FRet (Some (snd y))
             | None => FRet (Some (snd x))
             end
         | None => FRet d0
         end ;
  pass1 <-- expect (b_pass1 self) ;                               (* l.113 *)
  pass2 <-- expect (b_pass2 self) ;                               (* l.114 *)
  x1 <-- run_verbosely "  Pass 1: " ";" pass1 d1 ;                           (* l.117 *)
  _ <-- run_assertion (b_assert1 self) (snd x1) ;                 (* l.119-121 *)
  d2 <-- match b_reset self with                                  (* l.124-130 *)
         | Some reset => x <-- run_verbosely "  In-between-passes Reset: " ";" reset (Some (snd x1)) ; FRet (Some (snd x))
         | None => FRet (Some (snd x1))
         end ;
  x2 <-- run_verbosely "  Pass 2: " "" pass2 d2 ;                           (* l.133 *)
  _ <-- run_assertion (b_assert2 self) (snd x2) ;                 (* l.135-137 *)
  let m1 := fst x1 in
  let m2 := fst x2 in
  let tc := analyse_time_complexity t l (b_n1 self) (b_n2 self) (pr_time m1) (pr_time m2) in
  sc <-- flift (analyse_space_complexity b t l (b_n1 self) (b_n2 self) (pr_space m1) (pr_space m2)) ;
  _ <-- b_out (BIText (newline ++ newline)) ;                     (* l.173 *)
  rep <-- flift (analysis_display b (regular_rows b (b_n1 self) (b_n2 self) (pr_time m1) (pr_time m2) (pr_space m1) (pr_space m2))
                   tc sc (pr_space m1) (pr_space m2)) ;
  _ <-- b_out (BIAnalysis (b_name self) rep) ;
  let space_mismatch :=                                           (* l.176-177 *)
    match b_space self with
    | Some e => if worse_than sc e then Some e else None
    | None => None
    end in
  let time_mismatch :=                                            (* l.185-186 *)
    match b_time self with
    | Some e => if worse_than tc e then Some e else None
    | None => None
    end in
  match space_mismatch with
  | Some e =>                                                     (* l.178-181 *)
      _ <-- b_out (BIMismatch (b_name self) Space e sc) ;
      FRet (RFatal (self, snd x2) (BError (b_name self) Space e sc))
  | None =>
      match time_mismatch with
      | Some e =>                                                 (* l.187-190 *)
          _ <-- b_out (BIMismatch (b_name self) Time e tc) ;
          FRet (RTransient (self, snd x2) (BError (b_name self) Time e tc))
      | None => FRet (ROk (self, snd x2))                         (* l.194 *)
      end
  end.

(** regular_async_builder.rs:61-80; [BPanicked] is the [panic!] of line 78 with what its message contains *)
Inductive b_end := BPassed | BPanicked (retry_errors : list b_error) (e : b_error).
(** regular_async_builder.rs:62 *)
Definition unwrap_or {A} (o : option A) (d : A) : A := match o with Some a => a | None => d end.
(** regular_async_builder.rs:64-67 *)
Definition reattempt (i : builder * D) : P (retry_result (builder * D) (builder * D) b_error) :=
  _ <-- b_out (BIText ("retrying..." ++ newline)) ;              (* l.65 *)
  raw_analyse (fst i) (Some (snd i)).
(** regular_async_builder.rs:61-80 *)
Definition test_algorithm_async (self : builder) : P b_end :=
  let max_attempts := unwrap_or (b_max_reattempts self) 0 in
  result <-- retry_with_delays reattempt (raw_analyse self None) (Z.to_nat max_attempts) ;
  FRet match result with
       | ResOk _ | ResRecovered _ _ => BPassed
       | ResFatal e => BPanicked [] e
       | ResGivenUp es e | ResUnrecoverable es e => BPanicked es e
       end.
End Run.

(** ** measurer.rs *)
(** measurer.rs:122-129 [measure_before_event]: call, then [replace] *)
Definition measure_before (data : option D) (m : measurer) : P measurer :=
  x <-- ask (Ans := bans) (BBefore (me_before m) data) ;
  FRet (Measurer (me_name m) (me_expected m) (me_description m) (me_before m) (Some x) (me_after m)).
(** measurer.rs:131-141 [measure_after_event]: [take], panic if there was nothing, then the call *)
Definition measure_after (data : option D) (m : measurer) : P (presentable * measurer) :=
  match me_value m with
  | None => FStop PMeasurer
  | Some x =>
      p <-- ask (Ans := bans) (BAfter (me_after m) data x) ;
      FRet (p, Measurer (me_name m) (me_expected m) (me_description m) (me_before m) None (me_after m))
  end.
(** measurer.rs:143-151 *)
Definition as_custom_measurement (m : measurer) (p : presentable) : custom_measurement :=
  CustomMeasurement (me_name m) (me_expected m) (me_description m) p.
(** bookkeeping (no code of /repo); an in-place loop over a vector ([iter_mut]), front to back *)
Fixpoint each {A} (f : A -> P A) (v : list A) : P (list A) :=
  match v with
  | [] => FRet []
  | a :: r => a' <-- f a ; r' <-- each f r ; FRet (a' :: r')
  end.
(** measurer.rs:13-20: [iter_mut().rev()] *)
Definition measure_all_before (data : option D) (ms : list measurer) : P (list measurer) :=
  r <-- each (measure_before data) (rev ms) ; FRet (rev r).
(** measurer.rs:24-34: [measurements.push(..)] at every step *)
Fixpoint after_loop (data : option D) (ms : list measurer) (measurements : list custom_measurement) : P (list custom_measurement * list measurer) :=
  match ms with
  | [] => FRet (measurements, [])
  | m :: r =>
      x <-- measure_after data m ;
      y <-- after_loop data r (measurements ++ [as_custom_measurement (snd x) (fst x)]) ;
      FRet (fst y, snd x :: snd y)
  end.
(** measurer.rs:24-34 *)
Definition measure_all_after (data : option D) (ms : list measurer) : P (list custom_measurement * list measurer) :=
  after_loop data ms [].

(** ** [test_run] (regular_async_builder.rs:198-312), the crate's private dry run; the
    [println!]s of fixed texts and of the user's data ([Debug] of D) are not modelled *)
(** the macro [run_if!] (regular_async_builder.rs:215-236) *)
Definition run_if (f : option F) (data : option D) : P (option D) :=
  match f with
  | Some f => x <-- ask (Ans := bans) (BRun f data) ; FRet (Some (snd x))
  | None => FRet None
  end.
(** regular_async_builder.rs:276, 305 *)
Definition run_if_assert (f : option F) (data : D) : P unit :=
  match f with Some f => ask (Ans := bans) (BAssert f data) | None => FRet tt end.
(** regular_async_builder.rs:271-273, 300-302 *)
Fixpoint dump (ms : list custom_measurement) : P unit :=
  match ms with
  | [] => FRet tt
  | m :: r => _ <-- b_out (BIMeasurement (cm_name m) (cm_data m)) ; dump r
  end.
(** regular_async_builder.rs:198-312 *)
Definition test_run (self : builder) : P unit :=
  r0 <-- run_if (b_reset self) None ;                            (* l.238 *)
  w0 <-- run_if (b_warmup self) r0 ;                             (* l.245 *)
  r1 <-- run_if (b_reset self) w0 ;                              (* l.252 *)
  ms1 <-- measure_all_before r1 (b_measurers self) ;             (* l.260 *)
  p1 <-- run_if (b_pass1 self) r1 ;                              (* l.262-263 *)
  d1 <-- expect p1 ;
  c1 <-- measure_all_after (Some d1) ms1 ;                       (* l.268 *)
  _ <-- dump (fst c1) ;                                          (* l.271-273 *)
  _ <-- run_if_assert (b_assert1 self) d1 ;                      (* l.276 *)
  r2 <-- run_if (b_reset self) (Some d1) ;                       (* l.283 *)
  ms2 <-- measure_all_before r2 (snd c1) ;                       (* l.291 *)
  p2 <-- run_if (b_pass2 self) r2 ;                              (* l.293-294 *)
  d2 <-- expect p2 ;
  c2 <-- measure_all_after (Some d2) ms2 ;                       (* l.298 *)
  _ <-- dump (fst c2) ;                                          (* l.300-302 *)
  run_if_assert (b_assert2 self) d2.                             (* l.305 *)
End Builder.
Arguments me_name {F X}. Arguments me_expected {F X}. Arguments me_description {F X}. Arguments me_before {F X}. Arguments me_value {F X}. Arguments me_after {F X}.
Arguments Measurer {F X}. Arguments new_measurer {F X}. Arguments Builder {F X}. Arguments new_builder {F X}.
Arguments b_name {F X}. Arguments b_reset {F X}. Arguments b_max_reattempts {F X}. Arguments b_warmup {F X}.
Arguments b_n1 {F X}. Arguments b_pass1 {F X}. Arguments b_measurements1 {F X}. Arguments b_assert1 {F X}.
Arguments b_n2 {F X}. Arguments b_pass2 {F X}. Arguments b_measurements2 {F X}. Arguments b_assert2 {F X}.
Arguments b_time {F X}. Arguments b_space {F X}. Arguments b_auxiliary {F X}. Arguments b_measurers {F X}.
Arguments WithMaxReattempts {F}. Arguments WithResetFn {F}. Arguments WarmupPass {F}. Arguments FirstPass {F}. Arguments FirstPassAssertion {F}.
Arguments SecondPass {F}. Arguments SecondPassAssertion {F}. Arguments WithTimeMeasurements {F}. Arguments WithSpaceMeasurements {F}.
Arguments WithAuxiliarySpaceMeasurements {F}. Arguments AddCustomMeasurement {F}. Arguments AddCustomMeasurementWithAverages {F}.
Arguments set {F X}. Arguments BRun {F D X}. Arguments BAssert {F D X}. Arguments BBefore {F D X}. Arguments BAfter {F D X}. Arguments BOut {F D X}.
Arguments bans {F D X}. Arguments b_out {F D X}. Arguments run_verbosely {F D X}. Arguments run_assertion {F D X}. Arguments expect {F D X A}.
Arguments raw_analyse {F D X}. Arguments reattempt {F D X}. Arguments test_algorithm_async {F D X}.
Arguments measure_before {F D X}. Arguments measure_after {F D X}. Arguments as_custom_measurement {F X}. Arguments each {F D X A}.
Arguments measure_all_before {F D X}. Arguments after_loop {F D X}. Arguments measure_all_after {F D X}.
Arguments run_if {F D X}. Arguments run_if_assert {F D X}. Arguments dump {F D X}. Arguments test_run {F D X}.
