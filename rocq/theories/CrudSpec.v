(** * What a CRUD analysis is specified to do: vocabulary for C34-C43, C64.
    Nothing here mentions programs, locals or arrays. *)
From Coq Require Import List ZArith Lia Bool.
From Verif Require Import Machine Complexity Analysis AnalysisF64d AllocSpec IterPass IterSpec Report Crud.
Import ListNotations.
Open Scope Z_scope.

(** ** What happened, without measurements and outputs *)
Inductive act :=
| APass (ph : phase) (op : operation) (r : range) (threads : Z)
| AReset (n : Z).
Definition act_of (e : event) : list act :=
  match e with
  | EvPass ph op r T _ _ => [APass ph op r T]
  | EvReset n => [AReset n]
  | EvOutput _ | EvClock _ => []
  end.
Definition acts (tr : list event) : list act := flat_map act_of tr.
Definition outputs (tr : list event) : list item :=
  flat_map (fun e => match e with EvOutput i => [i] | _ => [] end) tr.
(** all arguments [op]'s closure was called with, in order *)
Definition arguments (op : operation) (tr : list event) : list Z :=
  flat_map (fun e => match e with EvPass _ op' _ _ log _ => if operation_eqb op' op then calls log else [] | _ => [] end) tr.
Definition resets (tr : list event) : list Z :=
  flat_map (fun e => match e with EvReset n => [n] | _ => [] end) tr.
(** no closure and no reset was called *)
Definition silent (tr : list event) : Prop := acts tr = [].

(** ** The documented sequence *)
Definition enabled_ (n : Z) (x : act) : list act := if 0 <? n then [x] else [].
Section Expected.
Variable cfg : crud_cfg.
Definition warm (n : Z) : Z := n * cc_warmup cfg / 100.
Definition pass_on ph op r : list act := enabled_ (iterations cfg op) (APass ph op r (oc_threads (cfg_of cfg op))).
Definition block1 op : range := Range 0 (iterations cfg op).
Definition block2 op : range := Range (iterations cfg op) (2 * iterations cfg op).
Definition backwards (r : range) : range := Range (r_end r) (r_start r).
Definition warmup_acts : list act :=
  if 0 <? cc_warmup cfg then
    pass_on Warmup Create (Range 0 (warm (iterations cfg Create))) ++
    pass_on Warmup Read (Range 0 (warm (iterations cfg Read))) ++
    pass_on Warmup Update (Range 0 (warm (iterations cfg Update))) ++
    pass_on Warmup Delete (Range (warm (iterations cfg Delete)) 0) ++
    [AReset (warm (iterations cfg Create))]
  else [].
Definition first_acts : list act :=
  pass_on First Create (block1 Create) ++ pass_on First Read (block1 Read) ++ pass_on First Update (block1 Update).
(** up to and including [op]'s last pass *)
Definition acts_until (op : operation) : list act :=
  warmup_acts ++ first_acts ++
  pass_on Second Create (block2 Create) ++
  match op with
  | Create => []
  | Read => pass_on Second Read (block2 Read)
  | Update => pass_on Second Read (block2 Read) ++ pass_on Second Update (block2 Update)
  | Delete => pass_on Second Read (block2 Read) ++ pass_on Second Update (block2 Update) ++
              pass_on Second Delete (backwards (block2 Delete)) ++ pass_on First Delete (backwards (block1 Delete))
  end.
Definition all_acts : list act := acts_until Delete.
End Expected.

(** ** What was measured and what follows from it *)
Definition phase_eqb (a b : phase) : bool :=
  match a, b with Warmup, Warmup | First, First | Second, Second => true | _, _ => false end.
Fixpoint measurement (tr : list event) (ph : phase) (op : operation) : option pass_result :=
  match tr with
  | [] => None
  | EvPass ph' op' _ _ _ m :: rest => if phase_eqb ph' ph && operation_eqb op' op then m else measurement rest ph op
  | _ :: rest => measurement rest ph op
  end.

(** creates and deletes resize the set by the iterations of a pass; reads and
    updates run on the set the creates made *)
Definition info (cfg : crud_cfg) (op : operation) : passes_info :=
  match op with
  | Create | Delete => SetResizingInfo (iterations cfg op)
  | Read | Update => ConstantSetInfo (iterations cfg Create) (2 * iterations cfg Create) (iterations cfg op)
  end.
Definition observed_time t l (cfg : crud_cfg) (op : operation) (m1 m2 : pass_result) : complexity :=
  match op with
  | Create | Delete => analyse_time_complexity_set_resizing t l (iterations cfg op) (pr_time m1) (pr_time m2)
  | Read | Update =>
      analyse_time_complexity_constant_set t l (iterations cfg Create) (2 * iterations cfg Create) (pr_time m1) (pr_time m2)
  end.
Definition observed_space b t l (cfg : crud_cfg) (op : operation) (m1 m2 : pass_result) : res complexity :=
  match op with
  | Create | Delete => analyse_space_complexity_set_resizing b t l (iterations cfg op) (pr_space m1) (pr_space m2)
  | Read | Update =>
      analyse_space_complexity_constant_set b t l (iterations cfg Create) (2 * iterations cfg Create) (pr_space m1) (pr_space m2)
  end.
(** both passes of [op] were measured, with these complexities *)
Definition observed b t l (cfg : crud_cfg) (tr : list event) (op : operation) (m1 m2 : pass_result) (tc sc : complexity) : Prop :=
  measurement tr First op = Some m1 /\ measurement tr Second op = Some m2 /\
  tc = observed_time t l cfg op m1 m2 /\ observed_space b t l cfg op m1 m2 = Val sc.
Definition is_enabled (cfg : crud_cfg) (op : operation) : Prop := 0 < iterations cfg op.
(** the operation was measured and met its maxima *)
Definition met b t l (cfg : crud_cfg) (tr : list event) (op : operation) : Prop :=
  exists m1 m2 tc sc, observed b t l cfg tr op m1 m2 tc sc /\
    cle tc (oc_max_time (cfg_of cfg op)) /\ cle sc (oc_max_space (cfg_of cfg op)).
(** the operations analysed before [op] *)
Definition before (op : operation) : list operation :=
  match op with Create => [] | Read => [Create] | Update => [Create; Read] | Delete => [Create; Read; Update] end.
Definition analysis_of (r : crud_result) (op : operation) : option analysis :=
  match op with Create => cr_create r | Read => cr_read r | Update => cr_update r | Delete => cr_delete r end.

(** ** Hypotheses *)
Definition u32 (z : Z) : Prop := 0 <= z < two32.
Definition cfg_ok (cfg : crud_cfg) : Prop :=
  u32 (cc_warmup cfg) /\ forall op, u32 (iterations cfg op) /\ u32 (oc_threads (cfg_of cfg op)).
(** the u32 products of the runner do not overflow *)
Definition no_overflow (cfg : crud_cfg) : Prop :=
  forall op, 2 * iterations cfg op < two32 /\ iterations cfg op * cc_warmup cfg < two32.
(** in a debug build overflows panic, in a release build they have to be excluded *)
Definition overflow_free (b : build) (cfg : crud_cfg) : Prop := b = Debug \/ no_overflow cfg.
(** the configurations the runner can handle: fewer than 2^30 iterations per pass,
    at least one thread for every enabled operation *)
Definition usable (cfg : crud_cfg) : Prop :=
  no_overflow cfg /\
  forall op, is_enabled cfg op -> 2 * iterations cfg op < two31 /\ 0 < oc_threads (cfg_of cfg op) < two31.
Definition closures_return {S} (u : user S) : Prop :=
  (forall op, total (u_op u op)) /\ total (u_reset u).
(** a measurement the clock and the allocator can make: less than 2^53 seconds,
    min <= before, after <= max < 2^62 bytes *)
Definition sane (m : pass_result) : Prop :=
  duration_sane (pr_time m) /\ well_formed (pr_space m) /\ max_used_memory (pr_space m) < 2 ^ 62.
Definition sane_measurements (tr : list event) : Prop :=
  Forall (fun e => match e with EvPass _ _ _ _ _ (Some m) => sane m | _ => True end) tr.
