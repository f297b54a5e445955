(** * Vocabulary for the theorems about CRUD tests on the allocator (C92, C93). *)
From Coq Require Import List ZArith Reals.
From Verif Require Import Machine Complexity Analysis AnalysisF64d GrowthSpec Alloc AllocSpec IterPass Crud CrudSpec CrudLawsSpec EndToEndSpec.
Import ListNotations.
Open Scope Z_scope.

(** everything the allocator was asked during [w]: a pass that measures takes a save point first *)
Definition asked (w : list (event * list aop)) : list aop :=
  flat_map (fun x => match fst x with EvPass _ _ _ _ _ (Some _) => OSave :: snd x | _ => snd x end) w.
(** the events of [w] *)
Definition events (w : list (event * list aop)) : list event := map fst w.

(** every pass of [w] measured the truth about the memory in use while it ran, [h] being
    everything the allocator was asked before [w] *)
Definition truthful (slots : nat) (h : list aop) (w : list (event * list aop)) : Prop :=
  forall w1 ph op r T log m ops w2, w = w1 ++ (EvPass ph op r T log (Some m), ops) :: w2 ->
    true_measurement slots (h ++ asked w1) ops (pr_space m).

(** no pass takes more save points than the ring has slots *)
Definition few_saves (slots : nat) (w : list (event * list aop)) : Prop :=
  Forall (fun x => match fst x with EvPass _ _ _ _ _ (Some _) => saves (snd x) <= Z.of_nat slots | _ => True end) w.
(** the clock: durations below 2^53 s *)
Definition clocked (w : list (event * list aop)) : Prop :=
  Forall (fun x => match fst x with EvPass _ _ _ _ _ (Some m) => duration_sane (pr_time m) | _ => True end) w.

(** Every measured pass took the time its law says and, at the peak of its allocator calls, held the
    memory its law says, within 2%. *)
Definition lawful_work (L : laws) (w : list (event * list aop)) : Prop :=
  forall w1 ph op r T log m ops w2, w = w1 ++ (EvPass ph op r T log (Some m), ops) :: w2 -> ph <> Warmup ->
    near (time_unit L op * amount (time_cost L op) op (elements (events w1)) (length log)) (pr_time m) /\
    exists p, peak ops p /\ near (space_unit L op * amount (space_cost L op) op (elements (events w1)) (length log)) p.

(** no measured pass of [op] ever holds more memory than when it began *)
Definition never_grows (w : list (event * list aop)) (op : operation) : Prop :=
  forall ph r T log m ops, In (EvPass ph op r T log (Some m), ops) w -> ph <> Warmup -> peak ops 0.
(** the space class of an operation that never grows *)
Definition no_growth_class (op : operation) : complexity :=
  match op with Create | Delete => BetweenOLogNAndON | Read | Update => WorseThanExponential end.
