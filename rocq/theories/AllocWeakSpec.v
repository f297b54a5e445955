(** * Vocabulary for executions of the metrics allocator under its memory orderings (C84-C86). *)
From Coq Require Import List ZArith Arith.
From Verif Require Import Machine Ring Alloc AllocSpec AllocConc AllocConcSpec RingWeak AllocWeak.
Import ListNotations.
Open Scope nat_scope.

(** the calls a schedule makes *)
Definition kcalls (sched : list kaction) : list aop :=
  flat_map (fun a => match a with KStart _ op => [op] | _ => [] end) sched.
(** every thread is outside the allocator *)
Definition k_idle (s : kst) : Prop := Forall (fun p => p = AIdle) (k_threads s).
(** the value of a field: the last one in its modification order *)
Definition kvalue (s : kst) (f : field) : Z := f_val (last (k_msgs s f) (FMsg 0%Z false None)).
(** all the values it has had, in that order *)
Definition kvalues (s : kst) (f : field) : list Z := map f_val (k_msgs s f).

(** the thread an action belongs to *)
Definition kactor (a : kaction) : nat :=
  match a with KStart t _ | KStep t _ _ | KSend t | KRecv t _ => t end.
Definition kis_send (a : kaction) : bool := match a with KSend _ => true | _ => false end.
(** Happens-before between the [i]-th and the [j]-th action of a schedule: program order, and
    from the [k]-th [KSend] to every [KRecv] of it; nothing else. *)
Inductive khb (sched : list kaction) : nat -> nat -> Prop :=
| khb_thread i j a a' : i < j -> nth_error sched i = Some a -> nth_error sched j = Some a' -> kactor a = kactor a' -> khb sched i j
| khb_sync i j t u : nth_error sched i = Some (KSend t) ->
    nth_error sched j = Some (KRecv u (length (filter kis_send (firstn i sched)))) -> i < j -> khb sched i j
| khb_trans i j k : khb sched i j -> khb sched j k -> khb sched i k.

(** [t] calls [op]; the other threads do nothing until it is over *)
Definition alone (t : nat) (op : aop) (sched : list kaction) : Prop :=
  exists steps, sched = KStart t op :: steps /\ Forall (fun a => exists fails picks, a = KStep t fails picks) steps.
(** everything before the [j]-th action happens before it (all the other threads were joined, for example) *)
Definition after_all (sched : list kaction) (j : nat) : Prop := forall i, i < j -> khb sched i j.
(** every call begun from the [i]-th to the [j]-th action comes after the action just before
    (every thread working there was spawned, or got a message, after it) *)
Definition spawned_after (sched : list kaction) (i j : nat) : Prop :=
  forall m t op, i <= m < j -> nth_error sched m = Some (KStart t op) -> khb sched (i - 1) m.

(** save_point or delta_statistics *)
Definition is_stat (op : aop) : bool := match op with OSave | ODelta _ => true | _ => false end.

(** ** Calls in a schedule *)
Section Calls.
Variables (b : build) (sz n : nat) (sched : list kaction).
(** where thread [t] is before the [j]-th action *)
Definition kpc (j t : nat) : option apc :=
  match krun b (kinit sz n) (firstn j sched) with Some s => nth_error (k_threads s) t | None => None end.
(** the call begun by the [i]-th action returns at the [e]-th *)
Definition call_over (i e : nat) : Prop :=
  exists t op fails picks, nth_error sched i = Some (KStart t op) /\ nth_error sched e = Some (KStep t fails picks) /\ i < e /\
    kpc (S e) t = Some AIdle /\ forall m, i < m <= e -> kpc m t <> Some AIdle.
(** the [i]-th action calls save_point, which returns the [k]-th save point at the [e]-th action *)
Definition save_over (i e k : nat) : Prop :=
  (exists t, nth_error sched i = Some (KStart t OSave)) /\ call_over i e /\
  exists s, krun b (kinit sz n) (firstn e sched) = Some s /\ length (k_sps s) = k.
(** the [i]-th action calls delta_statistics on the [k]-th save point, which answers [ds] at the [e]-th action *)
Definition delta_over (i e k : nat) (ds : list Z) : Prop :=
  (exists u, nth_error sched i = Some (KStart u (ODelta k))) /\ call_over i e /\
  exists s s', krun b (kinit sz n) (firstn e sched) = Some s /\ krun b (kinit sz n) (firstn (S e) sched) = Some s' /\
    k_deltas s' = k_deltas s ++ [(k, Some ds)].
(** Calls of save_point and delta_statistics by different threads are ordered: the earlier one
    is over, and its end happens before the beginning of the later one. *)
Definition ordered_statistics : Prop :=
  forall i j t u op op', i < j -> nth_error sched i = Some (KStart t op) -> nth_error sched j = Some (KStart u op') ->
  is_stat op = true -> is_stat op' = true -> t = u \/ exists e, call_over i e /\ khb sched e j.
(** No two calls overlap, and the end of each happens before the beginning of every later one
    (all the calls are made by one thread, or under one lock, for example). *)
Definition serial : Prop :=
  forall i j t u op op', i < j -> nth_error sched i = Some (KStart t op) -> nth_error sched j = Some (KStart u op') ->
  exists e, call_over i e /\ khb sched e j.
(** what the call begun by the [i]-th action adds to [f] *)
Definition contrib_at (f : field) (i : nat) : Z :=
  match nth_error sched i with Some (KStart _ op) => contrib f op | _ => 0%Z end.
End Calls.

(** ** The sequential allocator (Alloc.v), field by field *)
(** the value of each field *)
Definition mem_of (x : stats) : mem := fun f =>
  match f with
  | FAllocs => allocations_count x | FDeallocs => deallocations_count x | FZeroed => zeroed_allocations_count x | FReallocs => reallocations_count x
  | FAllocB => allocated_bytes x | FDeallocB => deallocated_bytes x | FZeroB => zeroed_allocated_bytes x | FOldB => reallocated_originals_bytes x | FNewB => reallocated_news_bytes x
  | FCur => current_used x | FMin => min_used x | FMax => max_used x
  end.
(** the twelve values, in the order of the record *)
Definition stats_list (x : stats) : list Z := map (mem_of x) snapshot_fields.
(** the answers a call leaves behind *)
Definition ans (op : aop) (o : aout) : list (nat * option (list Z)) :=
  match op, o with ODelta k, ADelta r => [(k, option_map stats_list r)] | _, _ => [] end.

Fixpoint answers (ops : list aop) (outs : list aout) : list (nat * option (list Z)) :=
  match ops, outs with
  | op :: ops, o :: outs => ans op o ++ answers ops outs
  | _, _ => []
  end.
