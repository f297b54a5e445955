(** * Vocabulary for executions of the ring buffer under its memory orderings (C80-C82). *)
From Coq Require Import List ZArith Arith.
From Verif Require Import Machine Ring RingSpec RingWeak.
Import ListNotations.
Open Scope nat_scope.

Section Spec.
Context {A : Type}.
(** elements passed to [enqueue] by a schedule *)
Definition wstart1 (a : waction A) : list A := match a with WStart _ (CEnqueue x) => [x] | _ => [] end.
Definition wstarted (sched : list (waction A)) : list A := flat_map wstart1 sched.
(** every thread is outside the ring's methods *)
Definition w_all_idle (s : wstate A) : Prop := Forall (fun p => p = Idle) (w_threads s).
(** positions for which a dequeue on consumer [c] has returned, an element or an overflow error *)
Definition wreturned (c : nat) (s : wstate A) : list Z := flat_map (ret1 c) (w_events s).
(** positions of consumer [c] whose dequeue panicked after having claimed them *)
Definition wlost (c : nat) (s : wstate A) : list Z :=
  flat_map (fun q => if Nat.eqb (fst q) c then [snd q] else []) (w_lost s).
(** every thread has returned from its method or panicked *)
Definition w_stopped (s : wstate A) : Prop :=
  Forall (fun p => p = Idle \/ exists q, p = Panicked q) (w_threads s).

(** the thread an action belongs to *)
Definition actor (a : waction A) : nat :=
  match a with WStart t _ | WStep t _ _ | Send t | Recv t _ => t end.
Definition is_send (a : waction A) : bool := match a with Send _ => true | _ => false end.
(** Happens-before between the [i]-th and the [j]-th action of a schedule: program order,
    and from the [k]-th [Send] to every [Recv] of it; nothing else (in particular no access
    to the ring itself). *)
Inductive hb (sched : list (waction A)) : nat -> nat -> Prop :=
| hb_thread i j a a' : i < j -> nth_error sched i = Some a -> nth_error sched j = Some a' -> actor a = actor a' -> hb sched i j
| hb_sync i j t u : nth_error sched i = Some (Send t) ->
    nth_error sched j = Some (Recv u (length (filter is_send (firstn i sched)))) -> i < j -> hb sched i j
| hb_trans i j k : hb sched i j -> hb sched j k -> hb sched i k.

(** the [i]-th action of [sched], taken from the start, makes a method return with [e] *)
Definition returns (b : build) (sz n : nat) (sched : list (waction A)) (i : nat) (e : event A) : Prop :=
  exists s s', wrun b (winit sz n) (firstn i sched) = Some s /\
               wrun b (winit sz n) (firstn (S i) sched) = Some s' /\ w_events s' = w_events s ++ [e].
(** ... and is thereby a data race on some slot *)
Definition races (b : build) (sz n : nat) (sched : list (waction A)) (i : nat) : Prop :=
  exists s s', wrun b (winit sz n) (firstn i sched) = Some s /\
               wrun b (winit sz n) (firstn (S i) sched) = Some s' /\ w_races s' <> w_races s.
(** ... or makes a dequeue on [c] that has claimed [p] panic *)
Definition loses (b : build) (sz n : nat) (sched : list (waction A)) (i : nat) (c : nat) (p : Z) : Prop :=
  exists s s', wrun b (winit sz n) (firstn i sched) = Some s /\
               wrun b (winit sz n) (firstn (S i) sched) = Some s' /\ w_lost s' = w_lost s ++ [(c, p)].
(** the number of positions reserved when the [i]-th action is over *)
Definition reserved_by (b : build) (sz n : nat) (sched : list (waction A)) (i : nat) : option Z :=
  match wrun b (winit sz n) (firstn (S i) sched) with Some s => Some (Z.of_nat (length (w_hist s))) | None => None end.

(** ** Synchronised executions *)
Definition is_step (a : waction A) : bool := match a with WStep _ _ _ => true | _ => false end.
(** any two accesses of the ring are ordered by happens-before (for example, every thread
    holds the same lock while it is inside a method) *)
Definition synchronised (sched : list (waction A)) : Prop :=
  forall i j a a', i < j -> nth_error sched i = Some a -> nth_error sched j = Some a' ->
  is_step a = true -> is_step a' = true -> hb sched i j.
(** the same calls and steps in the interleaving model of Ring.v *)
Definition erase1 (a : waction A) : list (action A) :=
  match a with WStart t op => [Start t op] | WStep t f _ => [Step t f] | _ => [] end.
Definition erase (sched : list (waction A)) : list (action A) := flat_map erase1 sched.
(** Critical sections under one lock: the [k]-th section starts by acquiring the lock from the
    section before it, and ends by releasing it. *)
Fixpoint locked (k : nat) (sections : list (nat * list (waction A))) : list (waction A) :=
  match sections with
  | [] => []
  | (t, body) :: rest =>
      (if k =? 0 then [] else [Recv t (k - 1)]) ++ body ++ [Send t] ++ locked (S k) rest
  end.
(** a section contains calls and steps of its own thread only *)
Definition section_ok (sec : nat * list (waction A)) : Prop :=
  Forall (fun a => actor a = fst sec /\ match a with WStart _ _ | WStep _ _ _ => True | _ => False end) (snd sec).
End Spec.
