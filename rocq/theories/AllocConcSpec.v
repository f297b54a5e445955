(** * Vocabulary for the theorems about concurrent allocations. *)
From Coq Require Import List ZArith.
From Verif Require Import Machine Alloc AllocSpec AllocConc.
Import ListNotations.
Open Scope Z_scope.

(** what one call adds to a counter (or to current_used_memory) *)
Definition contrib (f : field) (op : aop) : Z :=
  match f with
  | FAllocs => f_allocations op | FDeallocs => f_deallocations op | FZeroed => f_zeroed op
  | FReallocs => f_reallocations op | FAllocB => f_allocated op | FDeallocB => f_deallocated op
  | FZeroB => f_zeroed_bytes op | FOldB => f_realloc_old op | FNewB => f_realloc_new op
  | FCur => delta op | FMin | FMax => 0
  end.
Definition calls (sched : list aaction) : list aop :=
  flat_map (fun a => match a with AStart _ op => [op] | _ => [] end) sched.
Definition idle_all (s : acst) : Prop := Forall (fun p => p = AIdle) (a_threads s).
Definition saving (p : apc) : bool :=
  match p with
  | SLoadMin | SLoadMax _ | SEnq _ _ | SConsumer | SLoadCur1 _ | SStoreMin _ _ | SLoadCur2 _ | SStoreMax _ _
  | SSnap _ _ _ => true
  | _ => false
  end.
(** while a thread is inside save_point, all others are idle *)
Definition exclusive (s : acst) : Prop :=
  forall t u p q, nth_error (a_threads s) t = Some p -> nth_error (a_threads s) u = Some q ->
    saving p = true -> t <> u -> q = AIdle.
(** at every moment of the execution *)
Definition always (b : build) (P : acst -> Prop) (s0 : acst) (sched : list aaction) : Prop :=
  forall sched1 sched2 s, sched = sched1 ++ sched2 -> acrun b s0 sched1 = Some s -> P s.
Definition bounded (m : mem) : Prop := m FMin <= m FCur <= m FMax.

(** the calls are ones the hardware can carry out: real sizes, totals below 2^64, fewer than 2^32 save points *)
Definition fits (ops : list aop) : Prop :=
  Forall sizes_ok ops /\ (forall f, In f counter_fields -> total (contrib f) ops < two64) /\ saves ops < two32.

(** thread [t] calls [op] and runs alone until it returns, [k] steps later *)
Definition acall (t : nat) (op : aop) (k : nat) : list aaction := AStart t op :: repeat (AStep t false) k.
(** number of atomic steps of an undisturbed save_point and of an undisturbed, successful delta_statistics *)
Definition save_steps : nat := 21.
Definition delta_steps : nat := 13.

