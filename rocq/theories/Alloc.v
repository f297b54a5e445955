(** * Model of /repo/src/metrics_allocator/metrics_allocator.rs:10-285, one thread.

    The concurrent model of the same counters is in AllocConc.v. *)
From Coq Require Import List ZArith Lia Bool.
From Verif Require Import Machine Ring Analysis.
Import ListNotations.
Open Scope Z_scope.

(** metrics_allocator.rs:10-23 [MetricsAllocatorStatistics] *)
Record stats := Stats {
  allocations_count : Z;
  deallocations_count : Z;
  zeroed_allocations_count : Z;
  reallocations_count : Z;
  allocated_bytes : Z;
  deallocated_bytes : Z;
  zeroed_allocated_bytes : Z;
  reallocated_originals_bytes : Z;
  reallocated_news_bytes : Z;
  current_used : Z;
  min_used : Z;
  max_used : Z
}.

(** metrics_allocator.rs:104-108; a slot of the ring is (min, max), lines 80-85. *)
Record allocator := Allocator { st : stats; save_ring : ring (Z * Z) }.

(** metrics_allocator.rs:71-77: the snapshot and the consumer's head. *)
Record savepoint := SavePoint { metrics : stats; consumer_head : Z }.

(** metrics_allocator.rs:120-139 *)
Definition alloc_new (sz : nat) : allocator :=
  Allocator (Stats 0 0 0 0 0 0 0 0 0 0 0 0) (ring_new sz).

(** metrics_allocator.rs:240-264 [compute_min_and_max_used_memories], run alone:
    each compare-exchange loop succeeds at its first non-spurious attempt. *)
Definition compute_min_and_max (s : stats) : stats :=
  let current := current_used s in
  let mn := if current <? min_used s then current else min_used s in
  let mx := if current >? max_used s then current else max_used s in
  Stats (allocations_count s) (deallocations_count s) (zeroed_allocations_count s) (reallocations_count s)
        (allocated_bytes s) (deallocated_bytes s) (zeroed_allocated_bytes s)
        (reallocated_originals_bytes s) (reallocated_news_bytes s) current mn mx.

(** metrics_allocator.rs:203-208; [fetch_add]/[fetch_sub] wrap in every profile. *)
Definition compute_alloc (s : stats) (size : Z) : stats :=
  compute_min_and_max
    (Stats (wrap64 (allocations_count s + 1)) (deallocations_count s) (zeroed_allocations_count s)
           (reallocations_count s) (wrap64 (allocated_bytes s + size)) (deallocated_bytes s)
           (zeroed_allocated_bytes s) (reallocated_originals_bytes s) (reallocated_news_bytes s)
           (wrap64 (current_used s + size)) (min_used s) (max_used s)).

(** metrics_allocator.rs:211-216 *)
Definition compute_dealloc (s : stats) (size : Z) : stats :=
  compute_min_and_max
    (Stats (allocations_count s) (wrap64 (deallocations_count s + 1)) (zeroed_allocations_count s)
           (reallocations_count s) (allocated_bytes s) (wrap64 (deallocated_bytes s + size))
           (zeroed_allocated_bytes s) (reallocated_originals_bytes s) (reallocated_news_bytes s)
           (wrap64 (current_used s - size)) (min_used s) (max_used s)).

(** metrics_allocator.rs:219-224 *)
Definition compute_alloc_zeroed (s : stats) (size : Z) : stats :=
  compute_min_and_max
    (Stats (allocations_count s) (deallocations_count s) (wrap64 (zeroed_allocations_count s + 1))
           (reallocations_count s) (allocated_bytes s) (deallocated_bytes s)
           (wrap64 (zeroed_allocated_bytes s + size)) (reallocated_originals_bytes s) (reallocated_news_bytes s)
           (wrap64 (current_used s + size)) (min_used s) (max_used s)).

(** metrics_allocator.rs:227-237 *)
Definition compute_realloc (s : stats) (old_size new_size : Z) : stats :=
  let current :=
    if new_size >? old_size then wrap64 (current_used s + (new_size - old_size))
    else if new_size <? old_size then wrap64 (current_used s - (old_size - new_size))
    else current_used s in
  compute_min_and_max
    (Stats (allocations_count s) (deallocations_count s) (zeroed_allocations_count s)
           (wrap64 (reallocations_count s + 1)) (allocated_bytes s) (deallocated_bytes s)
           (zeroed_allocated_bytes s) (wrap64 (reallocated_originals_bytes s + old_size))
           (wrap64 (reallocated_news_bytes s + new_size)) current (min_used s) (max_used s)).

(** metrics_allocator.rs:142-169 [save_point] *)
Definition save_point (b : build) (a : allocator) : res (allocator * savepoint) :=
  r <- enqueue b (save_ring a) (min_used (st a), max_used (st a)) ;;
  let head := consumer r in
  let s := st a in
  let s' := Stats (allocations_count s) (deallocations_count s) (zeroed_allocations_count s) (reallocations_count s)
        (allocated_bytes s) (deallocated_bytes s) (zeroed_allocated_bytes s)
        (reallocated_originals_bytes s) (reallocated_news_bytes s)
        (current_used s) (current_used s) (current_used s) in
  Val (Allocator s' r, SavePoint s' head).

(** metrics_allocator.rs:177-182: fold over the peeked (min, max) pairs.  [None] would be an
    uninitialised slot: modelled as a panic so that theorems exclude it. *)
Fixpoint fold_minmax (l : list (option (Z * Z))) (mn mx : Z) : res (Z * Z) :=
  match l with
  | [] => Val (mn, mx)
  | Some (a, c) :: rest => fold_minmax rest (Z.min mn a) (Z.max mx c)
  | None :: _ => Panic PIndex
  end.

(** metrics_allocator.rs:173-200 [delta_statistics]; [None] = Err(RingBufferOverflowError). *)
Definition delta_statistics (b : build) (a : allocator) (sp : savepoint) : res (option stats) :=
  p <- peek_all b (save_ring a) (consumer_head sp) ;;
  match p with
  | None => Val None
  | Some (s1, s2) =>
      mm <- fold_minmax (s1 ++ s2) (two64 - 1) 0 ;;
      let s := st a in let m := metrics sp in
      let mn := Z.min (fst mm) (min_used s) in
      let mx := Z.max (snd mm) (max_used s) in
      d1 <- usize_sub b (allocations_count s) (allocations_count m) ;;
      d2 <- usize_sub b (deallocations_count s) (deallocations_count m) ;;
      d3 <- usize_sub b (zeroed_allocations_count s) (zeroed_allocations_count m) ;;
      d4 <- usize_sub b (reallocations_count s) (reallocations_count m) ;;
      d5 <- usize_sub b (allocated_bytes s) (allocated_bytes m) ;;
      d6 <- usize_sub b (deallocated_bytes s) (deallocated_bytes m) ;;
      d7 <- usize_sub b (zeroed_allocated_bytes s) (zeroed_allocated_bytes m) ;;
      d8 <- usize_sub b (reallocated_originals_bytes s) (reallocated_originals_bytes m) ;;
      d9 <- usize_sub b (reallocated_news_bytes s) (reallocated_news_bytes m) ;;
      Val (Some (Stats d1 d2 d3 d4 d5 d6 d7 d8 d9 (current_used s) mn mx))
  end.

(** ** Histories of calls *)
(** GlobalAlloc, metrics_allocator.rs:268-285.  The metrics are updated before
    the system allocator runs and whatever it answers, so [ok] (did the system
    allocator succeed?) has no effect on the allocator's state. *)
Inductive aop :=
| OAlloc (size : Z) (ok : bool)
| ODealloc (size : Z)
| OZeroed (size : Z) (ok : bool)
| ORealloc (old_size new_size : Z) (ok : bool)
| OSave
| ODelta (k : nat).      (* delta_statistics on the k-th save point taken *)

(** metrics_allocator.rs:173: what a call returns *)
Inductive aout := ANone | ADelta (r : option stats) | ANoSuchSavePoint.

(** metrics_allocator.rs:104-108, and the save points (68-74) returned so far *)
Record astate := AState { alc : allocator; sps : list savepoint }.
(** metrics_allocator.rs:120-139 *)
Definition ainit (sz : nat) : astate := AState (alloc_new sz) [].

(** bookkeeping (no code of /repo) *)
Definition with_stats (s : astate) (t : stats) : astate := AState (Allocator t (save_ring (alc s))) (sps s).

(** metrics_allocator.rs:142-284: one call, run to completion (the system allocator, 271, 275, 279, 283, is not modelled) *)
Definition astep (b : build) (s : astate) (op : aop) : res (astate * aout) :=
  match op with
  | OAlloc n _ => Val (with_stats s (compute_alloc (st (alc s)) n), ANone)
  | ODealloc n => Val (with_stats s (compute_dealloc (st (alc s)) n), ANone)
  | OZeroed n _ => Val (with_stats s (compute_alloc_zeroed (st (alc s)) n), ANone)
  | ORealloc o n _ => Val (with_stats s (compute_realloc (st (alc s)) o n), ANone)
  | OSave => asp <- save_point b (alc s) ;; Val (AState (fst asp) (sps s ++ [snd asp]), ANone)
  | ODelta k =>
      match nth_error (sps s) k with
      | None => Val (s, ANoSuchSavePoint)
      | Some sp => r <- delta_statistics b (alc s) sp ;; Val (s, ADelta r)
      end
  end.

(** a history of calls (no code of /repo) *)
Fixpoint arun (b : build) (s : astate) (ops : list aop) : res (astate * list aout) :=
  match ops with
  | [] => Val (s, [])
  | op :: rest =>
      so <- astep b s op ;;
      sos <- arun b (fst so) rest ;;
      Val (fst sos, snd so :: snd sos)
  end.

(** runners/common.rs:149-165, 195-214, 247-272: the space measurement of a pass
    made of a save point, the algorithm and delta_statistics. *)
Definition space_measurement (sp : savepoint) (d : option stats) : space_pass :=
  match d with
  | Some s => {| used_memory_before := current_used (metrics sp); used_memory_after := current_used s;
                 max_used_memory := max_used s; min_used_memory := min_used s |}
  | None => sentinel_space
  end.
