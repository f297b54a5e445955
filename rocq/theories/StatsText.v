(** * The text of allocator statistics.
    Models /repo/src/metrics_allocator/metrics_allocator.rs:24-65: [Display] and [Debug] of
    [MetricsAllocatorStatistics]. *)
From Coq Require Import ZArith String Ascii List.
From Verif Require Import Machine Alloc Report CrudMsg.
Import ListNotations.
Open Scope string_scope.

(** A format string is its literal pieces and its [{}]s in order (std). *)
Inductive piece := Lit (s : string) | Hole.
Fixpoint render (f : list piece) (args : list Z) : string :=
  match f, args with
  | Lit s :: f, _ => s ++ render f args
  | Hole :: f, n :: args => dec n ++ render f args
  | _, _ => EmptyString
  end.
(** metrics_allocator.rs:26; [{{] and [}}] are escaped braces *)
Definition statistics_format : list piece :=
  [ Lit "{counts: {allocations: "; Hole; Lit ", deallocations: "; Hole; Lit ", zeroed_allocations: "; Hole;
    Lit ", reallocations: "; Hole; Lit "}, bytes: {allocated: "; Hole; Lit ", deallocated: "; Hole;
    Lit ", zeroed: "; Hole; Lit ", reallocated: {originals: "; Hole; Lit ", news: "; Hole;
    Lit "}}, current_used_memory: "; Hole; Lit ", min_used_memory: "; Hole; Lit ", max_used_memory: "; Hole; Lit "}" ].
(** metrics_allocator.rs:24-32 *)
Definition statistics_fmt (s : stats) : string :=
  render statistics_format
    [ allocations_count s; deallocations_count s; zeroed_allocations_count s; reallocations_count s;
      allocated_bytes s; deallocated_bytes s; zeroed_allocated_bytes s;
      reallocated_originals_bytes s; reallocated_news_bytes s;
      current_used s; min_used s; max_used s ].
(** metrics_allocator.rs:51-55, 61-65: [Display] and [Debug] for [<usize>] *)
Definition display_usize (s : stats) : string := statistics_fmt s.
Definition debug_usize (s : stats) : string := display_usize s.
(** metrics_allocator.rs:33-50, 56-60: for [<AtomicUsize>] every counter is loaded first, with no
    other thread running *)
Definition display_atomic (s : stats) : string :=
  statistics_fmt
    (Stats (allocations_count s) (deallocations_count s) (zeroed_allocations_count s) (reallocations_count s)
           (allocated_bytes s) (deallocated_bytes s) (zeroed_allocated_bytes s) (reallocated_originals_bytes s)
           (reallocated_news_bytes s) (current_used s) (min_used s) (max_used s)).
(** metrics_allocator.rs:56-60 *)
Definition debug_atomic (s : stats) : string := display_atomic s.
