(** * The CRUD runner running on the metrics allocator.
    Composes the models of /repo/src/runners/crud.rs (Crud.v) and of
    metrics_allocator.rs (Alloc.v).

    Simplified: the allocator calls of all threads come in one order (each call is
    atomic; what overlapping calls do is the subject of AllocConc.v and AllocWeak.v);
    the clock's readings stay arbitrary. *)
From Coq Require Import List ZArith.
From Verif Require Import Machine Analysis Alloc IterPass Crud.
Import ListNotations.
Open Scope Z_scope.

(** features.rs:43 [SAVE_POINT_RING_BUFFER_SIZE] *)
Definition crud_slots : nat := 1024.

(** runners/common.rs:72-178 [run_iterator_pass], its space part: [ops] are the allocator
    calls made between the save point and the reading of the statistics, by the threads
    and by spawning and joining them (l.128-145). *)
Definition run_iterator_pass_space (b : build) (s : astate) (ops : list aop) : res (astate * space_pass) :=
  x <- astep b s OSave ;;                                            (* l.127 *)
  y <- arun b (fst x) ops ;;                                         (* l.128-145 *)
  match nth_error (sps (fst y)) (length (sps s)) with                (* the save point of l.127 *)
  | None => Panic PIndex
  | Some sp =>
      d <- delta_statistics b (alc (fst y)) sp ;;                    (* l.149 *)
      Val (fst y, space_measurement sp d)                            (* l.149-166 *)
  end.

(** crud.rs:28-507: the events of an execution with the allocator calls made during each.
    [on_allocator b s w s']: from allocator state [s] the calls lead to [s'], and every
    measured pass measured what the allocator said. *)
Inductive on_allocator (b : build) : astate -> list (event * list aop) -> astate -> Prop :=
| oa_nil s : on_allocator b s [] s
| oa_pass s ph op r T log m ops s1 w s2 :
    run_iterator_pass_space b s ops = Val (s1, pr_space m) ->
    on_allocator b s1 w s2 ->
    on_allocator b s ((EvPass ph op r T log (Some m), ops) :: w) s2
(* a pass that panics: whatever its threads did until then (common.rs:136-138) *)
| oa_panic s ph op r T log ops s1 outs w s2 :
    arun b s ops = Val (s1, outs) ->
    on_allocator b s1 w s2 ->
    on_allocator b s ((EvPass ph op r T log None, ops) :: w) s2
(* crud.rs:87,461: reset_fn is not measured *)
| oa_reset s n ops s1 outs w s2 :
    arun b s ops = Val (s1, outs) ->
    on_allocator b s1 w s2 ->
    on_allocator b s ((EvReset n, ops) :: w) s2
(* crud.rs:224-227: printing allocates (format!) but is not measured *)
| oa_output s i ops s1 outs w s2 :
    arun b s ops = Val (s1, outs) ->
    on_allocator b s1 w s2 ->
    on_allocator b s ((EvOutput i, ops) :: w) s2
(* crud.rs:463: reading the clock; other threads may allocate meanwhile *)
| oa_clock s d ops s1 outs w s2 :
    arun b s ops = Val (s1, outs) ->
    on_allocator b s1 w s2 ->
    on_allocator b s ((EvClock d, ops) :: w) s2.
