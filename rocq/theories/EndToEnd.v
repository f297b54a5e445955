(** * test_algorithm running on the metrics allocator.
    Composes the models of /repo/src/runners/standard.rs (Standard.v), of
    metrics_allocator.rs (Alloc.v) and of the analyses.

    Simplified: one thread; the clock's readings are whatever the closures' behaviour says. *)
From Coq Require Import List ZArith.
From Verif Require Import Machine Analysis Alloc Crud Free Standard.
Import ListNotations.
Open Scope Z_scope.

(** features.rs:43 [SAVE_POINT_RING_BUFFER_SIZE] *)
Definition ring_slots : nat := 1024.

(** runners/common.rs:191-225 [run_sync_pass], its space part: [ops] are the allocator
    calls made while [algorithm()] runs (l.196). *)
Definition run_sync_pass (b : build) (s : astate) (ops : list aop) : res (astate * space_pass) :=
  x <- astep b s OSave ;;                                            (* l.194 *)
  y <- arun b (fst x) ops ;;                                         (* l.196 *)
  match nth_error (sps (fst y)) (length (sps s)) with                (* the save point of l.194 *)
  | None => Panic PIndex
  | Some sp =>
      d <- delta_statistics b (alc (fst y)) sp ;;                    (* l.198 *)
      Val (fst y, space_measurement sp d)                            (* l.198-215 *)
  end.

(** What the user's closures do when called: [closure u q u' ops d r] -- called in user
    state [u], the closure asked by [q] (or the code printing a report) makes the
    allocator calls [ops], takes time [d], returns [r] and leaves user state [u']. *)
(** standard.rs:57-66: the user's closures *)
Definition behaviour (U : Type) := U -> squery -> U -> list aop -> duration -> Z -> Prop.

(** bookkeeping (no code of /repo). The state of the machine: the allocator, everything it was ever asked (ghost), the user's state *)
Record mstate (U : Type) := MState { m_alloc : astate; m_history : list aop; m_user : U }.
Arguments MState {U}. Arguments m_alloc {U}. Arguments m_history {U}. Arguments m_user {U}.

Section World.
Context {U : Type} (b : build) (closure : behaviour U).
(** common.rs:32-41 and standard.rs:68-70: a measured call; [None] if the metrics panicked *)
Definition measured_call (q : squery) (s s' : mstate U) (a : option (pass_result * Z)) : Prop :=
  exists ops d r, closure (m_user s) q (m_user s') ops d r /\
    m_history s' = m_history s ++ OSave :: ops /\
    match run_sync_pass b (m_alloc s) ops with
    | Val (al, m) => m_alloc s' = al /\ a = Some (PassResult d m, r)
    | _ => a = None
    end.
(** standard.rs:57-122: printing allocates too (format!) but is not measured *)
Definition unmeasured_call (q : squery) (s s' : mstate U) (a : option unit) : Prop :=
  exists ops d r, closure (m_user s) q (m_user s') ops d r /\
    m_history s' = m_history s ++ ops /\
    match arun b (m_alloc s) ops with
    | Val (al, _) => m_alloc s' = al /\ a = Some tt
    | _ => a = None
    end.
(** standard.rs:57-122: each query as the machine answers it *)
Definition alloc_world : world sans (mstate U) := fun s q s' a =>
  match q as q' return option (sans q') -> Prop with
  | SReset => fun a => exists x, measured_call SReset s s' x /\ a = option_map fst x
  | SPass1 => fun a => measured_call SPass1 s s' a
  | SPass2 => fun a => measured_call SPass2 s s' a
  | SOut i => fun a => unmeasured_call (SOut i) s s' a
  end a.
End World.
