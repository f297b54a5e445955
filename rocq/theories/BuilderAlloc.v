(** * The async builder running on the metrics allocator.
    Composes the models of /repo/src/api/builders/regular_async_builder.rs (Builder.v),
    of metrics_allocator.rs (Alloc.v) and of the analyses.

    Simplified: one thread; the allocator calls made while a future is awaited -- by its
    own task or by others the executor runs meanwhile -- come in one order; the clock's
    readings are whatever the closures' behaviour says. *)
From Coq Require Import List ZArith.
From Verif Require Import Machine Analysis Alloc Crud Free Present Builder EndToEnd.
Import ListNotations.
Open Scope Z_scope.

(** runners/common.rs:238-275 [run_async_pass], its space part: [ops] are the allocator
    calls made while [algorithm_pass_fn(algo_data).await] runs (l.247). *)
Definition run_async_pass_space (b : build) (s : astate) (ops : list aop) : res (astate * space_pass) :=
  x <- astep b s OSave ;;                                            (* l.245 *)
  y <- arun b (fst x) ops ;;                                         (* l.247 *)
  match nth_error (sps (fst y)) (length (sps s)) with                (* the save point of l.245 *)
  | None => Panic PIndex
  | Some sp =>
      d <- delta_statistics b (alc (fst y)) sp ;;                    (* l.249 *)
      Val (fst y, space_measurement sp d)                            (* l.249-274 *)
  end.

Section World.
Context {F D X U : Type} (b : build).
Local Notation bquery := (@bquery F D X).

(** regular_async_builder.rs:21-25, measurer.rs:63-68: what the user's closures return *)
Definition user_value (q : bquery) : Type :=
  match q with
  | BRun _ _ => D
  | BAssert _ _ => unit
  | BBefore _ _ => X
  | BAfter _ _ _ => presentable
  | BOut _ => unit
  end.
(** What the user's closures do when called: [closure u q u' ops d r] -- called in user
    state [u], the closure asked by [q] (or the code printing a report) makes the
    allocator calls [ops], takes time [d], returns [r] ([None]: it panics) and leaves [u']. *)
(** regular_async_builder.rs:21-25 *)
Definition async_behaviour := U -> forall q : bquery, U -> list aop -> duration -> option (user_value q) -> Prop.

Variable closure : async_behaviour.
(** common.rs:238-275: a measured call and the await of its future; [None] if it or the metrics panicked *)
Definition awaited (f : F) (data : option D) (s s' : mstate U) (a : option (pass_result * D)) : Prop :=
  exists ops d r, closure (m_user s) (BRun f data) (m_user s') ops d r /\
    m_history s' = m_history s ++ OSave :: ops /\
    match run_async_pass_space b (m_alloc s) ops with
    | Val (al, m) => m_alloc s' = al /\ a = option_map (fun v => (PassResult d m, v)) r
    | _ => a = None
    end.
(** regular_async_builder.rs:82-312: the other calls and the printing are not measured *)
Definition plain (q : bquery) (s s' : mstate U) (a : option (user_value q)) : Prop :=
  exists ops d r, closure (m_user s) q (m_user s') ops d r /\
    m_history s' = m_history s ++ ops /\
    match arun b (m_alloc s) ops with
    | Val (al, _) => m_alloc s' = al /\ a = r
    | _ => a = None
    end.
(** regular_async_builder.rs:82-312: each query as the machine answers it *)
Definition async_world : world (@bans F D X) (mstate U) := fun s q s' a =>
  match q as q' return option (bans q') -> Prop with
  | BRun f data => fun a => awaited f data s s' a
  | BAssert f data => fun a => plain (BAssert f data) s s' a
  | BBefore f data => fun a => plain (BBefore f data) s s' a
  | BAfter f data x => fun a => plain (BAfter f data x) s s' a
  | BOut i => fun a => plain (BOut i) s s' a
  end a.
End World.
Arguments async_behaviour : clear implicits.
