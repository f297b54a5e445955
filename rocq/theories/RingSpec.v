(** * Specification of the ring buffer: a list of everything ever enqueued and,
    per consumer, how many of its elements that consumer is past. *)
From Coq Require Import List ZArith Arith.
From Verif Require Import Machine Ring.
Import ListNotations.
Open Scope nat_scope.

Section Spec.
Context {A : Type}.
Variable sz : nat.

Record sstate := SState { s_hist : list A; s_heads : list nat }.
Definition sinit : sstate := SState [] [].

Definition pending (s : sstate) (h : nat) : list A := skipn h (s_hist s).

Definition sstep (s : sstate) (op : rop A) : sstate * rout A :=
  match op with
  | Enqueue x => (SState (s_hist s ++ [x]) (s_heads s), REnqueued)
  | NewConsumer => (SState (s_hist s) (s_heads s ++ [length (s_hist s)]), RConsumer (length (s_heads s)))
  | Dequeue c =>
      match nth_error (s_heads s) c with
      | None => (s, RNoSuchConsumer)
      | Some h =>
          match pending s h with
          | [] => (s, RNothing)
          | x :: rest =>
              (SState (s_hist s) (upd c (S h) (s_heads s)),
               if sz <? length (x :: rest) then ROverflow else RElement (Some x))
          end
      end
  | PeekAll c =>
      match nth_error (s_heads s) c with
      | None => (s, RNoSuchConsumer)
      | Some h => (s, if sz <? length (pending s h) then ROverflow else RElements (map Some (pending s h)))
      end
  end.

Fixpoint srun (s : sstate) (ops : list (rop A)) : sstate * list (rout A) :=
  match ops with
  | [] => (s, [])
  | op :: rest =>
      let (s1, o) := sstep s op in
      let (s2, os) := srun s1 rest in (s2, o :: os)
  end.
End Spec.
Arguments sstate A : clear implicits.

(** Elements enqueued by a list of calls. *)
Definition enqueued {A} (ops : list (rop A)) : list A :=
  flat_map (fun op => match op with Enqueue x => [x] | _ => [] end) ops.

(** ** Vocabulary for concurrent executions (what callers see, and when they are done) *)
Section Concurrent.
Context {A : Type}.
(** elements passed to [enqueue] by a schedule, in the order of the calls *)
Definition start1 (a : action A) : list A := match a with Start _ (CEnqueue x) => [x] | _ => [] end.
Definition started (sched : list (action A)) : list A := flat_map start1 sched.
(** every thread is outside the ring's methods *)
Definition all_idle (s : cstate A) : Prop := Forall (fun p => p = Idle) (c_threads s).
Definition no_panic (s : cstate A) : Prop := forall t q, nth_error (c_threads s) t <> Some (Panicked q).
(** (position, element) of the enqueues that have returned, oldest first *)
Definition enq1 (e : event A) : list (Z * A) := match e with EvEnqueued p x => [(p, x)] | _ => [] end.
(** positions for which a dequeue on consumer [c] has returned, an element or an overflow error *)
Definition ret1 (c : nat) (e : event A) : list Z :=
  match e with
  | EvElement c' h _ => if Nat.eqb c' c then [h] else []
  | EvOverflow c' h => if Nat.eqb c' c then [h] else []
  | _ => []
  end.
Definition returned (c : nat) (s : cstate A) : list Z := flat_map (ret1 c) (c_events s).
(** thread [t] alone takes [k] steps, with no spurious compare-exchange failure *)
Definition solo (t k : nat) : list (action A) := repeat (Step t false) k.
Definition enqueuing (p : pc A) : bool :=
  match p with EnqReserve _ | EnqWrite _ _ | EnqPublish _ _ => true | _ => false end.
Definition dequeuing (p : pc A) : bool :=
  match p with DeqLoadHead _ | DeqLoadTail _ _ | DeqCas _ _ | DeqCheck _ _ => true | _ => false end.
(** thread [t], running alone, returns from its current method after [k] steps *)
Definition returns_from (b : build) (s : cstate A) (t k : nat) : Prop :=
  exists s' e, crun b s (solo t k) = Some s' /\ c_events s' = c_events s ++ [e] /\
    nth_error (c_threads s') t = Some Idle.
End Concurrent.
(** Number of consumers created by a list of calls. *)
Definition consumers {A} (ops : list (rop A)) : nat :=
  length (filter (fun op => match op with NewConsumer => true | _ => false end) ops).
