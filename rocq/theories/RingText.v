(** * The texts of the ring buffer's overflow errors.
    Models /repo/src/metrics_allocator/ring_buffer.rs:131, 169, 196-204.  Which calls fail is Ring.v. *)
From Coq Require Import List ZArith Bool String Ascii.
From Verif Require Import Machine Ring Report CrudMsg.
Import ListNotations.
Open Scope Z_scope.

(** ring_buffer.rs:131 and 169 (the same format string): the [msg] of the error *)
Definition overflow_msg (published_tail head size : Z) : string :=
  ("Ring-Buffer overflow: published_tail=" ++ dec published_tail ++ ", head=" ++ dec head ++
   " -- tail could not be farther from head than the ring buffer size of " ++ dec size)%string.
(** ring_buffer.rs:202-206: [Display] *)
Definition overflow_display (msg : string) : string := ("RingBufferOverflowError: " ++ msg)%string.

Section Text.
Context {A : Type}.
Variable bld : build.

(** ring_buffer.rs:115-138 [dequeue], run alone, as in Ring.v: the displayed error, if it returns one *)
Definition dequeue_error (r : ring A) (head : Z) : res (option string) :=
  let pt := published_tail r in                                (* 118 *)
  if head >? pt then Spin
  else if head =? pt then Val None
  else
    _ <- u32_add bld head 1 ;;
    d <- u32_sub bld (reserved_tail r) head ;;
    if d >? wrap32 (size r) then Val (Some (overflow_display (overflow_msg pt head (size r))))   (* 131 *)
    else match nth_error (slots r) (slot_index r head) with Some _ => Val None | None => Panic PIndex end.
(** ring_buffer.rs:161-185 [peek_all], as in Ring.v: the displayed error, if it returns one *)
Definition peek_error (r : ring A) (head : Z) : res (option string) :=
  let pt := published_tail r in                                (* 163 *)
  p <- peek_all bld r head ;;
  Val (match p with Some _ => None | None => Some (overflow_display (overflow_msg pt head (size r))) end).   (* 169 *)
(** ring_buffer.rs:48-77,115-185: the error returned by one call, if any *)
Definition rstep_error (s : rstate A) (op : rop A) : res (option string) :=
  match op with
  | Enqueue _ | NewConsumer => Val None
  | Dequeue c => match nth_error (heads s) c with Some h => dequeue_error (rb s) h | None => Val None end
  | PeekAll c => match nth_error (heads s) c with Some h => peek_error (rb s) h | None => Val None end
  end.
(** a history of calls (no code of /repo), with the errors they return *)
Fixpoint rrun_errors (s : rstate A) (ops : list (rop A)) : res (list (option string)) :=
  match ops with
  | [] => Val []
  | op :: rest =>
      e <- rstep_error s op ;;
      so <- rstep bld s op ;;
      es <- rrun_errors (fst so) rest ;;
      Val (e :: es)
  end.

(** ** Concurrent: the machine of Ring.v, with each thread's local variable [published_tail]
    of [dequeue] (line 118; [peek_all] has no shared access between reading it and printing it)
    and the errors returned so far, with the consumer they were returned for. *)
Record tstate := TState { t_c : cstate A; t_tails : list Z; t_errors : list (nat * string) }.
(** ring_buffer.rs:39-45 *)
Definition tinit (sz n : nat) : tstate := TState (cinit sz n) (repeat 0 n) [].
(** ring_buffer.rs:118: what thread [t]'s variables are after its next access *)
Definition read_tail (s : cstate A) (t : nat) (tails : list Z) : list Z :=
  match nth_error (c_threads s) t with
  | Some (DeqLoadTail _ _) => upd t (published_tail (c_ring s)) tails
  | _ => tails
  end.
(** ring_buffer.rs:130-131,168-169: the error thread [t] returns with its next access, if any *)
Definition step_error (s : cstate A) (t : nat) (tails : list Z) : list (nat * string) :=
  let r := c_ring s in
  match nth_error (c_threads s) t with
  | Some (DeqCheck c h) =>
      match u32_sub bld (reserved_tail r) h with
      | Val d => if d >? wrap32 (size r) then [(c, overflow_display (overflow_msg (nth t tails 0) h (size r)))] else []
      | _ => []
      end
  | Some (PeekLoadTail c h) =>
      match peek_all bld r h with
      | Val None => [(c, overflow_display (overflow_msg (published_tail r) h (size r)))]
      | _ => []
      end
  | _ => []
  end.
(** scheduler (no code of /repo) *)
Definition tstep (s : tstate) (a : action A) : option tstate :=
  match cstep bld (t_c s) a with
  | None => None
  | Some c' =>
      Some (match a with
            | Start _ _ => TState c' (t_tails s) (t_errors s)
            | Step t _ => TState c' (read_tail (t_c s) t (t_tails s)) (t_errors s ++ step_error (t_c s) t (t_tails s))
            end)
  end.
(** scheduler (no code of /repo): a whole schedule *)
Fixpoint trun (s : tstate) (sched : list (action A)) : option tstate :=
  match sched with
  | [] => Some s
  | a :: rest => match tstep s a with Some s' => trun s' rest | None => None end
  end.
End Text.
Arguments tstate A : clear implicits.
