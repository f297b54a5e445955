(** * Model of the ring buffer: /repo/src/metrics_allocator/ring_buffer.rs:20-187.

    Two models of the same code.  The sequential one runs each method to
    completion; the concurrent one interleaves the individual atomic operations
    of any number of threads.  [None] in a slot is uninitialised memory
    ([MaybeUninit], line 26).  Counters are AtomicU32 values (Z in [0, 2^32)). *)
From Coq Require Import List ZArith Lia Bool.
From Verif Require Import Machine.
Import ListNotations.
Open Scope Z_scope.

Section Ring.
Context {A : Type}.
Variable bld : build.

(** ring_buffer.rs:20-27 (RING_BUFFER_SIZE is [length slots]).  [overwritten] is
    a ghost: the old contents dropped by the assignment of line 66, oldest first. *)
Record ring := Ring {
  reserved_tail : Z;
  published_tail : Z;
  slots : list (option A);
  overwritten : list (option A)
}.

(** ring_buffer.rs:20: RING_BUFFER_SIZE *)
Definition size (r : ring) : Z := Z.of_nat (length (slots r)).
(** ring_buffer.rs:66,133,164,165; [x as usize % RING_BUFFER_SIZE] *)
Definition slot_index (r : ring) (pos : Z) : nat := Z.to_nat (pos mod size r).

(** ring_buffer.rs:39-45 *)
Definition ring_new (sz : nat) : ring := Ring 0 0 (repeat None sz) [].

(** ring_buffer.rs:48-53: a consumer is just its [head]. *)
Definition consumer (r : ring) : Z := published_tail r.

(** Line 66, [mutable_buffer[reserved_tail as usize % RING_BUFFER_SIZE] = element]:
    drops the old contents of the slot and stores the new element. *)
(** ring_buffer.rs:61-66 *)
Definition store (r : ring) (pos : Z) (x : A) : ring :=
  Ring (reserved_tail r) (published_tail r)
       (upd (slot_index r pos) (Some x) (slots r))
       (overwritten r ++ [match nth_error (slots r) (slot_index r pos) with Some o => o | None => None end]).

(** ring_buffer.rs:56-77 [enqueue], run alone.  With nobody else running, a
    failed compare-exchange either panics (line 72-73) or is repeated forever. *)
Definition enqueue (r : ring) (x : A) : res ring :=
  let rt := reserved_tail r in
  let r1 := Ring (wrap32 (rt + 1)) (published_tail r) (slots r) (overwritten r) in   (* 59: fetch_add wraps *)
  let r2 := store r1 rt x in                                                          (* 66 *)
  nxt <- u32_add bld rt 1 ;;                                                          (* 70: reserved_tail+1 *)
  if published_tail r2 =? rt then Val (Ring (reserved_tail r2) nxt (slots r2) (overwritten r2))
  else if published_tail r2 >? rt then Panic PBugLoop
  else Spin.

(** ring_buffer.rs:115. Result of [dequeue]: Ok(None), Ok(Some(&slot)) or Err *)
Inductive deq_result := DNone | DSome (content : option A) | DOverflow.

(** ring_buffer.rs:115-138 [dequeue], run alone; returns the consumer's new head. *)
Definition dequeue (r : ring) (head : Z) : res (Z * deq_result) :=
  if head >? published_tail r then Spin                       (* 119-122: reload and continue *)
  else if head =? published_tail r then Val (head, DNone)     (* 123-125 *)
  else
    h1 <- u32_add bld head 1 ;;                               (* 126: head + 1 *)
    d <- u32_sub bld (reserved_tail r) head ;;                (* 130 *)
    if d >? wrap32 (size r) then Val (h1, DOverflow)          (* 130-132; [as u32] *)
    else match nth_error (slots r) (slot_index r head) with   (* 133 *)
         | Some o => Val (h1, DSome o)
         | None => Panic PIndex
         end.

(** ring_buffer.rs:175,182; [&array[a..b]] *)
Definition slice (l : list (option A)) (a b : nat) : res (list (option A)) :=
  if (a <=? b)%nat && (b <=? length l)%nat then Val (firstn (b - a) (skipn a l)) else Panic PIndex.

(** ring_buffer.rs:161-185 [peek_all]; [None] = Err(RingBufferOverflowError). *)
Definition peek_all (r : ring) (head : Z) : res (option (list (option A) * list (option A))) :=
  let pt := published_tail r in
  let hi := slot_index r head in
  let ti := slot_index r pt in
  if head =? pt then Val (Some ([], []))
  else
    d <- u32_sub bld pt head ;;
    if d >? wrap32 (size r) then Val None
    else if (hi <? ti)%nat then
      s <- slice (slots r) hi ti ;; Val (Some (s, []))
    else
      s1 <- slice (slots r) hi (length (slots r)) ;;
      s2 <- slice (slots r) 0 ti ;;
      Val (Some (s1, s2)).

(** ** Histories of calls made by one thread *)
(** ring_buffer.rs:48,56,115,161: the public methods; consumers are numbered in order of creation *)
Inductive rop := Enqueue (x : A) | NewConsumer | Dequeue (c : nat) | PeekAll (c : nat).
(** ring_buffer.rs:48,56,115,161: what the methods return *)
Inductive rout :=
| REnqueued
| RConsumer (c : nat)                      (* the c-th consumer was created *)
| RNothing                                 (* dequeue: Ok(None) *)
| RElement (content : option A)            (* dequeue: Ok(Some(&slot)), and the slot's content *)
| RElements (contents : list (option A))   (* peek_all: Ok, the two slices concatenated *)
| ROverflow                                (* Err(RingBufferOverflowError) *)
| RNoSuchConsumer.                         (* not expressible in Rust *)

(** ring_buffer.rs:20-27,104-107: a ring buffer and the heads of its consumers *)
Record rstate := RState { rb : ring; heads : list Z }.
(** ring_buffer.rs:39-45 *)
Definition rinit (sz : nat) : rstate := RState (ring_new sz) [].

(** ring_buffer.rs:48-77,115-185: one method call, run to completion *)
Definition rstep (s : rstate) (op : rop) : res (rstate * rout) :=
  match op with
  | Enqueue x => r <- enqueue (rb s) x ;; Val (RState r (heads s), REnqueued)
  | NewConsumer => Val (RState (rb s) (heads s ++ [consumer (rb s)]), RConsumer (length (heads s)))
  | Dequeue c =>
      match nth_error (heads s) c with
      | None => Val (s, RNoSuchConsumer)
      | Some h =>
          hr <- dequeue (rb s) h ;;
          Val (RState (rb s) (upd c (fst hr) (heads s)),
               match snd hr with DNone => RNothing | DSome o => RElement o | DOverflow => ROverflow end)
      end
  | PeekAll c =>
      match nth_error (heads s) c with
      | None => Val (s, RNoSuchConsumer)
      | Some h =>
          p <- peek_all (rb s) h ;;
          Val (s, match p with Some (s1, s2) => RElements (s1 ++ s2) | None => ROverflow end)
      end
  end.

(** a history of calls (no code of /repo) *)
Fixpoint rrun (s : rstate) (ops : list rop) : res (rstate * list rout) :=
  match ops with
  | [] => Val (s, [])
  | op :: rest =>
      so <- rstep s op ;;
      sos <- rrun (fst so) rest ;;
      Val (fst sos, snd so :: snd sos)
  end.

(** ** Concurrent model: one step = one access to shared memory.
    Sequentially consistent interleaving (simplification: the source uses
    Relaxed/Acquire/Release orderings, which RingWeak.v models; C83 says when
    the two agree).  Local computations
    between two shared accesses are merged with the preceding access. *)
(** ring_buffer.rs:48-77,115-185: where a thread is *)
Inductive pc :=
| Idle
| EnqReserve (x : A)                    (* about to run line 59 *)
| EnqWrite (rt : Z) (x : A)             (* about to run line 66 *)
| EnqPublish (rt : Z) (x : A)           (* about to run line 70; [x] is a ghost *)
| DeqLoadHead (c : nat)                 (* about to run line 116 or 120 *)
| DeqLoadTail (c : nat) (head : Z)      (* about to run line 118 *)
| DeqCas (c : nat) (head : Z)           (* about to run line 126 *)
| DeqCheck (c : nat) (head : Z)         (* about to run line 130 *)
| PeekLoadHead (c : nat)                (* about to run line 162 *)
| PeekLoadTail (c : nat) (head : Z)     (* about to run line 163 *)
| ConsLoad                              (* about to run line 50 *)
| Panicked (p : panic).

(** ring_buffer.rs:48-77,115-185. What a caller observes when a method returns *)
Inductive event :=
| EvEnqueued (pos : Z) (x : A)
| EvConsumer (c : nat) (head : Z)
| EvNothing (c : nat)
| EvElement (c : nat) (pos : Z) (content : option A)  (* content of the slot when dequeue returns *)
| EvOverflow (c : nat) (pos : Z)
| EvPeeked (c : nat) (head tail reserved : Z) (contents : list (option A))
    (* contents of the two slices, and (ghost) the reserved tail, when peek_all returns *)
| EvPeekOverflow (c : nat) (head tail : Z).

(** ring_buffer.rs:20-27,104-107: the shared memory, the threads, and ghosts *)
Record cstate := CState {
  c_ring : ring;
  c_heads : list Z;                (* the [head] of each consumer *)
  c_threads : list pc;
  (* ghosts *)
  c_hist : list A;                 (* elements in the order of their reservations (line 59) *)
  c_starts : list Z;               (* [head] of each consumer at its creation *)
  c_claims : list (nat * Z);       (* successful compare-exchanges of line 126: consumer, position *)
  c_events : list event            (* oldest first *)
}.

(** ring_buffer.rs:39-45: a new ring buffer, and threads outside its methods *)
Definition cinit (sz nthreads : nat) : cstate :=
  CState (ring_new sz) [] (repeat Idle nthreads) [] [] [] [].

(** ring_buffer.rs:48,56,115,161: the public methods *)
Inductive cop := CEnqueue (x : A) | CDequeue (c : nat) | CPeekAll (c : nat) | CConsumer.
(** [Start t op]: idle thread [t] calls a method.  [Step t spurious]: thread [t]
    performs its next shared access; [spurious] makes a compare_exchange_weak fail. *)
(** scheduler (no code of /repo) *)
Inductive action := Start (t : nat) (op : cop) | Step (t : nat) (spurious : bool).

(** ring_buffer.rs:50,59,116,162: the first shared access of each method *)
Definition first_pc (op : cop) : pc :=
  match op with
  | CEnqueue x => EnqReserve x
  | CDequeue c => DeqLoadHead c
  | CPeekAll c => PeekLoadHead c
  | CConsumer => ConsLoad
  end.

(** bookkeeping (no code of /repo): thread [t] is now at [p] *)
Definition set_pc (s : cstate) (t : nat) (p : pc) : cstate :=
  CState (c_ring s) (c_heads s) (upd t p (c_threads s)) (c_hist s) (c_starts s) (c_claims s) (c_events s).
(** bookkeeping (no code of /repo) *)
Definition set_ring (s : cstate) (r : ring) : cstate :=
  CState r (c_heads s) (c_threads s) (c_hist s) (c_starts s) (c_claims s) (c_events s).
(** ghost (no code of /repo): a method returned *)
Definition log (s : cstate) (e : event) : cstate :=
  CState (c_ring s) (c_heads s) (c_threads s) (c_hist s) (c_starts s) (c_claims s) (c_events s ++ [e]).
(** ghost (no code of /repo): a reservation *)
Definition push_hist (s : cstate) (x : A) : cstate :=
  CState (c_ring s) (c_heads s) (c_threads s) (c_hist s ++ [x]) (c_starts s) (c_claims s) (c_events s).
(** ring_buffer.rs:126-127, the successful compare-exchange *)
Definition claim (s : cstate) (c : nat) (head next : Z) : cstate :=
  CState (c_ring s) (upd c next (c_heads s)) (c_threads s) (c_hist s) (c_starts s)
         (c_claims s ++ [(c, head)]) (c_events s).
(** ring_buffer.rs:48-53 *)
Definition add_consumer (s : cstate) : cstate :=
  let h := consumer (c_ring s) in
  CState (c_ring s) (c_heads s ++ [h]) (c_threads s) (c_hist s) (c_starts s ++ [h]) (c_claims s)
         (c_events s ++ [EvConsumer (length (c_heads s)) h]).

(** ring_buffer.rs:164-184. What [peek_all] answers once both counters are loaded (lines 164-184) *)
Definition peek_event (r : ring) (c : nat) (head : Z) : res event :=
  p <- peek_all r head ;;
  Val (match p with
       | Some (s1, s2) => EvPeeked c head (published_tail r) (reserved_tail r) (s1 ++ s2)
       | None => EvPeekOverflow c head (published_tail r)
       end).

(** ring_buffer.rs:48-77,115-185, by line as said at [pc]. One shared access of a thread at [p] *)
Definition thread_step (s : cstate) (t : nat) (p : pc) (spurious : bool) : option cstate :=
  let r := c_ring s in
  match p with
  | Idle => None
  | Panicked _ => None
  | EnqReserve x =>
      Some (set_pc (push_hist (set_ring s (Ring (wrap32 (reserved_tail r + 1)) (published_tail r)
                                               (slots r) (overwritten r))) x)
                   t (EnqWrite (reserved_tail r) x))
  | EnqWrite rt x => Some (set_pc (set_ring s (store r rt x)) t (EnqPublish rt x))
  | EnqPublish rt x =>
      match u32_add bld rt 1 with
      | Val nxt =>
          if negb spurious && (published_tail r =? rt) then
            Some (log (set_pc (set_ring s (Ring (reserved_tail r) nxt (slots r) (overwritten r))) t Idle)
                      (EvEnqueued rt x))
          else if published_tail r >? rt then Some (set_pc s t (Panicked PBugLoop))
          else Some s
      | Panic q => Some (set_pc s t (Panicked q))
      | Spin => None
      end
  | DeqLoadHead c =>
      match nth_error (c_heads s) c with
      | Some h => Some (set_pc s t (DeqLoadTail c h))
      | None => None
      end
  | DeqLoadTail c h =>
      if h >? published_tail r then Some (set_pc s t (DeqLoadHead c))
      else if h =? published_tail r then Some (log (set_pc s t Idle) (EvNothing c))
      else Some (set_pc s t (DeqCas c h))
  | DeqCas c h =>
      match nth_error (c_heads s) c with
      | None => None
      | Some cur =>
          match u32_add bld h 1 with
          | Val nxt =>
              if negb spurious && (cur =? h) then Some (set_pc (claim s c h nxt) t (DeqCheck c h))
              else Some (set_pc s t (DeqLoadTail c cur))       (* 135: head = reloaded_head *)
          | Panic q => Some (set_pc s t (Panicked q))
          | Spin => None
          end
      end
  | DeqCheck c h =>
      match u32_sub bld (reserved_tail r) h with
      | Val d =>
          if d >? wrap32 (size r) then Some (log (set_pc s t Idle) (EvOverflow c h))
          else match nth_error (slots r) (slot_index r h) with
               | Some o => Some (log (set_pc s t Idle) (EvElement c h o))
               | None => Some (set_pc s t (Panicked PIndex))
               end
      | Panic q => Some (set_pc s t (Panicked q))
      | Spin => None
      end
  | PeekLoadHead c =>
      match nth_error (c_heads s) c with
      | Some h => Some (set_pc s t (PeekLoadTail c h))
      | None => None
      end
  | PeekLoadTail c h =>
      match peek_event r c h with
      | Val e => Some (log (set_pc s t Idle) e)
      | Panic q => Some (set_pc s t (Panicked q))
      | Spin => None
      end
  | ConsLoad => Some (set_pc (add_consumer s) t Idle)
  end.

(** ring_buffer.rs:104: a consumer has to exist to be used *)
Definition cop_ok (s : cstate) (op : cop) : bool :=
  match op with
  | CDequeue c | CPeekAll c => (c <? length (c_heads s))%nat
  | _ => true
  end.

(** scheduler (no code of /repo): a call, or one access. [None]: the action is not possible in this state *)
Definition cstep (s : cstate) (a : action) : option cstate :=
  match a with
  | Start t op =>
      match nth_error (c_threads s) t with
      | Some Idle => if cop_ok s op then Some (set_pc s t (first_pc op)) else None
      | _ => None
      end
  | Step t spurious =>
      match nth_error (c_threads s) t with
      | Some p => thread_step s t p spurious
      | None => None
      end
  end.

(** scheduler (no code of /repo): a whole schedule *)
Fixpoint crun (s : cstate) (sched : list action) : option cstate :=
  match sched with
  | [] => Some s
  | a :: rest => match cstep s a with Some s' => crun s' rest | None => None end
  end.
End Ring.
Arguments ring A : clear implicits.
Arguments rop A : clear implicits.
Arguments rout A : clear implicits.
Arguments rstate A : clear implicits.
Arguments pc A : clear implicits.
Arguments event A : clear implicits.
Arguments cstate A : clear implicits.
Arguments cop A : clear implicits.
Arguments action A : clear implicits.
Arguments deq_result A : clear implicits.
