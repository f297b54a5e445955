(** * The ring buffer under the memory orderings it asks for.
    Models /repo/src/metrics_allocator/ring_buffer.rs:48-185, like the concurrent part of
    Ring.v, but every load may return any value the orderings in the source allow.

    Memory model: the view-based operational presentation of the C++20 model that Rust
    adopts, for relaxed, acquire and release accesses without fences and without load
    buffering (po u rf acyclic, as in RC11):
    - every location has the list of the messages written to it, in modification order;
    - a view says, per location, how many of these messages a thread knows; a load returns
      any message that is not older than the newest one known;
    - a read-modify-write reads the newest message (its own must follow it immediately) and,
      continuing release sequences, hands on the view of the message it replaces;
    - a release store attaches the writer's view, an acquire load joins it.
    All three kinds of counters are modified by read-modify-writes only, so appending is the
    only way to extend their modification order.
    The slots are not atomic: an access by a thread that does not know all the earlier
    writes is a data race (undefined behaviour); it is recorded in [w_races] and the model
    goes on as hardware would: the reader gets any write not older than it knows, possibly
    uninitialised memory.  Simplification: a write that races with an earlier read only
    (not with a write) is not recorded.
    Threads synchronise outside the ring by [Send] / [Recv]: spawning or joining a thread,
    a lock, a channel, or any other release/acquire pair.  A thread can only call methods of
    a consumer whose creation it knows (it must have got the reference somehow). *)
From Coq Require Import List ZArith Lia Bool Arith.
From Verif Require Import Machine Ring.
Import ListNotations.
Open Scope Z_scope.

(** ring_buffer.rs:22-26, 105 *)
Inductive loc := Res | Pub | Head (c : nat) | Slot (i : nat).
(** bookkeeping (no code of /repo) *)
Definition loc_eqb (l l' : loc) : bool :=
  match l, l' with
  | Res, Res | Pub, Pub => true
  | Head c, Head c' => Nat.eqb c c'
  | Slot i, Slot i' => Nat.eqb i i'
  | _, _ => false
  end.
(** memory model (no code of /repo). A view, as a list of facts "the first [n] messages of [l] are known"; joining is [++] *)
Definition view := list (loc * nat).
(** memory model (no code of /repo) *)
Definition seen (v : view) (l : loc) : nat :=
  fold_right (fun e m => if loc_eqb (fst e) l then Nat.max (snd e) m else m) 0%nat v.
(** memory model (no code of /repo). A message: the value and the view attached to it *)
Record msg := Msg { m_val : Z; m_view : view }.
(** memory model (no code of /repo). The [pick]-th message of [ms], if a thread that knows [k] of them may still read it *)
Definition read_at (ms : list msg) (k pick : nat) : option msg :=
  if (k <=? S pick)%nat then nth_error ms pick else None.
(** memory model (no code of /repo) *)
Definition newest (ms : list msg) : option msg := nth_error ms (length ms - 1).

Section Weak.
Context {A : Type}.
Variable bld : build.

(** ring_buffer.rs:20-27, 104-107: the history of each location, the threads and their views, and ghosts *)
Record wstate := WState {
  w_res : list msg;                (* reserved_tail *)
  w_pub : list msg;                (* published_tail *)
  w_heads : list (list msg);       (* the [head] of each consumer *)
  w_slots : list (list A);         (* the writes to each slot, oldest first *)
  w_threads : list (pc A);
  w_views : list view;             (* one per thread *)
  w_sent : list view;              (* what each [Send] carried *)
  (* ghosts *)
  w_hist : list A;                 (* elements in the order of their reservations *)
  w_lost : list (nat * Z);         (* positions claimed by a dequeue that then panicked *)
  w_races : list (nat * nat);      (* thread, slot *)
  w_events : list (event A)        (* oldest first *)
}.
(** ring_buffer.rs:39-45 *)
Definition winit (sz nthreads : nat) : wstate :=
  WState [Msg 0 []] [Msg 0 []] [] (repeat [] sz) (repeat Idle nthreads) (repeat [] nthreads) [] [] [] [] [].

(** [WStep t fails picks]: thread [t] performs its next shared access; [fails] makes a
    compare_exchange_weak fail; [picks] selects the messages its loads return. *)
(** scheduler (no code of /repo) *)
Inductive waction :=
| WStart (t : nat) (op : cop A)
| WStep (t : nat) (fails : bool) (picks : list nat)
| Send (t : nat)
| Recv (t : nat) (k : nat).

(** bookkeeping (no code of /repo) *)
Definition view_of (s : wstate) (t : nat) : view := nth t (w_views s) [].

(** bookkeeping (no code of /repo); thread [t] moves to [p], with view [v] *)
Definition goto (s : wstate) (t : nat) (p : pc A) (v : view) : wstate :=
  WState (w_res s) (w_pub s) (w_heads s) (w_slots s) (upd t p (w_threads s)) (upd t v (w_views s)) (w_sent s)
         (w_hist s) (w_lost s) (w_races s) (w_events s).
(** ghost (no code of /repo): a method returned *)
Definition wlog (s : wstate) (e : event A) : wstate :=
  WState (w_res s) (w_pub s) (w_heads s) (w_slots s) (w_threads s) (w_views s) (w_sent s)
         (w_hist s) (w_lost s) (w_races s) (w_events s ++ [e]).
(** ghost (no code of /repo): data races *)
Definition race (s : wstate) (t : nat) (is_ : list nat) : wstate :=
  WState (w_res s) (w_pub s) (w_heads s) (w_slots s) (w_threads s) (w_views s) (w_sent s)
         (w_hist s) (w_lost s) (w_races s ++ map (fun i => (t, i)) is_) (w_events s).
(** ghost (no code of /repo) *)
Definition lose (s : wstate) (c : nat) (h : Z) : wstate :=
  WState (w_res s) (w_pub s) (w_heads s) (w_slots s) (w_threads s) (w_views s) (w_sent s)
         (w_hist s) (w_lost s ++ [(c, h)]) (w_races s) (w_events s).

(** ring_buffer.rs:20. RING_BUFFER_SIZE and the slot of a position *)
Definition wsize (s : wstate) : Z := Z.of_nat (length (w_slots s)).
(** ring_buffer.rs:66, 133, 164 *)
Definition slot_of (s : wstate) (pos : Z) : nat := Z.to_nat (pos mod wsize s).
(** memory model (no code of /repo); the slots among [is_] some of whose writes are unknown to [v] *)
Definition unknown (s : wstate) (v : view) (is_ : list nat) : list nat :=
  filter (fun i => (seen v (Slot i) <? length (nth i (w_slots s) []))%nat) is_.

(** What a (non-atomic) read of slot [i] may return: pick 0 is the uninitialised memory,
    pick [S k] the [k]-th write. *)
(** memory model (no code of /repo) *)
Definition read_slot (s : wstate) (v : view) (i pick : nat) : option (option A) :=
  match nth_error (w_slots s) i with
  | None => None
  | Some ws =>
      if (seen v (Slot i) <=? pick)%nat then
        match pick with
        | O => Some None
        | S k => match nth_error ws k with Some x => Some (Some x) | None => None end
        end
      else None
  end.
(** ring_buffer.rs:175, 182; all slots at once *)
Fixpoint read_slots (s : wstate) (v : view) (i : nat) (picks : list nat) : option (list (option A)) :=
  match picks with
  | [] => if (i =? length (w_slots s))%nat then Some [] else None
  | p :: rest =>
      match read_slot s v i p, read_slots s v (S i) rest with
      | Some o, Some l => Some (o :: l)
      | _, _ => None
      end
  end.

(** ring_buffer.rs:48-77, 115-185, by line as said inside *)
Definition wthread_step (s : wstate) (t : nat) (p : pc A) (fails : bool) (picks : list nat) : option wstate :=
  let v := view_of s t in
  match p with
  | Idle | Panicked _ => None
  | EnqReserve x =>                              (* 59: fetch_add, Relaxed *)
      match newest (w_res s) with
      | None => None
      | Some m =>
          let k := S (length (w_res s)) in
          let s' := WState (w_res s ++ [Msg (wrap32 (m_val m + 1)) ((Res, k) :: m_view m)]) (w_pub s) (w_heads s)
                      (w_slots s) (w_threads s) (w_views s) (w_sent s) (w_hist s ++ [x]) (w_lost s) (w_races s) (w_events s) in
          Some (goto s' t (EnqWrite (m_val m) x) ((Res, k) :: v))
      end
  | EnqWrite rt x =>                             (* 66: not atomic *)
      let i := slot_of s rt in
      let ws := nth i (w_slots s) [] in
      let s' := WState (w_res s) (w_pub s) (w_heads s) (upd i (ws ++ [x]) (w_slots s)) (w_threads s) (w_views s) (w_sent s)
                  (w_hist s) (w_lost s) (w_races s) (w_events s) in
      Some (race (goto s' t (EnqPublish rt x) ((Slot i, S (length ws)) :: v)) t (unknown s v [i]))
  | EnqPublish rt x =>                           (* 70: compare_exchange_weak, Release / Relaxed *)
      match u32_add bld rt 1, newest (w_pub s) with
      | Val nxt, Some m =>
          if negb fails && (m_val m =? rt) then
            let k := S (length (w_pub s)) in
            let v' := (Pub, k) :: v in
            let s' := WState (w_res s) (w_pub s ++ [Msg nxt (v' ++ m_view m)]) (w_heads s) (w_slots s) (w_threads s)
                        (w_views s) (w_sent s) (w_hist s) (w_lost s) (w_races s) (w_events s) in
            Some (wlog (goto s' t Idle v') (EvEnqueued rt x))
          else
            match picks with
            | [k] => match read_at (w_pub s) (seen v Pub) k with
                     | Some m' => if m_val m' >? rt then Some (goto s t (Panicked PBugLoop) v)      (* 72-73 *)
                                  else Some (goto s t (EnqPublish rt x) ((Pub, S k) :: v))
                     | None => None
                     end
            | _ => None
            end
      | Panic q, _ => Some (goto s t (Panicked q) v)
      | _, _ => None
      end
  | DeqLoadHead c =>                             (* 116, 120: Relaxed *)
      match nth_error (w_heads s) c, picks with
      | Some hs, [k] => match read_at hs (seen v (Head c)) k with
                        | Some m => Some (goto s t (DeqLoadTail c (m_val m)) ((Head c, S k) :: v))
                        | None => None
                        end
      | _, _ => None
      end
  | DeqLoadTail c h =>                           (* 118: Relaxed *)
      match picks with
      | [k] =>
          match read_at (w_pub s) (seen v Pub) k with
          | Some m =>
              let v' := (Pub, S k) :: v in
              if h >? m_val m then Some (goto s t (DeqLoadHead c) v')
              else if h =? m_val m then Some (wlog (goto s t Idle v') (EvNothing c))
              else Some (goto s t (DeqCas c h) v')
          | None => None
          end
      | _ => None
      end
  | DeqCas c h =>                                (* 126: compare_exchange_weak, Acquire / Relaxed *)
      match nth_error (w_heads s) c with
      | None => None
      | Some hs =>
          match u32_add bld h 1, newest hs with
          | Val nxt, Some m =>
              if negb fails && (m_val m =? h) then
                let k := S (length hs) in
                let s' := WState (w_res s) (w_pub s) (upd c (hs ++ [Msg nxt ((Head c, k) :: m_view m)]) (w_heads s)) (w_slots s)
                            (w_threads s) (w_views s) (w_sent s) (w_hist s) (w_lost s) (w_races s) (w_events s) in
                Some (goto s' t (DeqCheck c h) ((Head c, k) :: m_view m ++ v))
              else
                match picks with
                | [k] => match read_at hs (seen v (Head c)) k with
                         | Some m' => Some (goto s t (DeqLoadTail c (m_val m')) ((Head c, S k) :: v))
                         | None => None
                         end
                | _ => None
                end
          | Panic q, _ => Some (goto s t (Panicked q) v)
          | _, _ => None
          end
      end
  | DeqCheck c h =>                              (* 130: Relaxed; 133: the slot, not atomic *)
      match picks with
      | [k; j] =>
          match read_at (w_res s) (seen v Res) k with
          | Some m =>
              let v' := (Res, S k) :: v in
              match u32_sub bld (m_val m) h with
              | Val d =>
                  if d >? wrap32 (wsize s) then Some (wlog (goto s t Idle v') (EvOverflow c h))
                  else
                    let i := slot_of s h in
                    match read_slot s v i j with
                    | Some o => Some (race (wlog (goto s t Idle v') (EvElement c h o)) t (unknown s v [i]))
                    | None => None
                    end
              | Panic q => Some (lose (goto s t (Panicked q) v') c h)
              | Spin => None
              end
          | None => None
          end
      | _ => None
      end
  | PeekLoadHead c =>                            (* 162: Relaxed *)
      match nth_error (w_heads s) c, picks with
      | Some hs, [k] => match read_at hs (seen v (Head c)) k with
                        | Some m => Some (goto s t (PeekLoadTail c (m_val m)) ((Head c, S k) :: v))
                        | None => None
                        end
      | _, _ => None
      end
  | PeekLoadTail c h =>                          (* 163: Relaxed; 164-184: the slots, not atomic *)
      match picks with
      | k :: js =>
          match read_at (w_pub s) (seen v Pub) k, read_slots s v 0 js, newest (w_res s) with
          | Some m, Some contents, Some r =>
              let v' := (Pub, S k) :: v in
              match peek_event bld (Ring (m_val r) (m_val m) contents []) c h with
              | Val e =>
                  let touched := match e with
                                 | EvPeeked _ _ tl _ _ => map (slot_of s) (zseq h (Z.to_nat (tl - h)))
                                 | _ => []
                                 end in
                  Some (race (wlog (goto s t Idle v') e) t (unknown s v touched))
              | Panic q => Some (goto s t (Panicked q) v')
              | Spin => None
              end
          | _, _, _ => None
          end
      | _ => None
      end
  | ConsLoad =>                                  (* 50: Relaxed *)
      match picks with
      | [k] =>
          match read_at (w_pub s) (seen v Pub) k with
          | Some m =>
              let c := length (w_heads s) in
              let s' := WState (w_res s) (w_pub s) (w_heads s ++ [[Msg (m_val m) []]]) (w_slots s) (w_threads s) (w_views s)
                          (w_sent s) (w_hist s) (w_lost s) (w_races s) (w_events s) in
              Some (wlog (goto s' t Idle ((Head c, 1%nat) :: (Pub, S k) :: v)) (EvConsumer c (m_val m)))
          | None => None
          end
      | _ => None
      end
  end.

(** ring_buffer.rs:104: the thread has got a reference to the consumer *)
Definition wop_ok (s : wstate) (t : nat) (op : cop A) : bool :=
  match op with
  | CDequeue c | CPeekAll c => (1 <=? seen (view_of s t) (Head c))%nat
  | _ => true
  end.

(** scheduler (no code of /repo); [None]: the action is not possible in this state *)
Definition wstep (s : wstate) (a : waction) : option wstate :=
  match a with
  | WStart t op =>
      match nth_error (w_threads s) t with
      | Some Idle => if wop_ok s t op then Some (goto s t (first_pc op) (view_of s t)) else None
      | _ => None
      end
  | WStep t fails picks =>
      match nth_error (w_threads s) t with
      | Some p => wthread_step s t p fails picks
      | None => None
      end
  | Send t =>
      match nth_error (w_threads s) t with
      | Some Idle => Some (WState (w_res s) (w_pub s) (w_heads s) (w_slots s) (w_threads s) (w_views s)
                             (w_sent s ++ [view_of s t]) (w_hist s) (w_lost s) (w_races s) (w_events s))
      | _ => None
      end
  | Recv t k =>
      match nth_error (w_threads s) t, nth_error (w_sent s) k with
      | Some Idle, Some v => Some (goto s t Idle (v ++ view_of s t))
      | _, _ => None
      end
  end.

(** scheduler (no code of /repo): a whole schedule *)
Fixpoint wrun (s : wstate) (sched : list waction) : option wstate :=
  match sched with
  | [] => Some s
  | a :: rest => match wstep s a with Some s' => wrun s' rest | None => None end
  end.
End Weak.
Arguments wstate A : clear implicits.
Arguments waction A : clear implicits.
