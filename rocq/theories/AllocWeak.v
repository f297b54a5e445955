(** * The metrics allocator under the memory orderings it asks for.
    Models /repo/src/metrics_allocator/metrics_allocator.rs:142-264 (every access Relaxed),
    on top of the ring buffer of RingWeak.v (ring_buffer.rs:48-185, with its own orderings).

    Memory model: the one of RingWeak.v.  Every field has the list of the values written to
    it, in modification order, and a thread knows a prefix of it:
    - a load returns any message not older than the newest one known;
    - a read-modify-write reads such a message too and puts its own right after it, which is
      possible unless another read-modify-write is already there (atomicity);
    - a plain store puts its message right after any message not older than the newest known
      one, unless a read-modify-write is there: a store may come late in time and early in
      modification order.
    Relaxed accesses hand no knowledge from one thread to another; only [KSend] / [KRecv] do
    (spawning or joining a thread, a lock, a channel).  The ring's own accesses transfer
    nothing either (its loads are relaxed): not modelling what they might transfer to the
    fields only allows more executions.
    The twelve fields, the program counters and the additions of each call are those of
    AllocConc.v; the numbers in [SLoadCur1] ... [SSnap] are consumer numbers here. *)
From Coq Require Import List ZArith Lia Bool Arith.
From Verif Require Import Machine Ring Alloc AllocSpec AllocConc RingWeak.
Import ListNotations.
Open Scope Z_scope.

(** memory model (no code of /repo). A message: its value, whether a read-modify-write wrote it, and (ghost) which action did *)
Record fmsg := FMsg { f_val : Z; f_rmw : bool; f_by : option nat }.
(** What a thread knows: per field the position of the newest message it knows, and the save
    points it has a reference to. *)
(** memory model (no code of /repo) *)
Record kview := KView { kv : field -> nat; refs : list nat }.
(** memory model (no code of /repo) *)
Definition kv_join (v w : kview) : kview := KView (fun f => Nat.max (kv v f) (kv w f)) (refs v ++ refs w).
(** memory model (no code of /repo) *)
Definition kv_set (v : kview) (f : field) (k : nat) : kview :=
  KView (fun g => if field_eq_dec g f then k else kv v g) (refs v).
(** memory model (no code of /repo); a message is inserted at position [p] of [f] *)
Definition bump (f : field) (p : nat) (v : kview) : kview :=
  KView (fun g => if field_eq_dec g f then (if (p <=? kv v f)%nat then S (kv v f) else kv v f) else kv v g) (refs v).
(** memory model (no code of /repo) *)
Definition insert (p : nat) (m : fmsg) (ms : list fmsg) : list fmsg := firstn p ms ++ m :: skipn p ms.

(** metrics_allocator.rs:104-108: the history of each atomic, the ring buffer, the threads and their views, and ghosts *)
Record kst := KSt {
  k_msgs : field -> list fmsg;
  k_ring : wstate (Z * Z);
  k_threads : list apc;
  k_views : list kview;
  k_sent : list kview;
  k_sps : list (Z * list Z);               (* save points returned: consumer number, snapshot *)
  (* ghosts *)
  k_deltas : list (nat * option (list Z)); (* answers of delta_statistics *)
  k_started : list aop;                    (* calls begun *)
  k_clock : nat                            (* actions done *)
}.

Definition no_view : kview := KView (fun _ => 0%nat) [].
(** metrics_allocator.rs:121-139 [new] *)
Definition kinit (sz n : nat) : kst :=
  KSt (fun _ => [FMsg 0 false None]) (winit sz n) (repeat AIdle n) (repeat no_view n) [] [] [] [] 0.

(** scheduler (no code of /repo) *)
Inductive kaction :=
| KStart (t : nat) (op : aop)
| KStep (t : nat) (fails : bool) (picks : list nat)
| KSend (t : nat)
| KRecv (t : nat) (k : nat).

(** bookkeeping (no code of /repo) *)
Definition kview_of (s : kst) (t : nat) : kview := nth t (k_views s) no_view.
(** bookkeeping (no code of /repo): thread [t] is now at [p] *)
Definition kput (s : kst) (t : nat) (p : apc) : kst :=
  KSt (k_msgs s) (k_ring s) (upd t p (k_threads s)) (k_views s) (k_sent s) (k_sps s) (k_deltas s) (k_started s) (k_clock s).
(** bookkeeping (no code of /repo) *)
Definition kput_view (s : kst) (t : nat) (v : kview) : kst :=
  KSt (k_msgs s) (k_ring s) (k_threads s) (upd t v (k_views s)) (k_sent s) (k_sps s) (k_deltas s) (k_started s) (k_clock s).
(** bookkeeping (no code of /repo) *)
Definition kput_ring (s : kst) (r : wstate (Z * Z)) : kst :=
  KSt (k_msgs s) r (k_threads s) (k_views s) (k_sent s) (k_sps s) (k_deltas s) (k_started s) (k_clock s).
(** metrics_allocator.rs:152-168: save_point returns to thread [t], which now has a reference to it *)
Definition kput_sp (s : kst) (t : nat) (sp : Z * list Z) : kst :=
  let v := kview_of s t in
  KSt (k_msgs s) (k_ring s) (k_threads s) (upd t (KView (kv v) (length (k_sps s) :: refs v)) (k_views s)) (k_sent s)
      (k_sps s ++ [sp]) (k_deltas s) (k_started s) (k_clock s).
(** ghost (no code of /repo): delta_statistics returned *)
Definition kput_delta (s : kst) (d : nat * option (list Z)) : kst :=
  KSt (k_msgs s) (k_ring s) (k_threads s) (k_views s) (k_sent s) (k_sps s) (k_deltas s ++ [d]) (k_started s) (k_clock s).
(** ghost (no code of /repo) *)
Definition kput_started (s : kst) (op : aop) : kst :=
  KSt (k_msgs s) (k_ring s) (k_threads s) (k_views s) (k_sent s) (k_sps s) (k_deltas s) (k_started s ++ [op]) (k_clock s).
(** ghost (no code of /repo): the number of actions so far *)
Definition ktick (s : kst) : kst :=
  KSt (k_msgs s) (k_ring s) (k_threads s) (k_views s) (k_sent s) (k_sps s) (k_deltas s) (k_started s) (S (k_clock s)).

(** [load(Relaxed)], memory model (no code of /repo); thread [t] loads message [k] of [f] *)
Definition kload (s : kst) (t : nat) (f : field) (k : nat) : option (Z * kst) :=
  match nth_error (k_msgs s f) k with
  | Some m => if (kv (kview_of s t) f <=? k)%nat
              then Some (f_val m, kput_view s t (kv_set (kview_of s t) f k)) else None
  | None => None
  end.
(** [store(.., Relaxed)] and the write of a read-modify-write, memory model (no code of /repo); thread [t] writes [v] to [f], right after message [k] *)
Definition kwrite (s : kst) (t : nat) (f : field) (k : nat) (v : Z) (rmw : bool) : option kst :=
  let ms := k_msgs s f in
  let free := match nth_error ms (S k) with Some m => negb (f_rmw m) | None => true end in
  if (kv (kview_of s t) f <=? k)%nat && (k <? length ms)%nat && free then
    let p := S k in
    Some (KSt (fun g => if field_eq_dec g f then insert p (FMsg v rmw (Some (k_clock s))) ms else k_msgs s g)
              (k_ring s) (k_threads s)
              (upd t (kv_set (kview_of s t) f p) (map (bump f p) (k_views s))) (map (bump f p) (k_sent s))
              (k_sps s) (k_deltas s) (k_started s) (k_clock s))
  else None.
(** [fetch_add(.., Relaxed)], memory model (no code of /repo); fetch_add: reads message [k] *)
Definition kadd (s : kst) (t : nat) (f : field) (n : Z) (k : nat) : option kst :=
  match nth_error (k_msgs s f) k with
  | Some m => kwrite s t f k (wrap64 (f_val m + n)) true
  | None => None
  end.
(** [compare_exchange_weak(.., Relaxed, Relaxed)], memory model (no code of /repo); compare_exchange_weak([expected], [v]) reading message [k]: [inl] done, [inr] the value read instead *)
Definition kcas (s : kst) (t : nat) (f : field) (expected v : Z) (fails : bool) (k : nat) : option (kst + Z * kst) :=
  match nth_error (k_msgs s f) k with
  | Some m =>
      if negb fails && (f_val m =? expected)
      then option_map inl (kwrite s t f k v true)
      else option_map inr (kload s t f k)
  | None => None
  end.

(** Thread [t], at [p], is inside the ring's method [op]: one step of it; when it returns,
    [ret] says how the caller goes on. *)
(** metrics_allocator.rs:145, 149, 177 *)
Definition ring_call (b : build) (s : kst) (t : nat) (op : cop (Z * Z)) (fails : bool) (picks : list nat)
           (ret : event (Z * Z) -> kst -> option kst) : option kst :=
  match nth_error (w_threads (k_ring s)) t with
  | None => None
  | Some Idle => option_map (kput_ring s) (wstep b (k_ring s) (WStart t op))
  | Some _ =>
      match wstep b (k_ring s) (WStep t fails picks) with
      | None => None
      | Some r =>
          match nth_error (w_threads r) t with
          | Some Idle => match nth_error (w_events r) (length (w_events r) - 1) with
                         | Some e => ret e (kput_ring s r)
                         | None => None
                         end
          | Some (Panicked q) => Some (kput (kput_ring s r) t (APanicked q))
          | _ => Some (kput_ring s r)
          end
      end
  end.

(** bookkeeping (no code of /repo); a load of [f] by a thread that then goes on at [next v] *)
Definition load_then (s : kst) (t : nat) (f : field) (picks : list nat) (next : Z -> apc) : option kst :=
  match picks with
  | [k] => match kload s t f k with Some (v, s') => Some (kput s' t (next v)) | None => None end
  | _ => None
  end.
(** bookkeeping (no code of /repo) *)
Definition store_then (s : kst) (t : nat) (f : field) (v : Z) (picks : list nat) (next : apc) : option kst :=
  match picks with
  | [k] => option_map (fun s' => kput s' t next) (kwrite s t f k v false)
  | _ => None
  end.

(** metrics_allocator.rs:142-264, by line as said inside *)
Definition kthread_step (b : build) (s : kst) (t : nat) (p : apc) (fails : bool) (picks : list nat) : option kst :=
  match p with
  | AIdle | APanicked _ => None
  (* 203-237 *)
  | AAdds [] => Some (kput s t ALoadCur)
  | AAdds ((f, n) :: l) =>
      match picks with
      | [k] => option_map (fun s' => kput s' t (after_adds l)) (kadd s t f n k)
      | _ => None
      end
  (* 240-263 *)
  | ALoadCur => load_then s t FCur picks ALoadMin
  | ALoadMin cur => load_then s t FMin picks (AMin cur)
  | AMin cur mn =>
      if cur <? mn then
        match picks with
        | [k] => match kcas s t FMin mn cur fails k with
                 | Some (inl s') => Some (kput s' t (ALoadMax cur))
                 | Some (inr (v, s')) => Some (kput s' t (AMin cur v))
                 | None => None
                 end
        | _ => None
        end
      else Some (kput s t (ALoadMax cur))
  | ALoadMax cur => load_then s t FMax picks (AMax cur)
  | AMax cur mx =>
      if cur >? mx then
        match picks with
        | [k] => match kcas s t FMax mx cur fails k with
                 | Some (inl s') => Some (kput s' t AIdle)
                 | Some (inr (v, s')) => Some (kput s' t (AMax cur v))
                 | None => None
                 end
        | _ => None
        end
      else Some (kput s t AIdle)
  (* 143-168 *)
  | SLoadMin => load_then s t FMin picks SLoadMax
  | SLoadMax mn => load_then s t FMax picks (SEnq mn)
  | SEnq mn mx => ring_call b s t (CEnqueue (mn, mx)) fails picks (fun _ s' => Some (kput s' t SConsumer))
  | SConsumer => ring_call b s t CConsumer fails picks
      (fun e s' => match e with EvConsumer c _ => Some (kput s' t (SLoadCur1 (Z.of_nat c))) | _ => None end)
  | SLoadCur1 c => load_then s t FCur picks (SStoreMin c)
  | SStoreMin c v => store_then s t FMin v picks (SLoadCur2 c)
  | SLoadCur2 c => load_then s t FCur picks (SStoreMax c)
  | SStoreMax c v => store_then s t FMax v picks (SSnap c snapshot_fields [])
  | SSnap c [] acc => Some (kput (kput_sp s t (c, acc)) t AIdle)
  | SSnap c (f :: todo) acc => load_then s t f picks (fun v => SSnap c todo (acc ++ [v]))
  (* 173-200 *)
  | DPeek k =>
      match nth_error (k_sps s) k with
      | None => None
      | Some sp => ring_call b s t (CPeekAll (Z.to_nat (fst sp))) fails picks
          (fun e s' => match e with
                       | EvPeeked _ _ _ _ contents =>
                           match fold_minmax contents (two64 - 1) 0 with
                           | Val (mn, mx) => Some (kput s' t (DMin k mn mx))
                           | Panic q => Some (kput s' t (APanicked q))
                           | Spin => None
                           end
                       | EvPeekOverflow _ _ _ => Some (kput (kput_delta s' (k, None)) t AIdle)
                       | _ => None
                       end)
      end
  | DMin k mn mx => load_then s t FMin picks (fun v => DMax k (Z.min mn v) mx)
  | DMax k mn mx => load_then s t FMax picks (fun v => DLoads k mn (Z.max mx v) counter_fields [])
  | DLoads k mn mx [] acc =>
      match picks with
      | [i] => match kload s t FCur i with
               | Some (v, s') => Some (kput (kput_delta s' (k, Some (acc ++ [v; mn; mx]))) t AIdle)
               | None => None
               end
      | _ => None
      end
  | DLoads k mn mx (f :: todo) acc =>
      match nth_error (k_sps s) k, picks with
      | Some sp, [i] =>
          match kload s t f i with
          | Some (v, s') =>
              match usize_sub b v (snap_at sp (length acc)) with
              | Val d => Some (kput s' t (DLoads k mn mx todo (acc ++ [d])))
              | Panic q => Some (kput s' t (APanicked q))
              | Spin => None
              end
          | None => None
          end
      | _, _ => None
      end
  end.

(** metrics_allocator.rs:173: delta_statistics takes a reference to a save point the thread has got hold of *)
Definition kcan_start (s : kst) (t : nat) (op : aop) : bool :=
  match op with ODelta k => if in_dec Nat.eq_dec k (refs (kview_of s t)) then true else false | _ => true end.

(** scheduler (no code of /repo); [None]: the action is not possible in this state *)
Definition kact (b : build) (s : kst) (a : kaction) : option kst :=
  match a with
  | KStart t op =>
      match nth_error (k_threads s) t with
      | Some AIdle => if kcan_start s t op then Some (kput (kput_started s op) t (first_apc op)) else None
      | _ => None
      end
  | KStep t fails picks =>
      match nth_error (k_threads s) t with
      | Some p => kthread_step b s t p fails picks
      | None => None
      end
  | KSend t =>
      match nth_error (k_threads s) t, wstep b (k_ring s) (Send t) with
      | Some AIdle, Some r =>
          Some (KSt (k_msgs s) r (k_threads s) (k_views s) (k_sent s ++ [kview_of s t]) (k_sps s) (k_deltas s)
                    (k_started s) (k_clock s))
      | _, _ => None
      end
  | KRecv t k =>
      match nth_error (k_threads s) t, nth_error (k_sent s) k, wstep b (k_ring s) (Recv t k) with
      | Some AIdle, Some v, Some r => Some (kput_view (kput_ring s r) t (kv_join v (kview_of s t)))
      | _, _, _ => None
      end
  end.
(** scheduler (no code of /repo) *)
Definition kstep (b : build) (s : kst) (a : kaction) : option kst := option_map ktick (kact b s a).

(** scheduler (no code of /repo): a whole schedule *)
Fixpoint krun (b : build) (s : kst) (sched : list kaction) : option kst :=
  match sched with
  | [] => Some s
  | a :: rest => match kstep b s a with Some s' => krun b s' rest | None => None end
  end.
