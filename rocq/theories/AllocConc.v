(** * The allocator's counters under concurrency.

    /repo/src/metrics_allocator/metrics_allocator.rs:142-264, any number of
    threads, one atomic access per step (sequentially consistent interleaving:
    the Relaxed orderings are not modelled, see DESIGN.md).  Simplification: a
    call of the ring buffer's [enqueue], [consumer] or [peek_all] is a single
    step of this model (their own interleavings are the subject of Ring.v). *)
From Coq Require Import List ZArith Lia Bool Arith.
From Verif Require Import Machine Ring Alloc AllocSpec.
Import ListNotations.
Open Scope Z_scope.

(** metrics_allocator.rs:10-23: the twelve atomics *)
Inductive field := FAllocs | FDeallocs | FZeroed | FReallocs | FAllocB | FDeallocB | FZeroB | FOldB | FNewB
                 | FCur | FMin | FMax.
(** bookkeeping (no code of /repo) *)
Definition field_eq_dec (f g : field) : {f = g} + {f <> g}.
Proof. decide equality. Defined.
(** metrics_allocator.rs:10-23: the values of the twelve atomics *)
Definition mem := field -> Z.
(** an atomic write (no code of /repo) *)
Definition set (m : mem) (f : field) (v : Z) : mem := fun g => if field_eq_dec g f then v else m g.

(** metrics_allocator.rs:203-237, the fetch_add and fetch_sub, in program order ([fetch_sub n] is adding [- n]) *)
Definition adds_of (op : aop) : list (field * Z) :=
  match op with
  | OAlloc n _ => [(FAllocs, 1); (FAllocB, n); (FCur, n)]                         (* 203-208 *)
  | ODealloc n => [(FDeallocs, 1); (FDeallocB, n); (FCur, - n)]                   (* 211-216 *)
  | OZeroed n _ => [(FZeroed, 1); (FZeroB, n); (FCur, n)]                         (* 219-224 *)
  | ORealloc o n _ => [(FReallocs, 1); (FOldB, o); (FNewB, n)] ++                 (* 227-237 *)
      (if n >? o then [(FCur, n - o)] else if n <? o then [(FCur, - (o - n))] else [])
  | OSave | ODelta _ => []
  end.

(** the nine counters, in the order of metrics_allocator.rs:154-162 and 187-195 *)
Definition counter_fields : list field :=
  [FAllocs; FDeallocs; FZeroed; FReallocs; FAllocB; FDeallocB; FZeroB; FOldB; FNewB].
(** metrics_allocator.rs:153-166: the fields of a save point, in order *)
Definition snapshot_fields : list field := counter_fields ++ [FCur; FMin; FMax].

(** metrics_allocator.rs:142-264: where a thread is *)
Inductive apc :=
| AIdle
| AAdds (l : list (field * Z))                      (* before the fetch_adds of [l] *)
| ALoadCur                                          (* before line 241 *)
| ALoadMin (cur : Z)                                (* before line 242 *)
| AMin (cur mn : Z)                                 (* loop, lines 243-251 *)
| ALoadMax (cur : Z)                                (* before line 253 *)
| AMax (cur mx : Z)                                 (* loop, lines 254-262 *)
| SLoadMin | SLoadMax (mn : Z) | SEnq (mn mx : Z)   (* lines 145-148 *)
| SConsumer                                         (* line 149 *)
| SLoadCur1 (head : Z) | SStoreMin (head v : Z)     (* line 150 *)
| SLoadCur2 (head : Z) | SStoreMax (head v : Z)     (* line 151 *)
| SSnap (head : Z) (todo : list field) (acc : list Z)   (* lines 152-168 *)
| DPeek (k : nat)                                   (* lines 177-182 *)
| DMin (k : nat) (mn mx : Z) | DMax (k : nat) (mn mx : Z)  (* lines 184-185 *)
| DLoads (k : nat) (mn mx : Z) (todo : list field) (acc : list Z)  (* lines 186-199 *)
| APanicked (p : panic).

(** metrics_allocator.rs:104-108: the shared memory, the threads, and ghosts *)
Record acst := ACst {
  a_mem : mem;
  a_ring : ring (Z * Z);
  a_threads : list apc;
  a_sps : list (Z * list Z);              (* save points returned: consumer head, snapshot *)
  a_deltas : list (nat * option (list Z)); (* ghost: answers of delta_statistics *)
  a_started : list aop;                   (* ghost: calls begun *)
  a_past : list Z                         (* ghost: every value current_used_memory has had *)
}.

(** metrics_allocator.rs:120-139: a new allocator, and threads outside its methods *)
Definition acinit (sz n : nat) : acst :=
  ACst (fun _ => 0) (ring_new sz) (repeat AIdle n) [] [] [] [0].

(** scheduler (no code of /repo) *)
Inductive aaction := AStart (t : nat) (op : aop) | AStep (t : nat) (spurious : bool).

(** metrics_allocator.rs:207, 215, 223, 236: then the minimum and maximum are updated *)
Definition after_adds (l : list (field * Z)) : apc := match l with [] => ALoadCur | _ => AAdds l end.
(** metrics_allocator.rs:146, 177, 204, 212, 220, 228: the first shared access of each method *)
Definition first_apc (op : aop) : apc :=
  match op with
  | OSave => SLoadMin
  | ODelta k => DPeek k
  | _ => after_adds (adds_of op)
  end.

(** bookkeeping (no code of /repo): thread [t] is now at [p] *)
Definition put (s : acst) (t : nat) (p : apc) : acst :=
  ACst (a_mem s) (a_ring s) (upd t p (a_threads s)) (a_sps s) (a_deltas s) (a_started s) (a_past s).
(** bookkeeping (no code of /repo) *)
Definition put_mem (s : acst) (m : mem) : acst :=
  ACst m (a_ring s) (a_threads s) (a_sps s) (a_deltas s) (a_started s) (a_past s ++ [m FCur]).
(** bookkeeping (no code of /repo) *)
Definition put_ring (s : acst) (r : ring (Z * Z)) : acst :=
  ACst (a_mem s) r (a_threads s) (a_sps s) (a_deltas s) (a_started s) (a_past s).
(** metrics_allocator.rs:152-168: the save point is returned *)
Definition put_sp (s : acst) (sp : Z * list Z) : acst :=
  ACst (a_mem s) (a_ring s) (a_threads s) (a_sps s ++ [sp]) (a_deltas s) (a_started s) (a_past s).
(** ghost (no code of /repo): delta_statistics returned *)
Definition put_delta (s : acst) (d : nat * option (list Z)) : acst :=
  ACst (a_mem s) (a_ring s) (a_threads s) (a_sps s) (a_deltas s ++ [d]) (a_started s) (a_past s).
(** ghost (no code of /repo) *)
Definition put_started (s : acst) (op : aop) : acst :=
  ACst (a_mem s) (a_ring s) (a_threads s) (a_sps s) (a_deltas s) (a_started s ++ [op]) (a_past s).

(** metrics_allocator.rs:70, 187-195; value of field number [i] in a snapshot *)
Definition snap_at (sp : Z * list Z) (i : nat) : Z := nth i (snd sp) 0.

(** metrics_allocator.rs:142-264, by line as said at [apc] *)
Definition athread_step (b : build) (s : acst) (t : nat) (p : apc) (spurious : bool) : option acst :=
  let m := a_mem s in
  match p with
  | AIdle | APanicked _ => None
  | AAdds [] => Some (put s t ALoadCur)
  | AAdds ((f, n) :: l) => Some (put (put_mem s (set m f (wrap64 (m f + n)))) t (after_adds l))
  | ALoadCur => Some (put s t (ALoadMin (m FCur)))
  | ALoadMin cur => Some (put s t (AMin cur (m FMin)))
  | AMin cur mn =>
      if cur <? mn then
        if spurious || negb (m FMin =? mn) then Some (put s t (AMin cur (m FMin)))
        else Some (put (put_mem s (set m FMin cur)) t (ALoadMax cur))
      else Some (put s t (ALoadMax cur))
  | ALoadMax cur => Some (put s t (AMax cur (m FMax)))
  | AMax cur mx =>
      if cur >? mx then
        if spurious || negb (m FMax =? mx) then Some (put s t (AMax cur (m FMax)))
        else Some (put (put_mem s (set m FMax cur)) t AIdle)
      else Some (put s t AIdle)
  | SLoadMin => Some (put s t (SLoadMax (m FMin)))
  | SLoadMax mn => Some (put s t (SEnq mn (m FMax)))
  | SEnq mn mx =>
      match enqueue b (a_ring s) (mn, mx) with
      | Val r => Some (put (put_ring s r) t SConsumer)
      | Panic q => Some (put s t (APanicked q))
      | Spin => None
      end
  | SConsumer => Some (put s t (SLoadCur1 (consumer (a_ring s))))
  | SLoadCur1 h => Some (put s t (SStoreMin h (m FCur)))
  | SStoreMin h v => Some (put (put_mem s (set m FMin v)) t (SLoadCur2 h))
  | SLoadCur2 h => Some (put s t (SStoreMax h (m FCur)))
  | SStoreMax h v => Some (put (put_mem s (set m FMax v)) t (SSnap h snapshot_fields []))
  | SSnap h [] acc => Some (put (put_sp s (h, acc)) t AIdle)
  | SSnap h (f :: todo) acc => Some (put s t (SSnap h todo (acc ++ [m f])))
  | DPeek k =>
      match nth_error (a_sps s) k with
      | None => None
      | Some sp =>
          match peek_all b (a_ring s) (fst sp) with
          | Val None => Some (put (put_delta s (k, None)) t AIdle)
          | Val (Some (s1, s2)) =>
              match fold_minmax (s1 ++ s2) (two64 - 1) 0 with
              | Val (mn, mx) => Some (put s t (DMin k mn mx))
              | Panic q => Some (put s t (APanicked q))
              | Spin => None
              end
          | Panic q => Some (put s t (APanicked q))
          | Spin => None
          end
      end
  | DMin k mn mx => Some (put s t (DMax k (Z.min mn (m FMin)) mx))
  | DMax k mn mx => Some (put s t (DLoads k mn (Z.max mx (m FMax)) counter_fields []))
  | DLoads k mn mx [] acc => Some (put (put_delta s (k, Some (acc ++ [m FCur; mn; mx]))) t AIdle)
  | DLoads k mn mx (f :: todo) acc =>
      match nth_error (a_sps s) k with
      | None => None
      | Some sp =>
          match usize_sub b (m f) (snap_at sp (length acc)) with
          | Val d => Some (put s t (DLoads k mn mx todo (acc ++ [d])))
          | Panic q => Some (put s t (APanicked q))
          | Spin => None
          end
      end
  end.

(** metrics_allocator.rs:173: delta_statistics takes a save point some save_point has returned *)
Definition can_start (s : acst) (op : aop) : bool :=
  match op with ODelta k => (k <? length (a_sps s))%nat | _ => true end.

(** scheduler (no code of /repo): a call, or one access *)
Definition acstep (b : build) (s : acst) (a : aaction) : option acst :=
  match a with
  | AStart t op =>
      match nth_error (a_threads s) t with
      | Some AIdle => if can_start s op then Some (put (put_started s op) t (first_apc op)) else None
      | _ => None
      end
  | AStep t sp =>
      match nth_error (a_threads s) t with
      | Some p => athread_step b s t p sp
      | None => None
      end
  end.

(** scheduler (no code of /repo): a whole schedule *)
Fixpoint acrun (b : build) (s : acst) (sched : list aaction) : option acst :=
  match sched with
  | [] => Some s
  | a :: rest => match acstep b s a with Some s1 => acrun b s1 rest | None => None end
  end.
