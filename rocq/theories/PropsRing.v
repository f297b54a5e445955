(** * Property theorems C12-C20: the ring buffer.
    Vocabulary: RingSpec.v (specification), Ring.v (model). *)
From Coq Require Import List ZArith Lia Bool Arith Permutation.
From Verif Require Import Machine Ring RingSpec RingSeq RingConc RingConc2 RingConc3 RingInit RingWrap.
Import ListNotations.
Open Scope nat_scope.

(** ** C12 *)
Theorem C12_fifo_refinement : forall (A : Type) (b : build) (sz : nat) (ops : list (rop A)),
  1 <= sz -> (Z.of_nat sz < two32)%Z -> (Z.of_nat (length (enqueued ops)) < two32)%Z ->
  exists s', rrun b (rinit sz) ops = Val (s', snd (srun sz sinit ops)).
Proof. exact @fifo_refinement. Qed.
Print Assumptions C12_fifo_refinement.

Example C12_example :
  let ops := [NewConsumer; Enqueue 10; Enqueue 20; NewConsumer; Dequeue 0; Enqueue 30; Enqueue 40; PeekAll 0; PeekAll 1;
              Dequeue 0; Dequeue 0; Dequeue 1; Dequeue 1; Dequeue 1] in
  match rrun Debug (rinit 2) ops with
  | Val (_, outs) => outs = snd (srun 2 sinit ops) /\ outs =
    [RConsumer 0; REnqueued; REnqueued; RConsumer 1; RElement (Some 10); REnqueued; REnqueued; ROverflow;
     RElements [Some 30; Some 40]; ROverflow; RElement (Some 30); RElement (Some 30); RElement (Some 40); RNothing]
  | _ => False
  end.
Proof. vm_compute. split; reflexivity. Qed.

(** ** C13 *)
(** After any history [pre], a new consumer that then misses [k] more elements
    than the ring holds gets [k] errors and then an element again. *)
Theorem C13_overflowed_consumer_recovers :
  forall (A : Type) (b : build) (sz : nat) (pre : list (rop A)) (xs : list A) (k : nat) (x : A),
  1 <= sz -> (Z.of_nat sz < two32)%Z ->
  (Z.of_nat (length (enqueued pre) + length xs) < two32)%Z ->
  length xs = k + sz -> nth_error xs k = Some x ->
  exists s outs, length outs = length pre /\
    rrun b (rinit sz) (pre ++ NewConsumer :: map Enqueue xs ++ repeat (Dequeue (consumers pre)) (S k)) =
    Val (s, outs ++ RConsumer (consumers pre) :: repeat REnqueued (length xs) ++ repeat ROverflow k ++ [RElement (Some x)]).
Proof. exact @overflow_recovers_api. Qed.
Print Assumptions C13_overflowed_consumer_recovers.

Example C13_example : length [1; 2; 3; 4; 5] = 3 + 2 /\ nth_error [1; 2; 3; 4; 5] 3 = Some 4.
Proof. split; reflexivity. Qed.

(** ** C14 *)
Theorem C14_enqueues_exactly_once :
  forall (A : Type) (b : build) (sz n : nat) (sched : list (action A)) (s : cstate A),
  1 <= sz -> (Z.of_nat sz < two32)%Z ->
  crun b (cinit sz n) sched = Some s -> (Z.of_nat (length (started sched)) < two32)%Z ->
  no_panic s /\
  (exists k, flat_map enq1 (c_events s) = combine (zseq 0 k) (firstn k (c_hist s)) /\ k <= length (c_hist s)) /\
  (all_idle s -> flat_map enq1 (c_events s) = combine (zseq 0 (length (c_hist s))) (c_hist s) /\
                 Permutation (c_hist s) (started sched)).
Proof. exact @enqueues_exact. Qed.
Print Assumptions C14_enqueues_exactly_once.

Theorem C14_real_time_order :
  forall (A : Type) (b : build) (sz n : nat) (sched1 sched2 : list (action A)) (s1 s2 : cstate A) p x q y,
  1 <= sz -> (Z.of_nat sz < two32)%Z ->
  crun b (cinit sz n) sched1 = Some s1 -> crun b s1 sched2 = Some s2 ->
  (Z.of_nat (length (started (sched1 ++ sched2))) < two32)%Z ->
  In (EvEnqueued p x) (c_events s1) ->
  In (EvEnqueued q y) (c_events s2) -> ~ In (EvEnqueued q y) (c_events s1) ->
  (p < q)%Z.
Proof. exact @enqueue_real_time. Qed.
Print Assumptions C14_real_time_order.

(** two producers whose writes and publications interleave *)
Definition sched_two : list (action nat) :=
  [Start 0 (CEnqueue 10); Start 1 (CEnqueue 20); Step 1 false; Step 0 false; Step 0 false; Step 0 false;
   Step 1 false; Step 1 true; Step 1 false; Step 0 false].
Example C14_example : exists s, crun Debug (cinit 4 2) sched_two = Some s /\ all_idle s /\
  flat_map enq1 (c_events s) = [(0%Z, 20); (1%Z, 10)].
Proof. reached. vm_compute. split; [repeat constructor|reflexivity]. Qed.

(** ** C15 *)
Theorem C15_positions_claimed_once :
  forall (A : Type) (b : build) (sz n : nat) (sched : list (action A)) (s : cstate A) (c : nat) (st : Z),
  1 <= sz -> (Z.of_nat sz < two32)%Z ->
  crun b (cinit sz n) sched = Some s -> (Z.of_nat (length (started sched)) < two32)%Z ->
  In (EvConsumer c st) (c_events s) ->
  NoDup (returned c s) /\
  (forall p, In p (returned c s) -> (st <= p)%Z /\ exists x, In (EvEnqueued p x) (c_events s)) /\
  (all_idle s -> Permutation (returned c s) (zseq st (length (returned c s)))).
Proof. exact @claims_exact. Qed.
Print Assumptions C15_positions_claimed_once.

Theorem C15_nothing_means_caught_up :
  forall (A : Type) (b : build) (sz n : nat) (sched : list (action A)) (s : cstate A) t sp s' c,
  1 <= sz -> (Z.of_nat sz < two32)%Z ->
  crun b (cinit sz n) sched = Some s -> (Z.of_nat (length (started sched)) < two32)%Z ->
  cstep b s (Step t sp) = Some s' -> c_events s' = c_events s ++ [EvNothing c] ->
  nth_error (c_heads s) c = Some (published_tail (c_ring s)).
Proof. exact @nothing_exact. Qed.
Print Assumptions C15_nothing_means_caught_up.

(** two threads dequeue from the same consumer, with a failed compare-exchange *)
Definition sched_deq : list (action nat) :=
  [Start 0 CConsumer; Step 0 false] ++
  Start 0 (CEnqueue 10) :: solo 0 3 ++ Start 0 (CEnqueue 20) :: solo 0 3 ++
  [Start 0 (CDequeue 0); Start 1 (CDequeue 0); Step 0 false; Step 1 false; Step 0 false; Step 1 false;
   Step 1 false; Step 0 false; Step 0 false; Step 0 false; Step 0 false; Step 1 false].
Example C15_example : exists s, crun Debug (cinit 4 2) sched_deq = Some s /\ all_idle s /\
  In (EvConsumer 0 0%Z) (c_events s) /\ returned 0 s = [1%Z; 0%Z] /\
  exists s', crun Debug s (Start 0 (CDequeue 0) :: solo 0 2) = Some s' /\ c_events s' = c_events s ++ [EvNothing 0].
Proof.
  reached. split; [repeat constructor|]. split; [left; reflexivity|]. split; [vm_compute; reflexivity|].
  reached. vm_compute. reflexivity.
Qed.

(** ** C16 *)
Theorem C16_dequeued_element_is_right :
  forall (A : Type) (b : build) (sz n : nat) (sched : list (action A)) (s : cstate A) c pos content,
  1 <= sz -> (Z.of_nat sz < two32)%Z -> n <= sz ->
  crun b (cinit sz n) sched = Some s -> (Z.of_nat (length (started sched)) < two32)%Z ->
  In (EvElement c pos content) (c_events s) ->
  exists x, content = Some x /\ In (EvEnqueued pos x) (c_events s) /\
    ((reserved_tail (c_ring s) <= pos + Z.of_nat sz)%Z ->
     nth_error (slots (c_ring s)) (Z.to_nat (pos mod Z.of_nat sz)) = Some (Some x)).
Proof. exact @element_exact. Qed.
Print Assumptions C16_dequeued_element_is_right.

Theorem C16_overflow_is_genuine :
  forall (A : Type) (b : build) (sz n : nat) (sched : list (action A)) (s : cstate A) c pos,
  1 <= sz -> (Z.of_nat sz < two32)%Z -> n <= sz ->
  crun b (cinit sz n) sched = Some s -> (Z.of_nat (length (started sched)) < two32)%Z ->
  In (EvOverflow c pos) (c_events s) -> (pos + Z.of_nat sz < reserved_tail (c_ring s))%Z.
Proof. exact @overflow_exact. Qed.
Print Assumptions C16_overflow_is_genuine.

(** more producers than slots: the consumer gets position 0's element for position 1 *)
Definition sched_bad_deq : list (action nat) :=
  [Start 2 CConsumer; Step 2 false;
   Start 0 (CEnqueue 10); Start 1 (CEnqueue 20); Step 0 false; Step 1 false;  (* reserve 0, reserve 1 *)
   Step 1 false; Step 0 false;                                                (* write 20, then 10, in the same slot *)
   Step 0 false; Step 1 false] ++                                             (* publish 0, publish 1 *)
  Start 2 (CDequeue 0) :: solo 2 4 ++ Start 2 (CDequeue 0) :: solo 2 4.
Theorem C16_refuted_with_more_threads_than_slots : exists (sched : list (action nat)) s,
  crun Debug (cinit 1 3) sched = Some s /\
  In (EvElement 0 1%Z (Some 10)) (c_events s) /\ In (EvEnqueued 1%Z 20) (c_events s).
Proof. exists sched_bad_deq. reached. cbn. tauto. Qed.
Print Assumptions C16_refuted_with_more_threads_than_slots.

Example C16_example : exists s, crun Debug (cinit 2 2)
    ([Start 0 CConsumer; Step 0 false] ++ Start 0 (CEnqueue 10) :: solo 0 3 ++ Start 0 (CEnqueue 20) :: solo 0 3 ++
     [Start 1 (CEnqueue 30); Step 1 false] ++ Start 0 (CDequeue 0) :: solo 0 4 ++ Start 0 (CDequeue 0) :: solo 0 4) = Some s /\
  In (EvOverflow 0 0%Z) (c_events s) /\ In (EvElement 0 1%Z (Some 20)) (c_events s).
Proof. reached. cbn. tauto. Qed.

(** ** C17 *)
Theorem C17_peek_is_exact_when_not_overrun :
  forall (A : Type) (b : build) (sz n : nat) (sched : list (action A)) (s : cstate A) c head tail rsv contents,
  1 <= sz -> (Z.of_nat sz < two32)%Z -> n <= sz ->
  crun b (cinit sz n) sched = Some s -> (Z.of_nat (length (started sched)) < two32)%Z ->
  In (EvPeeked c head tail rsv contents) (c_events s) -> (rsv <= head + Z.of_nat sz)%Z ->
  exists xs, contents = map Some xs /\ Z.of_nat (length xs) = (tail - head)%Z /\
    forall i x, nth_error xs i = Some x -> In (EvEnqueued (head + Z.of_nat i)%Z x) (c_events s).
Proof. exact @peek_exact. Qed.
Print Assumptions C17_peek_is_exact_when_not_overrun.

Theorem C17_peek_overflow_is_genuine :
  forall (A : Type) (b : build) (sz n : nat) (sched : list (action A)) (s : cstate A) c head tail,
  1 <= sz -> (Z.of_nat sz < two32)%Z -> n <= sz ->
  crun b (cinit sz n) sched = Some s -> (Z.of_nat (length (started sched)) < two32)%Z ->
  In (EvPeekOverflow c head tail) (c_events s) ->
  (Z.of_nat sz < tail - head)%Z /\ (tail <= published_tail (c_ring s))%Z.
Proof. exact @peek_overflow_exact. Qed.
Print Assumptions C17_peek_overflow_is_genuine.

(** a third enqueue has written its slot but not published yet *)
Definition sched_overrun : list (action nat) :=
  [Start 0 CConsumer; Step 0 false] ++ Start 0 (CEnqueue 10) :: solo 0 3 ++ Start 0 (CEnqueue 20) :: solo 0 3 ++
  Start 1 (CEnqueue 30) :: solo 1 2.
Theorem C17_refuted_while_an_enqueue_is_in_flight : exists (sched : list (action nat)) s,
  crun Debug (cinit 2 2) sched = Some s /\
  (* peek_all says Ok and shows 30 in the place of 10 *)
  (exists s1, crun Debug s (Start 0 (CPeekAll 0) :: solo 0 2) = Some s1 /\
     c_events s1 = c_events s ++ [EvPeeked 0 0%Z 2%Z 3%Z [Some 30; Some 20]]) /\
  (* dequeue, in the same state, reports the overflow *)
  (exists s2, crun Debug s (Start 0 (CDequeue 0) :: solo 0 4) = Some s2 /\
     c_events s2 = c_events s ++ [EvOverflow 0 0%Z]).
Proof. exists sched_overrun. reached. split; reached; reflexivity. Qed.
Print Assumptions C17_refuted_while_an_enqueue_is_in_flight.

Example C17_example : exists s, crun Release (cinit 2 2)
    ([Start 0 CConsumer; Step 0 false] ++ Start 0 (CEnqueue 10) :: solo 0 3 ++ Start 1 (CEnqueue 20) :: solo 1 2 ++
     Start 0 (CPeekAll 0) :: solo 0 2) = Some s /\
  In (EvPeeked 0 0%Z 1%Z 2%Z [Some 10]) (c_events s) /\ (2 <= 0 + Z.of_nat 2)%Z.
Proof. reached. cbn. split; [tauto|lia]. Qed.

(** ** C18 *)
Theorem C18_some_enqueue_completes :
  forall (A : Type) (b : build) (sz n : nat) (sched : list (action A)) (s : cstate A) t0 p0,
  1 <= sz -> (Z.of_nat sz < two32)%Z ->
  crun b (cinit sz n) sched = Some s -> (Z.of_nat (length (started sched)) < two32)%Z ->
  nth_error (c_threads s) t0 = Some p0 -> enqueuing p0 = true ->
  exists t k s' pos x, 1 <= k <= 3 /\ crun b s (solo t k) = Some s' /\
    c_events s' = c_events s ++ [EvEnqueued pos x].
Proof. exact @enqueue_progress. Qed.
Print Assumptions C18_some_enqueue_completes.

Theorem C18_dequeue_returns_when_alone :
  forall (A : Type) (b : build) (sz n : nat) (sched : list (action A)) (s : cstate A) t p,
  1 <= sz -> (Z.of_nat sz < two32)%Z ->
  crun b (cinit sz n) sched = Some s -> (Z.of_nat (length (started sched)) < two32)%Z ->
  nth_error (c_threads s) t = Some p -> dequeuing p = true ->
  exists k, 1 <= k <= 5 /\ returns_from b s t k.
Proof. exact @dequeue_obstruction_free. Qed.
Print Assumptions C18_dequeue_returns_when_alone.

(** but an enqueue is not lock-free: it spins as long as an earlier one is stalled *)
Theorem C18_enqueue_blocks_behind_a_stalled_one :
  forall (A : Type) (b : build) (x y : A), exists sched (s : cstate A),
  crun b (cinit 4 2) sched = Some s /\ forall k, crun b s (solo 1 k) = Some s /\ c_events s = [].
Proof. exact @enqueue_blocks. Qed.
Print Assumptions C18_enqueue_blocks_behind_a_stalled_one.

Example C18_example : exists s, crun Debug (cinit 4 2)
   [Start 0 (CEnqueue 10); Start 1 (CEnqueue 20); Step 0 false; Step 1 false; Step 1 false] = Some s /\
  nth_error (c_threads s) 1 = Some (EnqPublish 1%Z 20) /\
  exists s', crun Debug s (solo 0 2) = Some s' /\ c_events s' = c_events s ++ [EvEnqueued 0%Z 10].
Proof. reached. split; [reflexivity|]. reached. reflexivity. Qed.

(** ** C19 *)
Theorem C19_debug_panics_at_the_wrap :
  forall (A : Type) (sz : nat) (ops : list (rop A)) (x : A), 1 <= sz -> (Z.of_nat sz < two32)%Z ->
  Z.of_nat (length (enqueued ops)) = (two32 - 1)%Z ->
  rrun Debug (rinit sz) (ops ++ [Enqueue x]) = Panic POverflow.
Proof. exact @wrap_debug_api. Qed.
Print Assumptions C19_debug_panics_at_the_wrap.

Theorem C19_release_consumers_hang_at_the_wrap :
  forall (A : Type) (sz : nat) (ops : list (rop A)) (x : A), 1 <= sz -> (Z.of_nat sz < two32)%Z ->
  Z.of_nat (length (enqueued ops)) = (two32 - 1)%Z ->
  exists s outs, rrun Release (rinit sz) (ops ++ [Enqueue x]) = Val (s, outs ++ [REnqueued]) /\
    outs = snd (srun sz (sinit : sstate A) ops) /\
    forall c h, nth_error (s_heads (fst (srun sz (sinit : sstate A) ops))) c = Some h ->
      (0 < h -> rrun Release (rinit sz) (ops ++ [Enqueue x; Dequeue c]) = Spin) /\
      (h = 0 -> exists s', rrun Release (rinit sz) (ops ++ [Enqueue x; Dequeue c]) =
                Val (s', outs ++ [REnqueued; RNothing])).
Proof. exact @wrap_release_api. Qed.
Print Assumptions C19_release_consumers_hang_at_the_wrap.

Theorem C19_release_concurrent_wrap_panics :
  forall (A : Type) (sz : nat) (x : A) (k : nat), 1 <= sz -> Z.of_nat k = (two32 - 1)%Z ->
  exists sched (s : cstate A), crun Release (cinit sz 2) sched = Some s /\
    started sched = repeat x (k + 2) /\
    nth_error (c_threads s) 1 = Some (Panicked PBugLoop).
Proof. exact @wrap_bug_panic. Qed.
Print Assumptions C19_release_concurrent_wrap_panics.

(** such histories exist: one enqueue, a consumer, and 2^32-2 more enqueues *)
Example C19_example : forall k : nat, Z.of_nat k = (two32 - 2)%Z ->
  let ops := Enqueue 1 :: NewConsumer :: map Enqueue (repeat 7 k) in
  Z.of_nat (length (enqueued ops)) = (two32 - 1)%Z /\
  nth_error (s_heads (fst (srun 4 sinit ops))) 0 = Some 1.
Proof.
  intros k Hk. cbv zeta. cbn [srun sstep s_hist s_heads sinit app]. rewrite srun_enqueues. cbn [fst s_heads nth_error length].
  split; [|reflexivity]. unfold enqueued. cbn [flat_map app length].
  assert (E : forall l : list nat, length (flat_map (fun op => match op with Enqueue x => [x] | _ => [] end) (map Enqueue l)) = length l)
    by (induction l; cbn; auto).
  rewrite E, repeat_length, Nat2Z.inj_succ, Hk. lia.
Qed.

(** ** C20 *)
Theorem C20_no_uninitialised_slot_is_returned :
  forall (A : Type) (b : build) (sz n : nat) (sched : list (action A)) (s : cstate A),
  1 <= sz -> (Z.of_nat sz < two32)%Z ->
  crun b (cinit sz n) sched = Some s -> (Z.of_nat (length (started sched)) < two32)%Z ->
  Forall (fun e => match e with
                   | EvElement _ _ content => content <> None
                   | EvPeeked _ _ _ _ contents => ~ In None contents
                   | _ => True
                   end) (c_events s).
Proof. exact @no_uninit. Qed.
Print Assumptions C20_no_uninitialised_slot_is_returned.

(** the assignments of enqueue drop, in order: [sz] uninitialised slots, then the elements *)
Theorem C20_enqueue_drops_uninitialised_slots :
  forall (A : Type) (b : build) (sz : nat) (ops : list (rop A)), 1 <= sz -> (Z.of_nat sz < two32)%Z ->
  (Z.of_nat (length (enqueued ops)) < two32)%Z ->
  exists s' outs, rrun b (rinit sz) ops = Val (s', outs) /\
    overwritten (rb s') = firstn (length (enqueued ops)) (repeat None sz ++ map Some (enqueued ops)).
Proof. exact @dropped_slots. Qed.
Print Assumptions C20_enqueue_drops_uninitialised_slots.

Example C20_example :
  match rrun Debug (rinit 2) [Enqueue 1; Enqueue 2; Enqueue 3] with
  | Val (s, _) => overwritten (rb s) = [None; None; Some 1]
  | _ => False
  end.
Proof. vm_compute. reflexivity. Qed.
