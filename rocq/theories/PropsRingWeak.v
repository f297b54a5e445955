(** * C80-C83: the ring buffer under the memory orderings it asks for
    (ring_buffer.rs:48-185; vocabulary in RingWeakSpec.v). *)
From Coq Require Import List ZArith Lia Bool Arith Permutation.
From Verif Require Import Machine Ring RingSpec RingConc RingWeak RingWeakSpec RingWeakProofs6 RingWeakDrf.
Import ListNotations.
Open Scope nat_scope.

(** Every enqueue of thread [t], with no failing compare-exchange. *)
Definition enq {A} (t : nat) (x : A) : list (waction A) :=
  [WStart t (CEnqueue x); WStep t false []; WStep t false []; WStep t false []].
(** thread [t] dequeues on consumer [c]: which messages of head, published and reserved tail, and which write of the slot, it sees *)
Definition deq {A} (t c kh kp kr ks : nat) : list (waction A) :=
  [WStart t (CDequeue c); WStep t false [kh]; WStep t false [kp]; WStep t false []; WStep t false [kr; ks]].
(** thread 0 creates a consumer and hands its reference to thread 1 *)
Definition shared {A} : list (waction A) := [WStart 0 CConsumer; WStep 0 false [0]; Send 0; Recv 1 0].

(** ** C80: what does not depend on synchronisation *)
Theorem C80_enqueues_exactly_once :
  forall (A : Type) (b : build) (sz n : nat) (sched : list (waction A)) (s : wstate A),
  1 <= sz -> (Z.of_nat sz < two32)%Z ->
  wrun b (winit sz n) sched = Some s -> (Z.of_nat (length (wstarted sched)) < two32)%Z ->
  (exists k, flat_map enq1 (w_events s) = combine (zseq 0 k) (firstn k (w_hist s)) /\ k <= length (w_hist s)) /\
  (w_stopped s -> flat_map enq1 (w_events s) = combine (zseq 0 (length (w_hist s))) (w_hist s) /\
                   Permutation (w_hist s) (wstarted sched)).
Proof. exact @weak_enqueues. Qed.
Print Assumptions C80_enqueues_exactly_once.

Theorem C80_enqueues_do_not_panic :
  forall (A : Type) (b : build) (sz n : nat) (sched : list (waction A)) (s : wstate A) t p fails picks s' q,
  1 <= sz -> (Z.of_nat sz < two32)%Z ->
  wrun b (winit sz n) sched = Some s -> (Z.of_nat (length (wstarted sched)) < two32)%Z ->
  nth_error (w_threads s) t = Some p -> wstep b s (WStep t fails picks) = Some s' ->
  nth_error (w_threads s') t = Some (Panicked q) ->
  b = Debug /\ enqueuing p = false /\ p <> ConsLoad.
Proof. exact @weak_panics. Qed.
Print Assumptions C80_enqueues_do_not_panic.

Theorem C80_positions_claimed_once :
  forall (A : Type) (b : build) (sz n : nat) (sched : list (waction A)) (s : wstate A) (c : nat) (st : Z),
  1 <= sz -> (Z.of_nat sz < two32)%Z ->
  wrun b (winit sz n) sched = Some s -> (Z.of_nat (length (wstarted sched)) < two32)%Z ->
  In (EvConsumer c st) (w_events s) ->
  NoDup (wreturned c s ++ wlost c s) /\
  (forall p, In p (wreturned c s ++ wlost c s) -> (st <= p)%Z /\ exists x, In (EvEnqueued p x) (w_events s)) /\
  (w_stopped s -> Permutation (wreturned c s ++ wlost c s) (zseq st (length (wreturned c s ++ wlost c s)))).
Proof. exact @weak_claims. Qed.
Print Assumptions C80_positions_claimed_once.

(** two producers and a consumer, all reading stale counters, with failing compare-exchanges *)
Definition sched_stale : list (waction nat) := shared ++
  [WStart 0 (CEnqueue 10); WStart 1 (CEnqueue 20); WStep 1 false []; WStep 0 false []; WStep 0 false []; WStep 1 false [];
   WStep 0 false [0]; WStep 1 true [0]; WStep 1 false []; WStep 0 false []] ++
  [WStart 1 (CDequeue 0); WStart 0 (CDequeue 0); WStep 1 false [0]; WStep 0 false [0]; WStep 1 false [1]; WStep 0 false [2];
   WStep 1 false []; WStep 0 false [0]; WStep 0 false [2]; WStep 0 true [1]; WStep 0 false [2]; WStep 0 false []; WStep 1 false [1; 1]; WStep 0 false [2; 1]].
Theorem C80_nothing_means_claimed :
  forall (A : Type) (b : build) (sz n : nat) (sched : list (waction A)) (i j : nat) (p : Z) (x : A) (c : nat) (st : Z) (s : wstate A),
  1 <= sz -> (Z.of_nat sz < two32)%Z -> (Z.of_nat (length (wstarted sched)) < two32)%Z ->
  returns b sz n sched i (EvEnqueued p x) -> hb sched i j -> returns b sz n sched j (EvNothing c) ->
  wrun b (winit sz n) (firstn (S j) sched) = Some s -> In (EvConsumer c st) (w_events s) -> (st <= p)%Z ->
  In p (wreturned c s) \/ In p (wlost c s) \/ exists t, nth_error (w_threads s) t = Some (DeqCheck c p).
Proof. exact @weak_nothing. Qed.
Print Assumptions C80_nothing_means_claimed.

Example C80_example : exists s, wrun Debug (winit 1024 2) sched_stale = Some s /\
  flat_map enq1 (w_events s) = [(0%Z, 20); (1%Z, 10)] /\ wreturned 0 s = [0%Z; 1%Z] /\ w_stopped s /\
  In (EvConsumer 0 0%Z) (w_events s).
Proof.
  reached. repeat split; try (vm_compute; reflexivity); [repeat constructor; left; reflexivity|left; reflexivity].
Qed.

(** ** C81: what goes wrong without synchronisation *)
(** dequeue returns an uninitialised slot: the consumer's accesses never synchronise with the producer's *)
Theorem C81_dequeue_may_return_an_uninitialised_slot : exists (sched : list (waction nat)) s,
  wrun Release (winit 1024 2) sched = Some s /\
  w_events s = [EvConsumer 0 0%Z; EvEnqueued 0%Z 10; EvElement 0 0%Z None] /\ w_races s = [(1, 0)].
Proof. exists (shared ++ enq 0 10 ++ deq 1 0 0 1 1 0). reached. split; reflexivity. Qed.
Print Assumptions C81_dequeue_may_return_an_uninitialised_slot.

(** even when it returns the right element, the read of the slot is a data race *)
Theorem C81_dequeue_races : exists (sched : list (waction nat)) s,
  wrun Release (winit 1024 2) sched = Some s /\
  w_events s = [EvConsumer 0 0%Z; EvEnqueued 0%Z 10; EvElement 0 0%Z (Some 10)] /\ w_races s = [(1, 0)].
Proof. exists (shared ++ enq 0 10 ++ deq 1 0 0 1 1 1). reached. split; reflexivity. Qed.
Print Assumptions C81_dequeue_races.

(** the subtraction of line 130 underflows: a panic in a debug build (the position is lost),
    a spurious overflow error in a release build, although only two elements were ever enqueued *)
Theorem C81_dequeue_may_panic : exists (sched : list (waction nat)) s,
  wrun Debug (winit 1024 2) sched = Some s /\ length (w_hist s) = 2 /\
  nth_error (w_threads s) 1 = Some (Panicked POverflow) /\ wlost 0 s = [1%Z].
Proof. exists (shared ++ enq 0 10 ++ enq 0 20 ++ deq 1 0 0 2 0 1 ++ deq 1 0 1 2 0 1). reached. repeat split. Qed.
Print Assumptions C81_dequeue_may_panic.

Theorem C81_spurious_overflow : exists (sched : list (waction nat)) s,
  wrun Release (winit 1024 2) sched = Some s /\ length (w_hist s) = 2 /\ In (EvOverflow 0 1%Z) (w_events s).
Proof. exists (shared ++ enq 0 10 ++ enq 0 20 ++ deq 1 0 0 2 0 1 ++ deq 1 0 1 2 0 1). reached. cbn. tauto. Qed.
Print Assumptions C81_spurious_overflow.

(** an enqueue has returned, yet dequeue says there is nothing, and a new consumer starts before the element *)
Theorem C81_completed_enqueue_not_seen : exists (sched : list (waction nat)) s,
  wrun Debug (winit 1024 2) sched = Some s /\
  w_events s = [EvConsumer 0 0%Z; EvEnqueued 0%Z 10; EvNothing 0; EvConsumer 1 0%Z].
Proof.
  exists (shared ++ enq 0 10 ++ [WStart 1 (CDequeue 0); WStep 1 false [0]; WStep 1 false [0]] ++ [WStart 1 CConsumer; WStep 1 false [0]]).
  reached. reflexivity.
Qed.
Print Assumptions C81_completed_enqueue_not_seen.

(** peek_all underflows as well: the head it reads is ahead of the published tail it reads *)
Theorem C81_peek_may_panic : exists (sched : list (waction nat)) s,
  wrun Debug (winit 1024 2) sched = Some s /\ nth_error (w_threads s) 1 = Some (Panicked POverflow) /\
  exists s', wrun Release (winit 1024 2) sched = Some s' /\ In (EvPeekOverflow 0 1%Z 0%Z) (w_events s').
Proof.
  exists (shared ++ enq 0 10 ++ deq 0 0 0 1 1 1 ++ [WStart 1 (CPeekAll 0); WStep 1 false [1]; WStep 1 false (0 :: repeat 0 1024)]).
  reached. split; [reflexivity|]. reached. cbn. tauto.
Qed.
Print Assumptions C81_peek_may_panic.


(** peek_all of an element enqueued by another thread is a data race, and may show an uninitialised slot *)
Theorem C81_peek_races : exists (sched : list (waction nat)) s,
  wrun Debug (winit 1024 2) sched = Some s /\
  w_events s = [EvConsumer 0 0%Z; EvEnqueued 0%Z 10; EvPeeked 0 0%Z 1%Z 1%Z [None]] /\ w_races s = [(1, 0)].
Proof.
  exists (shared ++ enq 0 10 ++ [WStart 1 (CPeekAll 0); WStep 1 false [0]; WStep 1 false (1 :: repeat 0 1024)]).
  reached. split; reflexivity.
Qed.
Print Assumptions C81_peek_races.

(** one lap later: dequeue returns the element of the previous lap *)
Definition lap : list (waction nat) := flat_map (enq 0) (seq 0 1024).
Definition sched_lap : list (waction nat) :=
  lap ++ [WStart 0 CConsumer; WStep 0 false [1024]; Send 0; Recv 1 0] ++ enq 0 1024 ++ deq 1 0 0 1025 1025 1.
Theorem C81_element_of_the_previous_lap : exists (sched : list (waction nat)) s,
  wrun Release (winit 1024 2) sched = Some s /\ length (w_hist s) = 1025 /\
  In (EvEnqueued 1024%Z 1024) (w_events s) /\ In (EvElement 0 1024%Z (Some 0)) (w_events s) /\ wreturned 0 s = [1024%Z].
Proof.
  exists sched_lap.
  assert (B : option_map (fun s => (length (w_hist s), skipn 1024 (w_events s), wreturned 0 s)) (wrun Release (winit 1024 2) sched_lap) =
              Some (1025, [EvConsumer 0 1024%Z; EvEnqueued 1024%Z 1024; EvElement 0 1024%Z (Some 0)], [1024%Z]))
    by (vm_compute; reflexivity).
  destruct (wrun Release (winit 1024 2) sched_lap) as [s|]; cbn [option_map] in B; [|discriminate B].
  exists s. split; [reflexivity|].
  assert (IN : forall e, In e (skipn 1024 (w_events s)) -> In e (w_events s)).
  { intros e H. rewrite <- (firstn_skipn 1024 (w_events s)). apply in_or_app. right. exact H. }
  revert B IN. generalize (skipn 1024 (w_events s)). intros ev B IN. injection B as B1 -> B3.
  split; [exact B1|]. split; [apply IN; cbn; tauto|]. split; [apply IN; cbn; tauto|exact B3].
Qed.
Print Assumptions C81_element_of_the_previous_lap.

(** ... and the second producer that gets there writes the slot in a data race with the first *)
Theorem C81_enqueue_races : exists (sched : list (waction nat)) s,
  wrun Release (winit 1024 2) sched = Some s /\ In (EvEnqueued 1024%Z 1024) (w_events s) /\ w_races s = [(1, 0)].
Proof.
  exists (lap ++ enq 1 1024).
  assert (B : option_map (fun s => (skipn 1024 (w_events s), w_races s)) (wrun Release (winit 1024 2) (lap ++ enq 1 1024)) =
              Some ([EvEnqueued 1024%Z 1024], [(1, 0)])) by (vm_compute; reflexivity).
  destruct (wrun Release (winit 1024 2) (lap ++ enq 1 1024)) as [s|]; cbn [option_map] in B; [|discriminate B].
  exists s. split; [reflexivity|].
  assert (IN : forall e, In e (skipn 1024 (w_events s)) -> In e (w_events s)).
  { intros e H. rewrite <- (firstn_skipn 1024 (w_events s)). apply in_or_app. right. exact H. }
  revert B IN. generalize (skipn 1024 (w_events s)). intros ev B IN. injection B as -> B3.
  split; [apply IN; cbn; tauto|exact B3].
Qed.
Print Assumptions C81_enqueue_races.

(** ** C82: a dequeue the enqueue of its element happens before *)
Theorem C82_synchronised_dequeue_is_right :
  forall (A : Type) (b : build) (sz n : nat) (sched : list (waction A)) (i j : nat) (p : Z) (x : A) (c : nat) (o : option A) (r : Z),
  1 <= sz -> (Z.of_nat sz < two32)%Z -> n <= sz -> (Z.of_nat (length (wstarted sched)) < two32)%Z ->
  returns b sz n sched i (EvEnqueued p x) -> hb sched i j -> returns b sz n sched j (EvElement c p o) ->
  reserved_by b sz n sched j = Some r -> (r <= p + Z.of_nat sz)%Z ->
  o = Some x /\ ~ races b sz n sched j.
Proof. exact @sync_dequeue. Qed.
Print Assumptions C82_synchronised_dequeue_is_right.

Theorem C82_synchronised_overflow_is_genuine :
  forall (A : Type) (b : build) (sz n : nat) (sched : list (waction A)) (i j : nat) (p : Z) (x : A) (c : nat) (r : Z),
  1 <= sz -> (Z.of_nat sz < two32)%Z -> n <= sz -> (Z.of_nat (length (wstarted sched)) < two32)%Z ->
  returns b sz n sched i (EvEnqueued p x) -> hb sched i j -> returns b sz n sched j (EvOverflow c p) ->
  reserved_by b sz n sched j = Some r -> (p + Z.of_nat sz < r)%Z.
Proof. exact @sync_overflow. Qed.
Print Assumptions C82_synchronised_overflow_is_genuine.

Theorem C82_synchronised_dequeue_does_not_panic :
  forall (A : Type) (b : build) (sz n : nat) (sched : list (waction A)) (i j : nat) (p : Z) (x : A) (c : nat),
  1 <= sz -> (Z.of_nat sz < two32)%Z -> n <= sz -> (Z.of_nat (length (wstarted sched)) < two32)%Z ->
  returns b sz n sched i (EvEnqueued p x) -> hb sched i j -> ~ loses b sz n sched j c p.
Proof. exact @sync_no_panic. Qed.
Print Assumptions C82_synchronised_dequeue_does_not_panic.

Ltac returned := unfold returns; match goal with |- exists s s', ?c = Some s /\ ?d = Some s' /\ _ =>
    let v := eval vm_compute in c in let w := eval vm_compute in d in
    match v with Some ?s => match w with Some ?s' =>
      exists s, s'; split; [vm_cast_no_check (eq_refl v)|split; [vm_cast_no_check (eq_refl w)|vm_compute; reflexivity]] end end
  end.

(** the consumer gets the element after a Send / Recv from the producer; a second producer is not synchronised *)
Definition sched_sent : list (waction nat) :=
  shared ++ enq 0 10 ++ [Send 0; Recv 1 1] ++ enq 2 30 ++ deq 1 0 0 2 1 1.
Example C82_example :
  returns Release 4 3 sched_sent 7 (EvEnqueued 0%Z 10) /\ hb sched_sent 7 18 /\
  returns Release 4 3 sched_sent 18 (EvElement 0 0%Z (Some 10)) /\ reserved_by Release 4 3 sched_sent 18 = Some 2%Z.
Proof.
  split; [returned|]. split; [|split; [returned|vm_compute; reflexivity]].
  apply hb_trans with 8; [apply (hb_thread _ 7 8 (WStep 0 false []) (Send 0)); [lia|reflexivity..]|].
  apply hb_trans with 9; [apply (hb_sync _ 8 9 0 1); [reflexivity|reflexivity|lia]|].
  apply (hb_thread _ 9 18 (Recv 1 1) (WStep 1 false [1; 1])); [lia|reflexivity..].
Qed.

(** five elements are enqueued before the first is dequeued, from a ring of four: overflow *)
Definition sched_over : list (waction nat) :=
  shared ++ flat_map (enq 0) [10; 20; 30; 40; 50] ++ [Send 0; Recv 1 1] ++ deq 1 0 0 5 5 1.
Example C82_example_overflow :
  returns Debug 4 3 sched_over 7 (EvEnqueued 0%Z 10) /\ hb sched_over 7 30 /\
  returns Debug 4 3 sched_over 30 (EvOverflow 0 0%Z).
Proof.
  split; [returned|]. split; [|returned].
  apply hb_trans with 24; [apply (hb_thread _ 7 24 (WStep 0 false []) (Send 0)); [lia|reflexivity..]|].
  apply hb_trans with 25; [apply (hb_sync _ 24 25 0 1); [reflexivity|reflexivity|lia]|].
  apply (hb_thread _ 25 30 (Recv 1 1) (WStep 1 false [5; 1])); [lia|reflexivity..].
Qed.

(** the same schedule meets the hypotheses of C80_nothing_means_claimed *)
Definition sched_nothing : list (waction nat) :=
  shared ++ enq 0 10 ++ [Send 0; Recv 1 1] ++ deq 1 0 0 1 1 1 ++ [WStart 1 (CDequeue 0); WStep 1 false [1]; WStep 1 false [1]].
Example C80_example_nothing : returns Debug 4 2 sched_nothing 7 (EvEnqueued 0%Z 10) /\ hb sched_nothing 7 17 /\
  returns Debug 4 2 sched_nothing 17 (EvNothing 0) /\
  exists s, wrun Debug (winit 4 2) (firstn 18 sched_nothing) = Some s /\ In (EvConsumer 0 0%Z) (w_events s) /\ In 0%Z (wreturned 0 s).
Proof.
  split; [returned|]. split; [|split; [returned|reached; cbn; tauto]].
  apply hb_trans with 8; [apply (hb_thread _ 7 8 (WStep 0 false []) (Send 0)); [lia|reflexivity..]|].
  apply hb_trans with 9; [apply (hb_sync _ 8 9 0 1); [reflexivity|reflexivity|lia]|].
  apply (hb_thread _ 9 17 (Recv 1 1) (WStep 1 false [1])); [lia|reflexivity..].
Qed.

(** ** C83: synchronised executions behave as interleavings *)
Theorem C83_synchronised_executions_are_interleavings :
  forall (A : Type) (b : build) (sz n : nat) (sched : list (waction A)) (s : wstate A),
  1 <= sz -> synchronised sched -> wrun b (winit sz n) sched = Some s ->
  exists cs, crun b (cinit sz n) (erase sched) = Some cs /\
    c_events cs = w_events s /\ c_threads cs = w_threads s /\ c_hist cs = w_hist s /\ w_races s = [].
Proof. exact @synchronised_is_interleaving. Qed.
Print Assumptions C83_synchronised_executions_are_interleavings.

Theorem C83_a_lock_synchronises :
  forall (A : Type) (sections : list (nat * list (waction A))), Forall section_ok sections -> synchronised (locked 0 sections).
Proof. exact @locked_synchronised. Qed.
Print Assumptions C83_a_lock_synchronises.

(** a producer and a consumer that take the lock around every call *)
Definition sections : list (nat * list (waction nat)) :=
  [(0, [WStart 0 CConsumer; WStep 0 false [0]]); (0, enq 0 10); (1, deq 1 0 0 1 1 1); (0, enq 0 20);
   (1, [WStart 1 (CPeekAll 0); WStep 1 false [1]; WStep 1 false [2; 1; 1; 0; 0]]); (1, deq 1 0 1 2 2 1)].
Example C83_example : Forall section_ok sections /\
  exists s, wrun Debug (winit 4 2) (locked 0 sections) = Some s /\
    w_events s = [EvConsumer 0 0%Z; EvEnqueued 0%Z 10; EvElement 0 0%Z (Some 10); EvEnqueued 1%Z 20;
                  EvPeeked 0 1%Z 2%Z 2%Z [Some 20]; EvElement 0 1%Z (Some 20)].
Proof.
  split.
  - repeat constructor.
  - reached. reflexivity.
Qed.
