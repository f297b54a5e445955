(** * C108: the ring buffer under concurrency, as a linearizable object. *)
From Coq Require Import List ZArith Arith Lia Bool.
From Verif Require Import Machine Ring RingSpec RingConc3 RingLinSpec RingLin.
Import ListNotations.
Open Scope nat_scope.

(** Every history, whatever the schedule, is explained by calls that each take
    place at one instant -- except that a dequeue may report an overflow that
    calls of enqueue still under way are about to cause. *)
Theorem C108_linearizable_but_for_early_overflows :
  forall (A : Type) (b : build) (sz n : nat) (sched : list (action A)) (s : cstate A),
  1 <= sz -> (Z.of_nat sz < two32)%Z -> n <= sz ->
  crun b (cinit sz n) sched = Some s -> (Z.of_nat (length (started sched)) < two32)%Z ->
  peeks_undisturbed (history b (cinit sz n) sched) ->
  linearizable_but_for_early_overflows sz n (history b (cinit sz n) sched).
Proof.
  intros A b sz n sched s HS HSB Hn E HB HU.
  destruct (sim_run b sz n sched HS HSB Hn s E HB HU) as (ab & sts & HE & _). exists ab, sts. exact HE.
Qed.

(** As long as nobody is told of an overflow the ring buffer is linearizable. *)
Theorem C108_linearizable :
  forall (A : Type) (b : build) (sz n : nat) (sched : list (action A)) (s : cstate A),
  1 <= sz -> (Z.of_nat sz < two32)%Z -> n <= sz ->
  crun b (cinit sz n) sched = Some s -> (Z.of_nat (length (started sched)) < two32)%Z ->
  peeks_undisturbed (history b (cinit sz n) sched) ->
  (forall t, ~ In (HRet t ROverflow) (history b (cinit sz n) sched)) ->
  linearizable sz n (history b (cinit sz n) sched).
Proof.
  intros A b sz n sched s HS HSB Hn E HB HU HN.
  destruct (sim_run b sz n sched HS HSB Hn s E HB HU) as (ab & sts & HE & _). exists ab, sts.
  apply explained_strict; assumption.
Qed.

(** *** Refutations *)
Fixpoint contents_eqb (l l' : list (option nat)) : bool :=
  match l, l' with
  | [], [] => true
  | Some x :: l, Some y :: l' => Nat.eqb x y && contents_eqb l l'
  | None :: l, None :: l' => contents_eqb l l'
  | _, _ => false
  end.
Definition out_eqb (o o' : rout nat) : bool :=
  match o, o' with
  | REnqueued, REnqueued | RNothing, RNothing | ROverflow, ROverflow | RNoSuchConsumer, RNoSuchConsumer => true
  | RConsumer c, RConsumer c' => Nat.eqb c c'
  | RElement x, RElement y => contents_eqb [x] [y]
  | RElements l, RElements l' => contents_eqb l l'
  | _, _ => false
  end.
Lemma contents_eqb_refl l : contents_eqb l l = true.
Proof. induction l as [|[x|] l IH]; cbn [contents_eqb]; auto. rewrite Nat.eqb_refl. exact IH. Qed.
Lemma out_eqb_refl o : out_eqb o o = true.
Proof. destruct o; try reflexivity; cbn [out_eqb]; try apply Nat.eqb_refl; apply contents_eqb_refl. Qed.

Definition call (t : nat) (op : cop nat) (k : nat) : list (action nat) := Start t op :: solo t k.

(** two threads, two slots: thread 0 is stalled inside the enqueue of 12, and
    thread 1 is told of an overflow, then gets 11, then that nothing is left *)
Definition early_sched : list (action nat) :=
  call 0 CConsumer 1 ++ call 0 (CEnqueue 10) 3 ++ call 0 (CEnqueue 11) 3 ++ call 0 (CEnqueue 12) 1 ++
  call 1 (CDequeue 0) 4 ++ call 1 (CDequeue 0) 4 ++ call 1 (CDequeue 0) 2.

Theorem C108_early_overflows_are_not_linearizable :
  exists s, crun Debug (cinit 2 2) early_sched = Some s /\
  history Debug (cinit 2 2) early_sched =
    [HCall 0 NewConsumer; HRet 0 (RConsumer 0); HCall 0 (Enqueue 10); HRet 0 REnqueued;
     HCall 0 (Enqueue 11); HRet 0 REnqueued; HCall 0 (Enqueue 12);
     HCall 1 (Dequeue 0); HRet 1 ROverflow;
     HCall 1 (Dequeue 0); HRet 1 (RElement (Some 11));
     HCall 1 (Dequeue 0); HRet 1 RNothing] /\
  ~ linearizable 2 2 (history Debug (cinit 2 2) early_sched).
Proof.
  eexists. split; [vm_compute; reflexivity|]. split; [vm_compute; reflexivity|].
  apply (not_linearizable out_eqb out_eqb_refl). vm_compute. reflexivity.
Qed.

(** a peek_all that overlaps a dequeue on its consumer shows 10 and 20 together,
    although 10 was gone before 20 came *)
Definition peek_sched : list (action nat) :=
  call 0 CConsumer 1 ++ call 0 (CEnqueue 10) 3 ++ call 1 (CPeekAll 0) 1 ++
  call 0 (CDequeue 0) 4 ++ call 0 (CEnqueue 20) 3 ++ solo 1 1.

Theorem C108_peeks_over_dequeues_are_not_linearizable :
  exists s, crun Debug (cinit 4 2) peek_sched = Some s /\
  history Debug (cinit 4 2) peek_sched =
    [HCall 0 NewConsumer; HRet 0 (RConsumer 0); HCall 0 (Enqueue 10); HRet 0 REnqueued;
     HCall 1 (PeekAll 0);
     HCall 0 (Dequeue 0); HRet 0 (RElement (Some 10)); HCall 0 (Enqueue 20); HRet 0 REnqueued;
     HRet 1 (RElements [Some 10; Some 20])] /\
  ~ linearizable 4 2 (history Debug (cinit 4 2) peek_sched).
Proof.
  eexists. split; [vm_compute; reflexivity|]. split; [vm_compute; reflexivity|].
  apply (not_linearizable out_eqb out_eqb_refl). vm_compute. reflexivity.
Qed.

(** a peek_all made while an enqueue is under way shows 30 before 20 *)
Definition peek_enqueue_sched : list (action nat) :=
  call 0 CConsumer 1 ++ call 0 (CEnqueue 10) 3 ++ call 0 (CEnqueue 20) 3 ++ call 0 (CEnqueue 30) 2 ++
  call 1 (CPeekAll 0) 2.

Theorem C108_peeks_over_enqueues_are_not_linearizable :
  exists s, crun Debug (cinit 2 2) peek_enqueue_sched = Some s /\
  history Debug (cinit 2 2) peek_enqueue_sched =
    [HCall 0 NewConsumer; HRet 0 (RConsumer 0); HCall 0 (Enqueue 10); HRet 0 REnqueued;
     HCall 0 (Enqueue 20); HRet 0 REnqueued; HCall 0 (Enqueue 30);
     HCall 1 (PeekAll 0); HRet 1 (RElements [Some 30; Some 20])] /\
  ~ linearizable 2 2 (history Debug (cinit 2 2) peek_enqueue_sched).
Proof.
  eexists. split; [vm_compute; reflexivity|]. split; [vm_compute; reflexivity|].
  apply (not_linearizable out_eqb out_eqb_refl). vm_compute. reflexivity.
Qed.

(** *** The hypotheses are met: three threads, calls that really overlap, and a peek_all *)
Definition busy_sched : list (action nat) :=
  call 0 CConsumer 1 ++
  [Start 0 (CEnqueue 10); Start 1 (CEnqueue 11); Start 2 (CDequeue 0);
   Step 1 false; Step 0 false; Step 0 false; Step 2 false; Step 0 false; Step 1 false;
   Step 1 false; Step 2 false; Step 0 false; Start 1 (CEnqueue 12); Step 2 true; Step 1 false; Step 2 false;
   Step 2 false; Step 1 false; Step 2 false; Step 1 false] ++
  call 2 (CPeekAll 0) 2.

Example C108_example :
  exists s, crun Debug (cinit 3 3) busy_sched = Some s /\
  history Debug (cinit 3 3) busy_sched =
    [HCall 0 NewConsumer; HRet 0 (RConsumer 0);
     HCall 0 (Enqueue 10); HCall 1 (Enqueue 11); HCall 2 (Dequeue 0);
     HRet 1 REnqueued; HRet 0 REnqueued; HCall 1 (Enqueue 12);
     HRet 2 (RElement (Some 11)); HRet 1 REnqueued;
     HCall 2 (PeekAll 0); HRet 2 (RElements [Some 10; Some 12])] /\
  peeks_undisturbed (history Debug (cinit 3 3) busy_sched) /\
  (forall t, ~ In (HRet t ROverflow) (history Debug (cinit 3 3) busy_sched)) /\
  linearizable 3 3 (history Debug (cinit 3 3) busy_sched).
Proof.
  assert (U : peeks_undisturbed (history Debug (cinit 3 3) busy_sched)) by (apply calm_undisturbed; vm_compute; reflexivity).
  assert (N : forall t, ~ In (HRet t ROverflow) (history Debug (cinit 3 3) busy_sched)).
  { intros t H. vm_compute in H. repeat destruct H as [H|H]; discriminate || contradiction. }
  eexists. split; [vm_compute; reflexivity|]. split; [vm_compute; reflexivity|]. split; [exact U|]. split; [exact N|].
  eapply C108_linearizable; [| | |vm_compute; reflexivity| |exact U|exact N]; try lia; reflexivity.
Qed.

(** ... and the history of the early overflow is explained with the exception *)
Example C108_example_early :
  peeks_undisturbed (history Debug (cinit 2 2) early_sched) /\
  linearizable_but_for_early_overflows 2 2 (history Debug (cinit 2 2) early_sched).
Proof.
  assert (U : peeks_undisturbed (history Debug (cinit 2 2) early_sched)) by (apply calm_undisturbed; vm_compute; reflexivity).
  split; [exact U|].
  eapply C108_linearizable_but_for_early_overflows; [| | |vm_compute; reflexivity| |exact U]; try lia; reflexivity.
Qed.
Print Assumptions C108_linearizable_but_for_early_overflows.
Print Assumptions C108_linearizable.
Print Assumptions C108_early_overflows_are_not_linearizable.
Print Assumptions C108_peeks_over_dequeues_are_not_linearizable.
Print Assumptions C108_peeks_over_enqueues_are_not_linearizable.
