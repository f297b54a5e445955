(** * C91: what the CRUD runner's threads are measured to use, under the memory orderings of the
    metrics allocator, when every call of the measured region grows (or every one shrinks) the
    memory in use (vocabulary in AllocWeakSpec.v and AllocSpec.v). *)
From Coq Require Import List ZArith Lia Bool Arith.
From Verif Require Import Machine Ring RingSpec RingWeak RingWeakSpec Alloc AllocSpec AllocProofs AllocConc AllocConcSpec AllocWeak AllocWeakSpec
  AllocWeakProofs2 AllocWeakMinMax3 AllocWeakMono AllocWeakDemo Floats Analysis.
Import ListNotations.
Open Scope nat_scope.

(** the calls begun after the [i]-th action and before the [j]-th *)
Definition calls_between (sched : list kaction) (i j : nat) : list aop := kcalls (skipn (S i) (firstn j sched)).
(** common.rs:149-155, 197-204, 249-258: what a runner makes of its save point's record and of the
    answer of delta_statistics; the twelve values are in the order of the record's fields *)
Definition measured (snap ds : list Z) : option space_pass :=
  match nth_error snap 9, nth_error ds 9, nth_error ds 10, nth_error ds 11 with
  | Some before, Some after, Some mn, Some mx =>
      Some {| used_memory_before := before; used_memory_after := after; max_used_memory := mx; min_used_memory := mn |}
  | _, _, _, _ => None
  end.

(** The setting: a save point is taken (actions [si] to [se]) and asked about (actions [di] to
    [de], the answer is [ds]); everything before it was over and known to the thread taking it;
    the calls in between begin after it and are over and known to the thread that asks, but
    overlap each other in any way. *)
Definition measured_region (b : build) (sz n : nat) (sched : list kaction) (si se k di de : nat) (ds : list Z) (s0 s1 : kst) : Prop :=
  1 <= sz /\ (Z.of_nat sz < two32)%Z /\ n <= sz /\ fits (kcalls sched) /\
  save_over b sz n sched si se k /\ delta_over b sz n sched di de k ds /\ khb sched se di /\
  (forall i t op, i < de -> nth_error sched i = Some (KStart t op) -> i = si \/ i = di \/
     exists e, call_over b sz n sched i e /\ (khb sched e si \/ se < i /\ op <> OSave /\ khb sched se i /\ khb sched e di)) /\
  krun b (kinit sz n) (firstn (S se) sched) = Some s0 /\ krun b (kinit sz n) (firstn de sched) = Some s1.

Lemma nth9 {X} (l : list X) x r : skipn 9 l = x :: r -> nth_error l 9 = Some x.
Proof. do 9 (destruct l as [|? l]; [discriminate|]). cbn. intros ->. reflexivity. Qed.

Theorem C91_growing_region :
  forall (b : build) (sz n : nat) (sched : list kaction) (si se k di de : nat) (ds : list Z) (s0 s1 : kst),
  measured_region b sz n sched si se k di de ds s0 s1 ->
  (forall op, In op (calls_between sched se de) -> 0 <= delta op)%Z ->
  (kvalue s0 FCur + total delta (calls_between sched se de) < two64)%Z ->
  exists c snap, nth_error (k_sps s1) k = Some (c, snap) /\
    measured snap ds = Some {| used_memory_before := kvalue s0 FCur;
                               used_memory_after  := kvalue s0 FCur + total delta (calls_between sched se de);
                               max_used_memory    := kvalue s0 FCur + total delta (calls_between sched se de);
                               min_used_memory    := kvalue s0 FCur |}%Z /\
    kvalue s1 FCur = (kvalue s0 FCur + total delta (calls_between sched se de))%Z.
Proof.
  intros b sz n sched si se k di de ds s0 s1 (HS & HSB & HN & HF & SO & DO & SD & CL & H0 & H1) OPS TOT. unfold calls_between in *.
  destruct (save_point_exact b sz n sched HS HSB HN HF si se k di de ds SO DO SD CL s0 s1 H0 H1) as (c & snap & Hc & SK). apply nth9 in SK.
  destruct (region_min_max b sz n sched HS HSB HN HF si se k di de ds SO DO SD CL s0 s1 H0 H1) as (mn & mx & D9 & D10 & D11 & M1 & M2 & I1 & I2).
  assert (V0 : (0 <= kvalue s0 FCur)%Z).
  { pose proof (cur_range_at b sz n sched HS HSB HN HF (S se) s0 H0) as CR. unfold cur_range in CR. rewrite Forall_forall in CR.
    unfold kvalue. destruct (k_msgs s0 FCur) as [|m l] using rev_ind; [cbn; lia|]. rewrite last_last. apply CR. apply in_or_app. right. left. reflexivity. }
  assert (T0 : forall l, (forall op, In op l -> 0 <= delta op)%Z -> (0 <= total delta l)%Z).
  { induction l as [|op l IH]; intros H; [cbn; lia|]. unfold total, sum in *. cbn [map fold_right]. pose proof (H op (or_introl eq_refl)). specialize (IH (fun o I => H o (or_intror I))). lia. }
  specialize (T0 _ OPS).
  destruct (region_mono b sz n sched HS HSB HN HF si se k di de ds SO DO SD CL 1 s0 s1 (or_introl eq_refl) H0 H1) as [KV VS];
    [intros op I; specialize (OPS op I); lia|lia|].
  destruct (VS mn I1) as [A1 A2]. destruct (VS mx I2) as [A3 A4]. exists c, snap. split; [exact Hc|]. split; [|exact KV].
  unfold measured. rewrite SK, D9, D10, D11. rewrite <- KV. f_equal. f_equal; lia.
Qed.
Print Assumptions C91_growing_region.

Theorem C91_shrinking_region :
  forall (b : build) (sz n : nat) (sched : list kaction) (si se k di de : nat) (ds : list Z) (s0 s1 : kst),
  measured_region b sz n sched si se k di de ds s0 s1 ->
  (forall op, In op (calls_between sched se de) -> delta op <= 0)%Z ->
  (0 <= kvalue s0 FCur + total delta (calls_between sched se de))%Z ->
  exists c snap, nth_error (k_sps s1) k = Some (c, snap) /\
    measured snap ds = Some {| used_memory_before := kvalue s0 FCur;
                               used_memory_after  := kvalue s0 FCur + total delta (calls_between sched se de);
                               max_used_memory    := kvalue s0 FCur;
                               min_used_memory    := kvalue s0 FCur + total delta (calls_between sched se de) |}%Z /\
    kvalue s1 FCur = (kvalue s0 FCur + total delta (calls_between sched se de))%Z.
Proof.
  intros b sz n sched si se k di de ds s0 s1 (HS & HSB & HN & HF & SO & DO & SD & CL & H0 & H1) OPS TOT. unfold calls_between in *.
  destruct (save_point_exact b sz n sched HS HSB HN HF si se k di de ds SO DO SD CL s0 s1 H0 H1) as (c & snap & Hc & SK). apply nth9 in SK.
  destruct (region_min_max b sz n sched HS HSB HN HF si se k di de ds SO DO SD CL s0 s1 H0 H1) as (mn & mx & D9 & D10 & D11 & M1 & M2 & I1 & I2).
  assert (V0 : (kvalue s0 FCur < two64)%Z).
  { pose proof (cur_range_at b sz n sched HS HSB HN HF (S se) s0 H0) as CR. unfold cur_range in CR. rewrite Forall_forall in CR.
    unfold kvalue. destruct (k_msgs s0 FCur) as [|m l] using rev_ind; [cbn; unfold two64; lia|]. rewrite last_last. apply CR. apply in_or_app. right. left. reflexivity. }
  assert (T0 : forall l, (forall op, In op l -> delta op <= 0)%Z -> (total delta l <= 0)%Z).
  { induction l as [|op l IH]; intros H; [cbn; lia|]. unfold total, sum in *. cbn [map fold_right]. pose proof (H op (or_introl eq_refl)). specialize (IH (fun o I => H o (or_intror I))). lia. }
  specialize (T0 _ OPS).
  destruct (region_mono b sz n sched HS HSB HN HF si se k di de ds SO DO SD CL (-1) s0 s1 (or_intror eq_refl) H0 H1) as [KV VS];
    [intros op I; specialize (OPS op I); lia|lia|].
  destruct (VS mn I1) as [A1 A2]. destruct (VS mx I2) as [A3 A4]. exists c, snap. split; [exact Hc|]. split; [|exact KV].
  unfold measured. rewrite SK, D9, D10, D11. rewrite <- KV. f_equal. f_equal; lia.
Qed.
Print Assumptions C91_shrinking_region.

(** So the growth the space analysis works with (space_analysis.rs:18,41,68) is the total of the
    calls, whatever the schedule; and none when memory is only given back. *)
Theorem C91_growth_is_what_the_calls_ask :
  forall (b : build) (sz n : nat) (sched : list kaction) (si se k di de : nat) (ds : list Z) (s0 s1 : kst) c snap m,
  measured_region b sz n sched si se k di de ds s0 s1 ->
  nth_error (k_sps s1) k = Some (c, snap) -> measured snap ds = Some m ->
  (0 <= kvalue s0 FCur + total delta (calls_between sched se de) < two64)%Z ->
  ((forall op, In op (calls_between sched se de) -> 0 <= delta op)%Z ->
     max_growth b m = Val (f64_of_int (total delta (calls_between sched se de)))) /\
  ((forall op, In op (calls_between sched se de) -> delta op <= 0)%Z -> max_growth b m = Val (f64_of_int 0)).
Proof.
  intros b sz n sched si se k di de ds s0 s1 c snap m R Hc Hm TOT.
  split; intros OPS; [destruct (C91_growing_region b sz n sched si se k di de ds s0 s1 R OPS ltac:(lia)) as (c' & snap' & Hc' & Hm' & _)
                     |destruct (C91_shrinking_region b sz n sched si se k di de ds s0 s1 R OPS ltac:(lia)) as (c' & snap' & Hc' & Hm' & _)].
  - rewrite Hc in Hc'. injection Hc' as <- <-. rewrite Hm in Hm'. injection Hm' as ->. unfold max_growth. cbn [max_used_memory used_memory_before].
    assert (T0 : forall l, (forall op, In op l -> 0 <= delta op)%Z -> (0 <= total delta l)%Z).
    { induction l as [|op l IH]; intros H; [cbn; lia|]. unfold total, sum in *. cbn [map fold_right]. pose proof (H op (or_introl eq_refl)). specialize (IH (fun o I => H o (or_intror I))). lia. }
    specialize (T0 _ OPS). destruct R as (HS & HSB & HN & HF & _ & _ & _ & _ & H0 & _).
    assert (V0 : (0 <= kvalue s0 FCur)%Z).
    { pose proof (cur_range_at b sz n sched HS HSB HN HF (S se) s0 H0) as CR. unfold cur_range in CR. rewrite Forall_forall in CR.
      unfold kvalue. destruct (k_msgs s0 FCur) as [|m l] using rev_ind; [cbn; lia|]. rewrite last_last. apply CR. apply in_or_app. right. left. reflexivity. }
    unfold usize_sub. rewrite checked_in by lia. cbn [bind]. do 2 f_equal. lia.
  - rewrite Hc in Hc'. injection Hc' as <- <-. rewrite Hm in Hm'. injection Hm' as ->. unfold max_growth. cbn [max_used_memory used_memory_before].
    unfold usize_sub. rewrite checked_in by (unfold two64; lia). cbn [bind]. do 2 f_equal. lia.
Qed.
Print Assumptions C91_growth_is_what_the_calls_ask.

(** *** Example: two threads insert at the same time (allocations and a growing reallocation),
    in the middle of each other's calls. *)
Definition ex_grow := Eval vm_compute in build_sched Debug (kinit 4 3)
  [New 0 (OAlloc 100 true); New 0 OSave; Act (KSend 0); Act (KRecv 1 0); Act (KRecv 2 0);
   New 1 (OAlloc 7 true); Act (KStart 2 (OAlloc 20 true)); NewSteps 2 2; New 1 (ORealloc 7 14 true); NewRest 2; Act (KSend 1); Act (KSend 2);
   Act (KRecv 0 1); Act (KRecv 0 2); New 0 (ODelta 0)].

Definition grow_answer : list Z := [2; 0; 0; 1; 27; 0; 0; 7; 14; 134; 100; 134]%Z.
Ltac checked_fits :=
  split; [vm_compute kcalls; repeat (apply Forall_cons; [cbn; unfold two64; lia|]); apply Forall_nil|
  split; [let f := fresh in let Hf := fresh in intros f Hf; cbn in Hf; repeat (destruct Hf as [<-|Hf]; [vm_compute; reflexivity|]); destruct Hf
         |vm_compute; reflexivity]].
Example C91_example :
  exists s0 s1, measured_region Debug 4 3 ex_grow 9 34 0 70 85 grow_answer s0 s1 /\
    calls_between ex_grow 34 85 = [OAlloc 7 true; OAlloc 20 true; ORealloc 7 14 true; ODelta 0] /\
    map delta (calls_between ex_grow 34 85) = [7; 20; 7; 0]%Z /\
    kvalue s0 FCur = 100%Z /\ map snd (k_sps s1) = [[1; 0; 0; 0; 100; 0; 0; 0; 0; 100; 100; 100]%Z] /\
    measured [1; 0; 0; 0; 100; 0; 0; 0; 0; 100; 100; 100]%Z grow_answer =
      Some {| used_memory_before := 100; used_memory_after := 134; max_used_memory := 134; min_used_memory := 100 |}%Z.
Proof.
  destruct (option_map_some (fun s => kvalue s FCur) (krun Debug (kinit 4 3) (firstn 35 ex_grow)) 100%Z) as (s0 & R0 & E0); [vm_compute; reflexivity|].
  destruct (option_map_some (fun s => map snd (k_sps s)) (krun Debug (kinit 4 3) (firstn 85 ex_grow)) [[1; 0; 0; 0; 100; 0; 0; 0; 0; 100; 100; 100]%Z]) as (s1 & R1 & E1); [vm_compute; reflexivity|].
  exists s0, s1. split.
  { split; [lia|]. split; [reflexivity|]. split; [lia|]. split; [checked_fits|].
    split; [apply save_over_check; vm_compute; reflexivity|]. split; [apply delta_over_check with (l := []); vm_compute; reflexivity|].
    split; [apply khb_b_sound; vm_compute; reflexivity|]. split; [apply region2_b_sound; vm_compute; reflexivity|]. split; [exact R0|exact R1]. }
  split; [vm_compute; reflexivity|]. split; [vm_compute; reflexivity|]. split; [exact E0|]. split; [exact E1|reflexivity].
Qed.

(** *** Growing and shrinking calls together are not determined by the calls: the same two
    threads, each allocating and freeing, measured with their calls in two different orders.
    The maxima are 127 and 120. *)
Definition ex_overlap := Eval vm_compute in build_sched Debug (kinit 4 3)
  [New 0 (OAlloc 100 true); New 0 OSave; Act (KSend 0); Act (KRecv 1 0); Act (KRecv 2 0);
   New 1 (OAlloc 7 true); New 2 (OAlloc 20 true); New 1 (ODealloc 7); New 2 (ODealloc 20); Act (KSend 1); Act (KSend 2);
   Act (KRecv 0 1); Act (KRecv 0 2); New 0 (ODelta 0)].
Definition ex_apart := Eval vm_compute in build_sched Debug (kinit 4 3)
  [New 0 (OAlloc 100 true); New 0 OSave; Act (KSend 0); Act (KRecv 1 0); Act (KRecv 2 0);
   New 1 (OAlloc 7 true); New 1 (ODealloc 7); New 2 (OAlloc 20 true); New 2 (ODealloc 20); Act (KSend 1); Act (KSend 2);
   Act (KRecv 0 1); Act (KRecv 0 2); New 0 (ODelta 0)].
Definition both_answer (mx : Z) : list Z := [2; 2; 0; 0; 27; 27; 0; 0; 0; 100; 100; mx]%Z.
(** the calls of thread [t] *)
Definition calls_of (t : nat) (sched : list kaction) : list aop := kcalls (filter (fun a => kactor a =? t) sched).
Theorem C91_mixed_region_depends_on_the_schedule :
  (exists s0 s1, measured_region Debug 4 3 ex_overlap 9 34 0 78 93 (both_answer 127) s0 s1) /\
  (exists s0 s1, measured_region Debug 4 3 ex_apart 9 34 0 78 93 (both_answer 120) s0 s1) /\
  map (fun t => calls_of t ex_overlap) [0; 1; 2] = map (fun t => calls_of t ex_apart) [0; 1; 2] /\
  calls_of 1 ex_apart = [OAlloc 7 true; ODealloc 7] /\ calls_of 2 ex_apart = [OAlloc 20 true; ODealloc 20].
Proof.
  split; [|split; [|split; [vm_compute; reflexivity|split; vm_compute; reflexivity]]].
  - destruct (option_map_some (fun _ => tt) (krun Debug (kinit 4 3) (firstn 35 ex_overlap)) tt) as (s0 & R0 & _); [vm_compute; reflexivity|].
    destruct (option_map_some (fun _ => tt) (krun Debug (kinit 4 3) (firstn 93 ex_overlap)) tt) as (s1 & R1 & _); [vm_compute; reflexivity|].
    exists s0, s1. split; [lia|]. split; [reflexivity|]. split; [lia|]. split; [checked_fits|].
    split; [apply save_over_check; vm_compute; reflexivity|]. split; [apply delta_over_check with (l := []); vm_compute; reflexivity|].
    split; [apply khb_b_sound; vm_compute; reflexivity|]. split; [apply region2_b_sound; vm_compute; reflexivity|]. split; [exact R0|exact R1].
  - destruct (option_map_some (fun _ => tt) (krun Debug (kinit 4 3) (firstn 35 ex_apart)) tt) as (s0 & R0 & _); [vm_compute; reflexivity|].
    destruct (option_map_some (fun _ => tt) (krun Debug (kinit 4 3) (firstn 93 ex_apart)) tt) as (s1 & R1 & _); [vm_compute; reflexivity|].
    exists s0, s1. split; [lia|]. split; [reflexivity|]. split; [lia|]. split; [checked_fits|].
    split; [apply save_over_check; vm_compute; reflexivity|]. split; [apply delta_over_check with (l := []); vm_compute; reflexivity|].
    split; [apply khb_b_sound; vm_compute; reflexivity|]. split; [apply region2_b_sound; vm_compute; reflexivity|]. split; [exact R0|exact R1].
Qed.
Print Assumptions C91_mixed_region_depends_on_the_schedule.
