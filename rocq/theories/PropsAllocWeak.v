(** * C84-C88: the metrics allocator under the memory orderings it asks for
    (metrics_allocator.rs:142-264, all accesses Relaxed; vocabulary in AllocWeakSpec.v). *)
From Coq Require Import List ZArith Lia Bool Arith.
From Verif Require Import Machine Ring RingSpec RingWeak RingWeakSpec Alloc AllocSpec AllocConc AllocConcSpec AllocWeak AllocWeakSpec
  AllocWeakProofs AllocWeakProofs2 AllocWeakProofs3 AllocWeakProofs5 AllocWeakCalls AllocWeakRegion AllocWeakRaces AllocWeakMinMax3 AllocWeakDemo
  AllocProofs AllocWeakSerial5.
Import ListNotations.
Open Scope nat_scope.

(** ** C84: no update is lost, and the counters only rise *)
Theorem C84_no_update_lost :
  forall (b : build) (sz n : nat) (sched : list kaction) (s : kst) (f : field),
  f <> FMin -> f <> FMax ->
  krun b (kinit sz n) sched = Some s -> k_idle s ->
  kvalue s f = (total (contrib f) (kcalls sched) mod two64)%Z.
Proof. exact kcounters_exact. Qed.
Print Assumptions C84_no_update_lost.

Theorem C84_counters_only_rise :
  forall (b : build) (sz n : nat) (sched : list kaction) (s : kst) (f : field) (i j : nat) (x y : Z),
  1 <= sz -> (Z.of_nat sz < two32)%Z -> n <= sz -> fits (kcalls sched) ->
  krun b (kinit sz n) sched = Some s -> In f counter_fields ->
  i <= j -> nth_error (kvalues s f) i = Some x -> nth_error (kvalues s f) j = Some y -> (0 <= x <= y)%Z.
Proof.
  intros b sz n sched s f i j x y HS HSB HN HF R Hf Lij Hi Hj.
  destruct (KS_reach b sz n sched s HS HSB HN R HF) as ([_ _ _ _ HR] & _).
  unfold kvalues in Hi, Hj. rewrite nth_error_map in Hi, Hj.
  destruct (nth_error (k_msgs s f) i) as [mi|] eqn:Ei; [|discriminate]. destruct (nth_error (k_msgs s f) j) as [mj|] eqn:Ej; [|discriminate].
  injection Hi as <-. injection Hj as <-. exact (HR f Hf i j mi mj Lij Ei Ej).
Qed.
Print Assumptions C84_counters_only_rise.

(** ** C85: no call panics in a program whose ring slots are accessed without a data race *)
Theorem C85_no_panic_without_a_data_race :
  forall (b : build) (sz n : nat) (sched : list kaction) (s : kst) (t : nat) (q : panic),
  1 <= sz -> (Z.of_nat sz < two32)%Z -> n <= sz -> fits (kcalls sched) ->
  krun b (kinit sz n) sched = Some s -> nth_error (k_threads s) t = Some (APanicked q) ->
  w_races (k_ring s) <> [].
Proof.
  intros b sz n sched s t q HS HSB HN HF R. destruct (KS_reach b sz n sched s HS HSB HN R HF) as (_ & _ & _ & KP0). apply KP0.
Qed.
Print Assumptions C85_no_panic_without_a_data_race.

(** *** When different threads order their statistics calls, there is no race: nothing panics. *)
Theorem C85_ordered_statistics_never_panic :
  forall (b : build) (sz n : nat) (sched : list kaction) (s : kst),
  1 <= sz -> (Z.of_nat sz < two32)%Z -> n <= sz -> fits (kcalls sched) -> ordered_statistics b sz n sched ->
  krun b (kinit sz n) sched = Some s ->
  w_races (k_ring s) = [] /\ forall t q, nth_error (k_threads s) t <> Some (APanicked q).
Proof.
  intros b sz n sched s HS HSB HN HF ORD R.
  assert (NR : w_races (k_ring s) = []).
  { apply (no_races b sz n sched HS HN ORD (length sched) s); [lia|]. unfold kat. rewrite firstn_all. exact R. }
  split; [exact NR|]. intros t q Hp. exact (C85_no_panic_without_a_data_race b sz n sched s t q HS HSB HN HF R Hp NR).
Qed.
Print Assumptions C85_ordered_statistics_never_panic.

(** *** When they do not, the ring's slots may race: thread 0 takes a save point, thread 1 takes
    another without any synchronisation, and delta_statistics of thread 0 reads thread 1's slot. *)
Definition ex_race := Eval vm_compute in build_sched Debug (kinit 4 2)
  [New 0 OSave; New 1 OSave; Act (KStart 0 (ODelta 0)); NewSteps 0 2; Act (KStep 0 false [2; 1; 0; 0; 0])].
Theorem C85_unordered_statistics_race :
  exists s, krun Debug (kinit 4 2) ex_race = Some s /\ fits (kcalls ex_race) /\
    kcalls ex_race = [OSave; OSave; ODelta 0] /\
    w_races (k_ring s) <> [] /\ nth_error (k_threads s) 0 = Some (APanicked PIndex) /\
    ~ ordered_statistics Debug 4 2 ex_race.
Proof.
  destruct (option_map_some (fun s => (k_threads s, w_races (k_ring s))) (krun Debug (kinit 4 2) ex_race)
              ([APanicked PIndex; AIdle], [(0, 1)])) as (s & R & E); [vm_compute; reflexivity|].
  injection E as E1 E2. exists s. split; [exact R|].
  assert (HF : fits (kcalls ex_race)).
  { split; [|split].
    - vm_compute kcalls. repeat (apply Forall_cons; [cbn; unfold two64; lia|]). apply Forall_nil.
    - intros f Hf. cbn in Hf. repeat (destruct Hf as [<-|Hf]; [vm_compute; reflexivity|]). destruct Hf.
    - vm_compute. reflexivity. }
  split; [exact HF|]. split; [vm_compute; reflexivity|]. split; [rewrite E2; discriminate|]. split; [rewrite E1; reflexivity|].
  intros ORD. destruct (C85_ordered_statistics_never_panic Debug 4 2 ex_race s) as [NR _]; [lia|reflexivity|lia|exact HF|exact ORD|exact R|].
  rewrite E2 in NR. discriminate.
Qed.
Print Assumptions C85_unordered_statistics_race.

(** ** C86: what delta_statistics counts *)
Theorem C86_delta_counts_calls :
  forall (b : build) (sz n : nat) (sched : list kaction) (s : kst) (si se k di de : nat) (ds : list Z) (x : nat) (f : field) (d : Z),
  1 <= sz -> (Z.of_nat sz < two32)%Z -> n <= sz -> fits (kcalls sched) ->
  krun b (kinit sz n) sched = Some s ->
  save_over b sz n sched si se k -> delta_over b sz n sched di de k ds ->
  nth_error counter_fields x = Some f -> nth_error ds x = Some d ->
  (forall I, NoDup I ->
     (forall i, In i I -> se < i /\ exists e, call_over b sz n sched i e /\ khb sched e di) ->
     (sum (map (contrib_at sched f) I) <= d)%Z) /\
  (forall J, (forall i t op, i < de -> nth_error sched i = Some (KStart t op) ->
                In i J \/ exists e, call_over b sz n sched i e /\ khb sched e si) ->
     (d <= sum (map (contrib_at sched f) J))%Z).
Proof.
  intros b sz n sched s si se k di de ds x f d HS HSB HN HF R SO DO Hx Hd.
  exact (delta_counts b sz n sched HS HSB HN HF si se k di de ds x f d s R SO DO Hx Hd).
Qed.
Print Assumptions C86_delta_counts_calls.

Theorem C86_region_exact :
  forall (b : build) (sz n : nat) (sched : list kaction) (s : kst) (si se k di de : nat) (ds : list Z) (x : nat) (f : field) (d : Z),
  1 <= sz -> (Z.of_nat sz < two32)%Z -> n <= sz -> fits (kcalls sched) ->
  krun b (kinit sz n) sched = Some s ->
  save_over b sz n sched si se k -> delta_over b sz n sched di de k ds ->
  (forall i t op, i < de -> nth_error sched i = Some (KStart t op) -> i = si \/ i = di \/
     exists e, call_over b sz n sched i e /\ (khb sched e si \/ se < i /\ khb sched e di)) ->
  nth_error counter_fields x = Some f -> nth_error ds x = Some d ->
  d = total (contrib f) (kcalls (firstn (di - S se) (skipn (S se) sched))).
Proof.
  intros b sz n sched s si se k di de ds x f d HS HSB HN HF R SO DO CL Hx Hd.
  exact (delta_exact b sz n sched si se k di de ds x f d s HS HSB HN HF R SO DO CL Hx Hd).
Qed.
Print Assumptions C86_region_exact.

(** *** Example: thread 0 takes a save point, spawns threads 1 and 2, joins them and asks for the
    statistics; the calls of 1 and 2 overlap. *)
Definition ex_joined := Eval vm_compute in build_sched Debug (kinit 4 3)
  [New 0 (OAlloc 100 true); New 0 OSave; Act (KSend 0); Act (KRecv 1 0); Act (KRecv 2 0);
   New 1 (OAlloc 7 true); Act (KStart 2 (OAlloc 20 true)); NewSteps 2 2; New 1 (ODealloc 7); NewRest 2; Act (KSend 1); Act (KSend 2);
   Act (KRecv 0 1); Act (KRecv 0 2); New 0 (ODelta 0)].
Lemma fits_joined : fits (kcalls ex_joined).
Proof.
  split; [|split].
  - vm_compute kcalls. repeat (apply Forall_cons; [cbn; unfold two64; lia|]). apply Forall_nil.
  - intros f Hf. cbn in Hf. repeat (destruct Hf as [<-|Hf]; [vm_compute; reflexivity|]). destruct Hf.
  - vm_compute. reflexivity.
Qed.
Definition joined_answer : list Z := [2; 1; 0; 0; 27; 7; 0; 0; 0; 120; 100; 120]%Z.
Lemma joined_save : save_over Debug 4 3 ex_joined 9 34 0.
Proof. apply save_over_check. vm_compute. reflexivity. Qed.
Lemma joined_delta : delta_over Debug 4 3 ex_joined 69 84 0 joined_answer.
Proof. apply delta_over_check with (l := []); vm_compute; reflexivity. Qed.
Example C84_C86_example :
  exists s, krun Debug (kinit 4 3) ex_joined = Some s /\ k_idle s /\
    1 <= 4 /\ (Z.of_nat 4 < two32)%Z /\ 3 <= 4 /\ fits (kcalls ex_joined) /\
    kvalue s FCur = 120%Z /\ kvalues s FAllocs = [0; 1; 2; 3]%Z /\
    save_over Debug 4 3 ex_joined 9 34 0 /\ delta_over Debug 4 3 ex_joined 69 84 0 joined_answer /\
    (forall i t op, i < 84 -> nth_error ex_joined i = Some (KStart t op) -> i = 9 \/ i = 69 \/
       exists e, call_over Debug 4 3 ex_joined i e /\ (khb ex_joined e 9 \/ 34 < i /\ khb ex_joined e 69)) /\
    kcalls (firstn (69 - 35) (skipn 35 ex_joined)) = [OAlloc 7 true; OAlloc 20 true; ODealloc 7].
Proof.
  destruct (option_map_some (fun s => (k_threads s, kvalue s FCur, kvalues s FAllocs)) (krun Debug (kinit 4 3) ex_joined)
              ([AIdle; AIdle; AIdle], 120%Z, [0; 1; 2; 3]%Z)) as (s & R & E); [vm_compute; reflexivity|].
  injection E as E1 E2 E3. exists s. split; [exact R|]. split; [unfold k_idle; rewrite E1; repeat (apply Forall_cons; [reflexivity|]); apply Forall_nil|].
  split; [lia|]. split; [reflexivity|]. split; [lia|]. split; [exact fits_joined|]. split; [exact E2|]. split; [exact E3|].
  split; [exact joined_save|]. split; [exact joined_delta|]. split; [apply region_b_sound; vm_compute; reflexivity|vm_compute; reflexivity].
Qed.

(** *** Thread 1 takes a save point and asks for statistics on thread 0's, which it got with a
    message; meanwhile thread 2 allocates. *)
Definition ex_passed := Eval vm_compute in build_sched Debug (kinit 4 3)
  [Act (KStart 2 (OAlloc 20 true)); NewSteps 2 2; New 0 OSave; Act (KSend 0); NewSteps 2 1; Act (KRecv 1 0); New 1 OSave; Act (KStart 1 (ODelta 0)); NewRest 2; NewRest 1].
Example C85_example :
  exists s, krun Debug (kinit 4 3) ex_passed = Some s /\ ordered_statistics Debug 4 3 ex_passed /\ fits (kcalls ex_passed) /\
    kcalls ex_passed = [OAlloc 20 true; OSave; OSave; ODelta 0] /\ k_idle s /\ length (k_deltas s) = 1.
Proof.
  destruct (option_map_some (fun s => (k_threads s, length (k_deltas s))) (krun Debug (kinit 4 3) ex_passed) ([AIdle; AIdle; AIdle], 1)) as (s & R & E); [vm_compute; reflexivity|].
  injection E as E1 E2. exists s. split; [exact R|]. split; [apply ordered_b_sound; vm_compute; reflexivity|]. split.
  { split; [|split].
    - vm_compute kcalls. repeat (apply Forall_cons; [cbn; unfold two64; lia|]). apply Forall_nil.
    - intros f Hf. cbn in Hf. repeat (destruct Hf as [<-|Hf]; [vm_compute; reflexivity|]). destruct Hf.
    - vm_compute. reflexivity. }
  split; [vm_compute; reflexivity|]. split; [unfold k_idle; rewrite E1; repeat (apply Forall_cons; [reflexivity|]); apply Forall_nil|exact E2].
Qed.

(** *** Thread 2 is not joined: its allocation is over before delta_statistics is called, and is
    not counted.  The answer is within the bounds of [C86_delta_counts_calls]. *)
Definition ex_loose := Eval vm_compute in build_sched Debug (kinit 4 3)
  [New 0 (OAlloc 100 true); New 0 OSave; Act (KSend 0); Act (KRecv 1 0); Act (KRecv 2 0);
   New 1 (OAlloc 7 true); New 2 (OAlloc 20 true); Act (KSend 1);
   Act (KRecv 0 1); Old 0 (ODelta 0)].
Definition loose_answer : list Z := [1; 0; 0; 0; 7; 0; 0; 0; 0; 107; 100; 107]%Z.
Theorem C86_unjoined_call_not_counted :
  exists s, krun Debug (kinit 4 3) ex_loose = Some s /\ k_idle s /\ fits (kcalls ex_loose) /\ w_races (k_ring s) = [] /\
    save_over Debug 4 3 ex_loose 9 34 0 /\
    nth_error ex_loose 47 = Some (KStart 2 (OAlloc 20 true)) /\ call_over Debug 4 3 ex_loose 47 55 /\
    delta_over Debug 4 3 ex_loose 58 73 0 loose_answer /\
    (* the call of thread 1 must be counted; that of thread 2 may be *)
    (34 < 38 /\ exists e, call_over Debug 4 3 ex_loose 38 e /\ khb ex_loose e 58) /\
    (forall i t op, i < 73 -> nth_error ex_loose i = Some (KStart t op) ->
       In i [9; 38; 47; 58] \/ exists e, call_over Debug 4 3 ex_loose i e /\ khb ex_loose e 9) /\
    map (contrib_at ex_loose FAllocB) [38] = [7%Z] /\ map (contrib_at ex_loose FAllocB) [9; 38; 47; 58] = [0; 7; 20; 0]%Z.
Proof.
  destruct (option_map_some (fun s => (k_threads s, w_races (k_ring s))) (krun Debug (kinit 4 3) ex_loose)
              ([AIdle; AIdle; AIdle], [])) as (s & R & E); [vm_compute; reflexivity|].
  injection E as E1 E2. exists s. split; [exact R|]. split; [unfold k_idle; rewrite E1; repeat (apply Forall_cons; [reflexivity|]); apply Forall_nil|].
  split.
  { split; [|split].
    - vm_compute kcalls. repeat (apply Forall_cons; [cbn; unfold two64; lia|]). apply Forall_nil.
    - intros f Hf. cbn in Hf. repeat (destruct Hf as [<-|Hf]; [vm_compute; reflexivity|]). destruct Hf.
    - vm_compute. reflexivity. }
  split; [exact E2|].
  split; [apply save_over_check; vm_compute; reflexivity|].
  split; [reflexivity|]. split; [apply call_over_b_sound; vm_compute; reflexivity|].
  split; [apply delta_over_check with (l := []); vm_compute; reflexivity|].
  split; [split; [lia|]; exists 46; split; [apply call_over_b_sound; vm_compute; reflexivity|apply khb_b_sound; vm_compute; reflexivity]|].
  split; [|split; vm_compute; reflexivity].
  intros i t op L Hi. assert (C : In i [0; 9; 38; 47; 58]).
  { assert (forallb (fun i => match nth_error ex_loose i with Some (KStart _ _) => existsb (Nat.eqb i) [0; 9; 38; 47; 58] | _ => true end) (seq 0 73) = true) as H by (vm_compute; reflexivity).
    rewrite forallb_forall in H. specialize (H i ltac:(apply in_seq; lia)). cbv beta in H. rewrite Hi in H. apply existsb_exists in H.
    destruct H as (y & Hy & Ey). apply Nat.eqb_eq in Ey. subst y. exact Hy. }
  destruct C as [<-|C]; [|left; exact C]. right. exists 8. split; [apply call_over_b_sound; vm_compute; reflexivity|apply khb_b_sound; vm_compute; reflexivity].
Qed.
Print Assumptions C86_unjoined_call_not_counted.

(** ** C87: min and max of the usage between a save point and a request on it *)
Theorem C87_region_min_max :
  forall (b : build) (sz n : nat) (sched : list kaction) (s s0 s1 : kst) (si se k di de : nat) (ds : list Z),
  1 <= sz -> (Z.of_nat sz < two32)%Z -> n <= sz -> fits (kcalls sched) ->
  krun b (kinit sz n) sched = Some s ->
  save_over b sz n sched si se k -> delta_over b sz n sched di de k ds -> khb sched se di ->
  (forall i t op, i < de -> nth_error sched i = Some (KStart t op) -> i = si \/ i = di \/
     exists e, call_over b sz n sched i e /\ (khb sched e si \/ se < i /\ op <> OSave /\ khb sched se i /\ khb sched e di)) ->
  krun b (kinit sz n) (firstn (S se) sched) = Some s0 -> krun b (kinit sz n) (firstn de sched) = Some s1 ->
  exists mn mx, nth_error ds 9 = Some (kvalue s1 FCur) /\ nth_error ds 10 = Some mn /\ nth_error ds 11 = Some mx /\
    (mn <= kvalue s0 FCur <= mx)%Z /\ (mn <= kvalue s1 FCur <= mx)%Z /\
    In mn (skipn (length (kvalues s0 FCur) - 1) (kvalues s1 FCur)) /\
    In mx (skipn (length (kvalues s0 FCur) - 1) (kvalues s1 FCur)).
Proof.
  intros b sz n sched s s0 s1 si se k di de ds HS HSB HN HF _ SO DO SD CL H0 H1.
  exact (region_min_max b sz n sched HS HSB HN HF si se k di de ds SO DO SD CL s0 s1 H0 H1).
Qed.
Print Assumptions C87_region_min_max.

(** *** Example: the program of [C84_C86_example]. *)
Example C87_example :
  save_over Debug 4 3 ex_joined 9 34 0 /\ delta_over Debug 4 3 ex_joined 69 84 0 joined_answer /\ khb ex_joined 34 69 /\
  (forall i t op, i < 84 -> nth_error ex_joined i = Some (KStart t op) -> i = 9 \/ i = 69 \/
     exists e, call_over Debug 4 3 ex_joined i e /\ (khb ex_joined e 9 \/ 34 < i /\ op <> OSave /\ khb ex_joined 34 i /\ khb ex_joined e 69)) /\
  option_map (fun s => kvalues s FCur) (krun Debug (kinit 4 3) (firstn 35 ex_joined)) = Some [0; 100]%Z /\
  option_map (fun s => kvalues s FCur) (krun Debug (kinit 4 3) (firstn 84 ex_joined)) = Some [0; 100; 107; 100; 120]%Z.
Proof.
  split; [exact joined_save|]. split; [exact joined_delta|]. split; [apply khb_b_sound; vm_compute; reflexivity|].
  split; [apply region2_b_sound; vm_compute; reflexivity|]. split; vm_compute; reflexivity.
Qed.

(** *** The calls have to come after the save point: thread 1 allocates 20 bytes after the save
    point of thread 0, and is joined before the request, but nothing orders its call after
    save_point.  It reads a minimum and a maximum older than the ones save_point stored: the
    answer has a current usage of 120 and a maximum of 100. *)
Definition ex_max := Eval vm_compute in build_sched Debug (kinit 4 3)
  [New 0 (OAlloc 100 true); New 0 OSave; Act (KStart 1 (OAlloc 20 true)); NewSteps 1 6; Act (KStep 1 false [1]); Act (KStep 1 false [1]);
   Act (KSend 1); Act (KRecv 0 0); New 0 (ODelta 0)].
Definition max_answer : list Z := [1; 0; 0; 0; 20; 0; 0; 0; 0; 120; 100; 100]%Z.
Theorem C87_unsynchronised_allocation_lost_from_max :
  exists s, krun Debug (kinit 4 3) ex_max = Some s /\ k_idle s /\ fits (kcalls ex_max) /\ w_races (k_ring s) = [] /\
    save_over Debug 4 3 ex_max 9 34 0 /\ delta_over Debug 4 3 ex_max 46 61 0 max_answer /\ khb ex_max 34 46 /\
    34 < 35 /\ nth_error ex_max 35 = Some (KStart 1 (OAlloc 20 true)) /\
    (exists e, call_over Debug 4 3 ex_max 35 e /\ khb ex_max e 46) /\
    (* everything else was over before save_point *)
    (forall i t op, i < 61 -> nth_error ex_max i = Some (KStart t op) -> i = 9 \/ i = 46 \/
       exists e, call_over Debug 4 3 ex_max i e /\ (khb ex_max e 9 \/ 34 < i /\ khb ex_max e 46)) /\
    nth_error max_answer 9 = Some 120%Z /\ nth_error max_answer 11 = Some 100%Z.
Proof.
  destruct (option_map_some (fun s => (k_threads s, w_races (k_ring s))) (krun Debug (kinit 4 3) ex_max)
              ([AIdle; AIdle; AIdle], [])) as (s & R & E); [vm_compute; reflexivity|].
  injection E as E1 E2. exists s. split; [exact R|]. split; [unfold k_idle; rewrite E1; repeat (apply Forall_cons; [reflexivity|]); apply Forall_nil|].
  split.
  { split; [|split].
    - vm_compute kcalls. repeat (apply Forall_cons; [cbn; unfold two64; lia|]). apply Forall_nil.
    - intros f Hf. cbn in Hf. repeat (destruct Hf as [<-|Hf]; [vm_compute; reflexivity|]). destruct Hf.
    - vm_compute. reflexivity. }
  split; [exact E2|].
  split; [apply save_over_check; vm_compute; reflexivity|].
  split; [apply delta_over_check with (l := []); vm_compute; reflexivity|].
  split; [apply khb_b_sound; vm_compute; reflexivity|]. split; [lia|]. split; [reflexivity|].
  split; [exists 43; split; [apply call_over_b_sound; vm_compute; reflexivity|apply khb_b_sound; vm_compute; reflexivity]|].
  split; [apply region_b_sound; vm_compute; reflexivity|]. split; reflexivity.
Qed.
Print Assumptions C87_unsynchronised_allocation_lost_from_max.

(** ** C88: without overlapping calls the memory orderings do not show *)
(** Serial executions behave like the sequential allocator of Alloc.v running the same calls in
    the same order: the same answers, the same save points, the same twelve fields at the end. *)
Theorem C88_serial_is_sequential :
  forall (b : build) (sz n : nat) (sched : list kaction) (s : kst),
  krun b (kinit sz n) sched = Some s -> k_idle s -> serial b sz n sched ->
  exists a outs, arun b (ainit sz) (kcalls sched) = Val (a, outs) /\
    k_deltas s = answers (kcalls sched) outs /\
    (forall f, kvalue s f = mem_of (st (alc a)) f) /\
    map snd (k_sps s) = map (fun sp => stats_list (metrics sp)) (sps a).
Proof. intros b sz n sched s R ID SER. exact (serial_sequential b sz n sched SER s R ID). Qed.
Print Assumptions C88_serial_is_sequential.

(** one calling thread is enough *)
Theorem C88_one_caller_is_serial :
  forall (b : build) (sz n : nat) (sched : list kaction) (t : nat),
  krun b (kinit sz n) sched <> None ->
  (forall i u op, nth_error sched i = Some (KStart u op) -> u = t) -> serial b sz n sched.
Proof. intros b sz n sched t. apply one_caller_serial. Qed.
Print Assumptions C88_one_caller_is_serial.

(** so delta_statistics is exact, minimum and maximum included, for any number of save points
    in between that the ring can hold *)
Theorem C88_serial_delta_exact :
  forall (b : build) (sz n : nat) (sched : list kaction) (s : kst) (pre post : list aop),
  1 <= sz -> (Z.of_nat sz < two32)%Z -> feasible (pre ++ OSave :: post) -> (saves post <= Z.of_nat sz)%Z ->
  krun b (kinit sz n) sched = Some s -> k_idle s -> serial b sz n sched ->
  kcalls sched = pre ++ OSave :: post ++ [ODelta (Z.to_nat (saves pre))] ->
  exists ds d, k_deltas s = ds ++ [(Z.to_nat (saves pre), Some (stats_list d))] /\ exact_delta (pre ++ [OSave]) post d.
Proof.
  intros b sz n sched s pre post H1 H2 H3 H4 R ID SER KC. destruct (serial_sequential b sz n sched SER s R ID) as (a & outs & A & D & _).
  destruct (delta_answer b sz pre post H1 H2 H3) as (s1 & s2 & outs1 & r & R1 & R2 & _ & _ & Hd). destruct (Hd H4) as (d & -> & Hx).
  rewrite KC, R2 in A. injection A as _ <-. exists (answers (pre ++ OSave :: post) outs1), d. split; [|exact Hx].
  rewrite D, KC, app_comm_cons, app_assoc, answers_snoc by (eapply arun_len; exact R1). reflexivity.
Qed.
Print Assumptions C88_serial_delta_exact.

(** *** Example: two threads take turns, handing over with a message each time (a lock). *)
Definition ex_turns := Eval vm_compute in build_sched Debug (kinit 4 2)
  [New 0 (OAlloc 100 true); New 0 OSave; New 0 (OAlloc 60 true); Act (KSend 0); Act (KRecv 1 0);
   New 1 (ODealloc 60); New 1 OSave; New 1 (OZeroed 5 true); Act (KSend 1); Act (KRecv 0 1); New 0 (ORealloc 5 30 true); New 0 (ODelta 0)].
Definition turns_answer : list Z := [1; 1; 1; 1; 60; 60; 5; 5; 30; 130; 100; 160]%Z.
Example C88_example :
  exists s, krun Debug (kinit 4 2) ex_turns = Some s /\ k_idle s /\ serial Debug 4 2 ex_turns /\
    kcalls ex_turns = [OAlloc 100 true] ++ OSave :: [OAlloc 60 true; ODealloc 60; OSave; OZeroed 5 true; ORealloc 5 30 true] ++ [ODelta (Z.to_nat (saves [OAlloc 100 true]))] /\
    feasible ([OAlloc 100 true] ++ OSave :: [OAlloc 60 true; ODealloc 60; OSave; OZeroed 5 true; ORealloc 5 30 true]) /\
    k_deltas s = [(0, Some turns_answer)] /\ kvalue s FMin = 100%Z /\ kvalue s FMax = 130%Z /\ length (k_sps s) = 2.
Proof.
  destruct (option_map_some (fun s => (k_threads s, k_deltas s, kvalue s FMin, kvalue s FMax, length (k_sps s))) (krun Debug (kinit 4 2) ex_turns)
              ([AIdle; AIdle], [(0, Some turns_answer)], 100%Z, 130%Z, 2)) as (s & R & E); [vm_compute; reflexivity|].
  injection E as E1 E2 E3 E4 E5. exists s. split; [exact R|]. split; [unfold k_idle; rewrite E1; repeat (apply Forall_cons; [reflexivity|]); apply Forall_nil|].
  split; [apply serial_b_sound; vm_compute; reflexivity|]. split; [vm_compute; reflexivity|].
  split; [|auto].
  split; [repeat (apply Forall_cons; [cbn; unfold two64; lia|]); apply Forall_nil|]. split; [|vm_compute; repeat split; congruence].
  intros x Hx. vm_compute in Hx. repeat (destruct Hx as [<-|Hx]; [unfold two64; lia|]). destruct Hx.
Qed.
