(** * Property theorems C21-C27 and C58-C59: the metrics allocator.
    Vocabulary: AllocSpec.v, AllocConcSpec.v; models: Alloc.v, AllocConc.v. *)
From Coq Require Import List ZArith Lia Bool Arith.
From Verif Require Import Machine Ring Complexity Floats Analysis Alloc AllocSpec AllocProofs
  AllocConc AllocConcSpec AllocConcProofs AllocConcProofs2 AllocConcProofs3.
Import ListNotations.
Open Scope Z_scope.

(** the number of the save point taken right after [pre] *)
Definition save_point_after (pre : list aop) : nat := Z.to_nat (saves pre).

(** ** C21 *)
Theorem C21_delta_statistics_exact :
  forall (b : build) (sz : nat) (pre post : list aop),
  (1 <= sz)%nat -> Z.of_nat sz < two32 -> feasible (pre ++ OSave :: post) -> saves post <= Z.of_nat sz ->
  exists s outs d,
    arun b (ainit sz) (pre ++ OSave :: post ++ [ODelta (save_point_after pre)]) = Val (s, outs ++ [ADelta (Some d)]) /\
    length outs = length (pre ++ OSave :: post) /\
    exact_delta (pre ++ [OSave]) post d.
Proof.
  intros b sz pre post H1 H2 H3 H4. destruct (delta_answer b sz pre post H1 H2 H3) as (s & s' & outs & r & R & R' & _ & _ & Hd).
  destruct (Hd H4) as (d & -> & Hx). exists s', outs, d. split; [exact R'|]. split; [|exact Hx].
  destruct (arun_ok b sz _ ltac:(lia) H2 H3) as (s2 & outs2 & R2 & L & _). rewrite R in R2. injection R2 as _ ->. exact L.
Qed.
Print Assumptions C21_delta_statistics_exact.

Example C21_example :
  let pre := [OAlloc 100 true; OSave; OAlloc 50 true] in
  let post := [ODealloc 100; OSave; OAlloc 500 true; ORealloc 500 20 true; OSave; OZeroed 7 true] in
  feasible (pre ++ OSave :: post) /\ saves post <= Z.of_nat 2 /\
  match arun Debug (ainit 2) (pre ++ OSave :: post ++ [ODelta (save_point_after pre)]) with
  | Val (_, outs) => nth_error outs 10 = Some (ADelta (Some (Stats 1 1 1 1 500 100 7 500 20 77 50 550)))
  | _ => False
  end.
Proof.
  cbv zeta. split; [|split; [unfold saves, total; cbn; lia|vm_compute; reflexivity]].
  unfold feasible. rewrite two64_val, two32_val.
  split; [repeat constructor; unfold sizes_ok; rewrite ?two64_val; lia|].
  split; [intros x Hx; vm_compute in Hx; repeat (destruct Hx as [<-|Hx]; [lia|]); destruct Hx|].
  unfold saves, total, sum; cbn; lia.
Qed.

(** ** C22 *)
(** Two histories with the same allocations before and after the save point of
    interest give the same answer, whatever other save points and queries they contain. *)
Theorem C22_save_points_independent :
  forall (b b' : build) (sz sz' : nat) (pre post pre' post' : list aop),
  (1 <= sz)%nat -> Z.of_nat sz < two32 -> feasible (pre ++ OSave :: post) -> saves post <= Z.of_nat sz ->
  (1 <= sz')%nat -> Z.of_nat sz' < two32 -> feasible (pre' ++ OSave :: post') -> saves post' <= Z.of_nat sz' ->
  quiet pre = quiet pre' -> quiet post = quiet post' ->
  exists s outs s' outs' d,
    arun b (ainit sz) (pre ++ OSave :: post ++ [ODelta (save_point_after pre)]) = Val (s, outs ++ [ADelta (Some d)]) /\
    arun b' (ainit sz') (pre' ++ OSave :: post' ++ [ODelta (save_point_after pre')]) = Val (s', outs' ++ [ADelta (Some d)]).
Proof.
  intros b b' sz sz' pre post pre' post' H1 H2 H3 H4 H1' H2' H3' H4' E1 E2.
  destruct (delta_answer b sz pre post H1 H2 H3) as (s & s1 & outs & r & _ & R & _ & _ & Hd).
  destruct (delta_answer b' sz' pre' post' H1' H2' H3') as (s' & s1' & outs' & r' & _ & R' & _ & _ & Hd').
  destruct (Hd H4) as (d & -> & Hx). destruct (Hd' H4') as (d' & -> & Hx').
  assert (d = d') as <-.
  { eapply exact_delta_quiet; [| |exact Hx|exact Hx']; [|exact E2]. rewrite !quiet_app, E1. reflexivity. }
  exists s1, outs, s1', outs', d. split; assumption.
Qed.
Print Assumptions C22_save_points_independent.

(** delta_statistics leaves the allocator as it was (and so can be repeated). *)
Theorem C22_delta_statistics_changes_nothing :
  forall (b : build) (sz : nat) (pre post : list aop),
  (1 <= sz)%nat -> Z.of_nat sz < two32 -> feasible (pre ++ OSave :: post) ->
  exists s outs r,
    arun b (ainit sz) (pre ++ OSave :: post) = Val (s, outs) /\
    forall k, arun b (ainit sz) (pre ++ OSave :: post ++ repeat (ODelta (save_point_after pre)) k) =
              Val (s, outs ++ repeat (ADelta r) k).
Proof.
  intros b sz pre post H1 H2 H3. destruct (delta_answer b sz pre post H1 H2 H3) as (s & s' & outs & r & R & R' & -> & _).
  exists s, outs, r. split; [exact R|]. intros k. rewrite app_comm_cons, app_assoc in R' |- *. rewrite arun_app, R in R' |- *. cbn [bind fst snd] in R' |- *.
  assert (astep b s (ODelta (save_point_after pre)) = Val (s, ADelta r)) as E.
  { cbn [arun] in R'. unfold save_point_after. destruct (astep b s (ODelta (Z.to_nat (saves pre)))) as [[s2 o]| |]; try discriminate. cbn [bind fst snd] in R'.
    injection R' as -> Eo. apply app_inv_head in Eo. injection Eo as ->. reflexivity. }
  assert (arun b s (repeat (ODelta (save_point_after pre)) k) = Val (s, repeat (ADelta r) k)) as ->; [|reflexivity].
  induction k as [|k IH]; [reflexivity|]. cbn [repeat arun]. rewrite E. cbn [bind fst snd]. rewrite IH. reflexivity.
Qed.
Print Assumptions C22_delta_statistics_changes_nothing.

Example C22_example :
  let pre := [OAlloc 5 true] in let post := [OAlloc 9 true; ODealloc 9] in
  let pre' := [OSave; OAlloc 5 true; OSave] in let post' := [OSave; OAlloc 9 true; OSave; ODelta 0; ODealloc 9; OSave] in
  quiet pre = quiet pre' /\ quiet post = quiet post' /\
  match arun Debug (ainit 4) (pre ++ OSave :: post ++ [ODelta (save_point_after pre)]),
        arun Release (ainit 4) (pre' ++ OSave :: post' ++ [ODelta (save_point_after pre')]) with
  | Val (_, o1), Val (_, o2) => last o1 ANone = last o2 ANone /\ last o1 ANone = ADelta (Some (Stats 1 1 0 0 9 9 0 0 0 5 5 14))
  | _, _ => False
  end.
Proof. vm_compute. repeat split. Qed.

(** ** C23 *)
Theorem C23_overflow_reported_exactly :
  forall (b : build) (sz : nat) (pre post : list aop),
  (1 <= sz)%nat -> Z.of_nat sz < two32 -> feasible (pre ++ OSave :: post) ->
  exists s outs r,
    arun b (ainit sz) (pre ++ OSave :: post ++ [ODelta (save_point_after pre)]) = Val (s, outs ++ [ADelta r]) /\
    (r = None <-> saves post > Z.of_nat sz).
Proof.
  intros b sz pre post H1 H2 H3. destruct (delta_answer b sz pre post H1 H2 H3) as (s & s' & outs & r & _ & R & _ & H & _).
  exists s', outs, r. split; assumption.
Qed.
Print Assumptions C23_overflow_reported_exactly.

Example C23_example :
  let at_most k := match arun Debug (ainit 2) ([OAlloc 1 true] ++ OSave :: repeat OSave k ++ [ODelta 0]) with
                   | Val (_, outs) => last outs ANone | _ => ANone end in
  at_most 2%nat = ADelta (Some (Stats 0 0 0 0 0 0 0 0 0 1 1 1)) /\ at_most 3%nat = ADelta None.
Proof. vm_compute. split; reflexivity. Qed.

(** ** C24 *)
(** Any client history [cs] that follows the GlobalAlloc contract, starting with no
    live block; [ops] are the calls it makes, [h] the blocks live at its end. *)
Theorem C24_used_memory_is_live_heap :
  forall (b : build) (sz : nat) (cs : list client) (h : heap) (ops : list aop),
  client_run [] cs = Some (h, ops) -> forallb succeeds cs = true -> Forall size_ok cs -> live h < two64 ->
  exists s outs, arun b (ainit sz) ops = Val (s, outs) /\ current_used (st (alc s)) = live h /\ 0 <= live h.
Proof.
  intros b sz cs h ops E OK SZ HB. destruct (current_is_live b sz cs h ops E) as (s & outs & R & C).
  destruct (client_run_live cs [] h ops (NoDup_nil _) (Forall_nil _) SZ OK E) as (_ & P & _).
  exists s, outs. split; [exact R|]. split; [|exact P]. rewrite C, (succeeds_no_failure cs [] h ops OK E), Z.add_0_r.
  apply Z.mod_small. lia.
Qed.
Print Assumptions C24_used_memory_is_live_heap.

(** With failures, current_used_memory is off for good by the sizes of the failed
    calls (sizes n for allocations, new - old for reallocations). *)
Theorem C24_failed_calls_are_counted_forever :
  forall (b : build) (sz : nat) (cs : list client) (h : heap) (ops : list aop),
  client_run [] cs = Some (h, ops) ->
  exists s outs, arun b (ainit sz) ops = Val (s, outs) /\
    current_used (st (alc s)) = (live h + total failed_delta ops) mod two64.
Proof. exact current_is_live. Qed.
Print Assumptions C24_failed_calls_are_counted_forever.

Example C24_example :
  let cs := [CAlloc 1 100 false true; CAlloc 2 30 true true; CResize 1 250 true; CFree 2] in
  match client_run [] cs with
  | Some (h, ops) => h = [(1%nat, 250)] /\ match arun Debug (ainit 4) ops with Val (s, _) => current_used (st (alc s)) = 250 | _ => False end
  | None => False
  end /\
  let bad := [CAlloc 1 100 false true; CResize 1 1000 false; CFree 1] in
  match client_run [] bad with
  | Some (h, ops) => h = [] /\ match arun Debug (ainit 4) ops with Val (s, _) => current_used (st (alc s)) = 900 | _ => False end
  | None => False
  end.
Proof. vm_compute. repeat split. Qed.

(** ** C25 *)
Theorem C25_concurrent_counters_exact :
  forall (b : build) (sz n : nat) (sched : list aaction) (s : acst) (f : field),
  f <> FMin -> f <> FMax ->
  acrun b (acinit sz n) sched = Some s -> idle_all s ->
  a_mem s f = total (contrib f) (calls sched) mod two64.
Proof. exact counters_exact. Qed.
Print Assumptions C25_concurrent_counters_exact.

(** concrete executions *)
Lemma ran b s0 sched (P : acst -> Prop) :
  match acrun b s0 sched with Some s => P s | None => False end -> exists s, acrun b s0 sched = Some s /\ P s.
Proof. destruct (acrun b s0 sched) as [s|]; [|tauto]. intros H. exists s. split; [reflexivity|exact H]. Qed.

(** thread [t] takes [k] steps *)
Definition st_ (t k : nat) : list aaction := repeat (AStep t false) k.

Example C25_example :
  let sched := [AStart 0 (OAlloc 10 true); AStart 1 (ODealloc 4)] ++ st_ 0 1 ++ st_ 1 2 ++ st_ 0 2 ++ [AStart 2 OSave] ++ st_ 2 5 ++ st_ 1 1 ++
               st_ 0 5 ++ st_ 2 16 ++ st_ 1 5 in
  exists s, acrun Debug (acinit 4 3) sched = Some s /\ idle_all s /\ a_mem s FCur = 6 /\ a_mem s FAllocB = 10 /\ a_mem s FDeallocs = 1.
Proof. cbv zeta. apply ran. vm_compute. split; [repeat constructor|repeat split]. Qed.

(** ** C26 *)
Theorem C26_min_max_are_real :
  forall (b : build) (sz n : nat) (sched : list aaction) (s : acst),
  acrun b (acinit sz n) sched = Some s -> forall f, f = FMin \/ f = FMax ->
  exists sched1 sched2 s1, sched = sched1 ++ sched2 /\ acrun b (acinit sz n) sched1 = Some s1 /\ a_mem s1 FCur = a_mem s f.
Proof. exact minmax_real. Qed.
Print Assumptions C26_min_max_are_real.

Theorem C26_sandwich_without_racing_save_points :
  forall (b : build) (sz n : nat) (sched : list aaction) (s : acst),
  acrun b (acinit sz n) sched = Some s -> always b exclusive (acinit sz n) sched -> idle_all s ->
  a_mem s FMin <= a_mem s FCur <= a_mem s FMax.
Proof. exact sandwich. Qed.
Print Assumptions C26_sandwich_without_racing_save_points.

(** A racing save point leaves max below current; delta_statistics on that very
    save point then reports max < memory before, so [max - before] underflows. *)
Theorem C26_racing_save_point_refuted :
  exists sched s, acrun Debug (acinit 4 2) sched = Some s /\ idle_all s /\
    calls sched = [OSave; OAlloc 10 true; ODelta 0] /\
    a_mem s FMax < a_mem s FCur /\
    exists before after mn mx rest,
      a_deltas s = [(0%nat, Some (rest ++ [after; mn; mx]))] /\
      option_map (fun sp => nth_error (snd sp) 9) (nth_error (a_sps s) 0) = Some (Some before) /\
      max_growth Debug {| used_memory_before := before; used_memory_after := after; max_used_memory := mx; min_used_memory := mn |}
      = Panic POverflow.
Proof.
  set (sched := AStart 0 OSave :: st_ 0 7 ++ AStart 1 (OAlloc 10 true) :: st_ 1 8 ++ st_ 0 14 ++ AStart 1 (ODelta 0) :: st_ 1 13).
  assert (exists s, acrun Debug (acinit 4 2) sched = Some s /\ (a_threads s = [AIdle; AIdle] /\ a_mem s FMax = 0 /\ a_mem s FCur = 10 /\
    a_deltas s = [(0%nat, Some ([0; 0; 0; 0; 0; 0; 0; 0; 0] ++ [10; 0; 0]))] /\
    option_map (fun sp => nth_error (snd sp) 9) (nth_error (a_sps s) 0) = Some (Some 10))) as (s & R & H1 & H2 & H3 & H4 & H5).
  { apply ran. vm_compute. repeat split. }
  exists sched, s. split; [exact R|]. split; [unfold idle_all; rewrite H1; repeat constructor|]. split; [reflexivity|]. split; [lia|].
  exists 10, 10, 0, 0, [0; 0; 0; 0; 0; 0; 0; 0; 0]. split; [exact H4|]. split; [exact H5|]. reflexivity.
Qed.
Print Assumptions C26_racing_save_point_refuted.

(** A transient peak is missed: 10 bytes were in use, max never says so. *)
Theorem C26_missed_peak_refuted :
  exists sched1 sched2 s1 s, acrun Debug (acinit 4 2) sched1 = Some s1 /\ acrun Debug s1 sched2 = Some s /\ idle_all s /\
    calls (sched1 ++ sched2) = [OAlloc 10 true; ODealloc 10] /\ a_mem s1 FCur = 10 /\ a_mem s FMax = 0.
Proof.
  set (p := AStart 0 (OAlloc 10 true) :: st_ 0 3). set (q := AStart 1 (ODealloc 10) :: st_ 1 8 ++ st_ 0 5).
  assert (exists s1, acrun Debug (acinit 4 2) p = Some s1 /\ a_mem s1 FCur = 10) as (s1 & R1 & H1) by (apply ran; vm_compute; reflexivity).
  assert (exists s, acrun Debug (acinit 4 2) (p ++ q) = Some s /\ (a_threads s = [AIdle; AIdle] /\ a_mem s FMax = 0)) as (s & R & H2 & H3)
    by (apply ran; vm_compute; repeat split).
  exists p, q, s1, s. split; [exact R1|]. split; [rewrite acrun_app, R1 in R; exact R|]. split; [unfold idle_all; rewrite H2; repeat constructor|].
  repeat split; assumption.
Qed.
Print Assumptions C26_missed_peak_refuted.

(** an execution meeting the hypotheses of the sandwich theorem: a save point, then two concurrent calls *)
Definition is_idle (p : apc) : bool := match p with AIdle => true | _ => false end.
Definition exclusiveb (s : acst) : bool :=
  forallb (fun t => match nth_error (a_threads s) t with
    | Some p => negb (saving p) || forallb (fun u => Nat.eqb t u || match nth_error (a_threads s) u with Some q => is_idle q | None => true end)
                                           (seq 0 (length (a_threads s)))
    | None => true end) (seq 0 (length (a_threads s))).
Fixpoint alwaysb (b : build) (P : acst -> bool) (s : acst) (sched : list aaction) : bool :=
  P s && match sched with
         | [] => true
         | a :: rest => match acstep b s a with Some s1 => alwaysb b P s1 rest | None => true end
         end.
Lemma exclusiveb_ok s : exclusiveb s = true -> exclusive s.
Proof.
  intros H t u p q Et Eu Hp Hne. unfold exclusiveb in H. rewrite forallb_forall in H.
  assert (forall v r, nth_error (a_threads s) v = Some r -> In v (seq 0 (length (a_threads s)))) as HI.
  { intros v r E. apply in_seq. assert (v < length (a_threads s))%nat by (apply nth_error_Some; congruence). lia. }
  specialize (H t (HI t p Et)). rewrite Et, Hp in H. cbn [negb orb] in H. rewrite forallb_forall in H.
  specialize (H u (HI u q Eu)). rewrite Eu in H. destruct (Nat.eqb_spec t u); [contradiction|]. destruct q; try discriminate. reflexivity.
Qed.
Lemma alwaysb_ok b P (Q : acst -> Prop) : (forall s, P s = true -> Q s) -> forall sched s, alwaysb b P s sched = true -> always b Q s sched.
Proof.
  intros HP. induction sched as [|a sched IH]; intros s H p q s1 E R; cbn [alwaysb] in H; apply andb_true_iff in H; destruct H as [H1 H2].
  - destruct p; [|discriminate]. injection R as <-. apply HP. exact H1.
  - destruct p as [|a' p]; [injection R as <-; apply HP; exact H1|]. injection E as -> E. cbn [acrun] in R.
    destruct (acstep b s a') as [s2|]; [|discriminate]. exact (IH s2 H2 p q s1 E R).
Qed.

Example C26_example :
  let sched := (AStart 0 (OAlloc 3 true) :: st_ 0 8) ++ acall 1 OSave save_steps ++
               [AStart 0 (OAlloc 10 true); AStart 1 (ODealloc 2)] ++ st_ 0 3 ++ st_ 1 6 ++ st_ 0 5 ++ st_ 1 2 in
  always Debug exclusive (acinit 4 2) sched /\
  exists s, acrun Debug (acinit 4 2) sched = Some s /\ idle_all s /\ a_mem s FMin = 3 /\ a_mem s FCur = 11 /\ a_mem s FMax = 11.
Proof.
  cbv zeta. split; [|apply ran; vm_compute; split; [repeat constructor|repeat split]].
  apply (alwaysb_ok _ exclusiveb _ exclusiveb_ok). vm_compute. reflexivity.
Qed.

(** ** C27 *)
Theorem C27_measurement_well_formed :
  forall (b : build) (sz : nat) (pre post : list aop),
  (1 <= sz)%nat -> Z.of_nat sz < two32 -> feasible (pre ++ OSave :: post) ->
  exists s outs sp d, arun b (ainit sz) (pre ++ OSave :: post) = Val (s, outs) /\
    nth_error (sps s) (save_point_after pre) = Some sp /\ delta_statistics b (alc s) sp = Val d /\
    let m := space_measurement sp d in
    well_formed m /\
    (saves post <= Z.of_nat sz -> used_memory_before m = used pre /\ used_memory_after m = used (pre ++ OSave :: post)).
Proof. exact measurement_ok. Qed.
Print Assumptions C27_measurement_well_formed.

Theorem C27_space_analyses_never_panic :
  forall (b : build) (t : tolerance) (l : libm) (n1 n2 : Z) (m1 m2 : space_pass),
  well_formed m1 -> well_formed m2 ->
  (exists c, analyse_space_complexity b t l n1 n2 m1 m2 = Val c) /\
  (exists c, analyse_space_complexity_constant_set b t l n1 n2 m1 m2 = Val c) /\
  (exists c, analyse_space_complexity_set_resizing b t l n1 m1 m2 = Val c).
Proof.
  intros b t l n1 n2 m1 m2 H1 H2. destruct (well_formed_growth b m1 H1) as (g1 & E1). destruct (well_formed_growth b m2 H2) as (g2 & E2).
  unfold analyse_space_complexity, analyse_space_complexity_constant_set, analyse_space_complexity_set_resizing.
  rewrite E1, E2. cbn [bind]. repeat split; eexists; reflexivity.
Qed.
Print Assumptions C27_space_analyses_never_panic.

Example C27_example :
  well_formed {| used_memory_before := 10; used_memory_after := 5; max_used_memory := 30; min_used_memory := 0 |} /\
  well_formed sentinel_space.
Proof.
  unfold well_formed, sentinel_space. cbn [used_memory_before used_memory_after max_used_memory min_used_memory]. rewrite two64_val. lia.
Qed.

(** ** C58 *)
Theorem C58_no_concurrent_panic :
  forall (b : build) (sz n : nat) (sched : list aaction) (s : acst),
  (1 <= sz)%nat -> Z.of_nat sz < two32 ->
  acrun b (acinit sz n) sched = Some s -> fits (calls sched) ->
  forall t q, nth_error (a_threads s) t <> Some (APanicked q).
Proof. exact no_concurrent_panic. Qed.
Print Assumptions C58_no_concurrent_panic.

Example C58_example :
  let sched := [AStart 0 (OAlloc 10 true); AStart 1 OSave] ++ st_ 0 2 ++ st_ 1 21 ++ [AStart 1 (ODelta 0)] ++ st_ 1 6 ++ st_ 0 6 ++ st_ 1 7 in
  fits (calls sched) /\ exists s, acrun Debug (acinit 4 2) sched = Some s /\ idle_all s /\ length (a_deltas s) = 1%nat.
Proof.
  cbv zeta. split.
  - split; [repeat constructor; cbn; lia|]. split; [|vm_compute; reflexivity].
    intros f Hf. cbn in Hf. repeat (destruct Hf as [<-|Hf]; [vm_compute; reflexivity|]). destruct Hf.
  - apply ran. vm_compute. split; [repeat constructor|reflexivity].
Qed.

(** ** C59 *)
Theorem C59_measured_concurrent_region :
  forall (b : build) (sz n : nat) (sched0 : list aaction) (s0 : acst) (t : nat) (mid : list aaction) (u : nat) (s1 : acst),
  (1 <= sz)%nat -> Z.of_nat sz < two32 -> (t < n)%nat -> (u < n)%nat ->
  acrun b (acinit sz n) sched0 = Some s0 -> idle_all s0 ->
  saves (calls mid) = 0 -> fits (calls sched0 ++ OSave :: calls mid) ->
  acrun b s0 (acall t OSave save_steps ++ mid) = Some s1 -> idle_all s1 ->
  exists s2 mn mx,
    acrun b s1 (acall u (ODelta (length (a_sps s0))) delta_steps) = Some s2 /\
    a_deltas s2 = a_deltas s1 ++
      [(length (a_sps s0),
        Some (map (fun f => total (contrib f) (calls mid)) counter_fields ++ [a_mem s1 FCur; mn; mx]))] /\
    mn <= a_mem s0 FCur <= mx /\ mn <= a_mem s1 FCur <= mx /\
    (forall x, x = mn \/ x = mx -> exists mid1 mid2 s', mid = mid1 ++ mid2 /\
       acrun b s0 (acall t OSave save_steps ++ mid1) = Some s' /\ a_mem s' FCur = x).
Proof. exact measured_region. Qed.
Print Assumptions C59_measured_concurrent_region.

Example C59_example :
  let sched0 := AStart 0 (OAlloc 3 true) :: st_ 0 8 in
  let mid := [AStart 0 (OAlloc 10 true); AStart 1 (ODealloc 2)] ++ st_ 0 3 ++ st_ 1 6 ++ st_ 0 5 ++ st_ 1 2 in
  fits (calls sched0 ++ OSave :: calls mid) /\ saves (calls mid) = 0 /\
  exists s, acrun Debug (acinit 4 2) (sched0 ++ acall 1 OSave save_steps ++ mid) = Some s /\ idle_all s.
Proof.
  cbv zeta. split; [|split; [reflexivity|apply ran; vm_compute; repeat constructor]].
  split; [repeat constructor; cbn; lia|]. split; [|vm_compute; reflexivity].
  intros f Hf. cbn in Hf. repeat (destruct Hf as [<-|Hf]; [vm_compute; reflexivity|]). destruct Hf.
Qed.
