(** * Property theorems C94, C95: the async builder running on the metrics allocator. *)
From Coq Require Import List ZArith Lia Bool Reals Lra Psatz.
From Verif Require Import Machine Complexity Floats Analysis AnalysisF64 AnalysisF64b AnalysisF64c AnalysisF64d AnalysisF64e GrowthSpec Bridge Bridge4 PropsBridge PropsAnalysis Alloc AllocSpec AllocProofs Report ReportProofs Crud CrudSpec CrudProofs Free StandardSpec Present Builder BuilderSpec PropsBuilder EndToEnd EndToEndSpec EndToEndProofs PropsEndToEnd BuilderAlloc BuilderAllocSpec BuilderAllocProofs.
Import ListNotations.
Open Scope Z_scope.

(** ** C94: the measurements are the true ones -- whatever happened before the test, and
    whatever the closures, the assertions and the printing allocate *)
Theorem C94_measurements_are_true :
  forall F D X U bd t l (b : builder F X) (closure : async_behaviour F D X U) h al outs u tr s' o,
  arun bd (ainit ring_slots) h = Val (al, outs) ->
  fexec (async_world bd closure) (test_algorithm_async bd t l b) (MState al h u) tr s' o ->
  feasible (m_history s') ->
  Forall (true_async_call kept_slots closure (m_history s')) (bcalls tr).
Proof.
  change kept_slots with ring_slots. intros F D X U bd t l b closure h al outs u tr s' o E Y HF.
  destruct (async_grows bd closure _ _ _ _ _ Y) as [ext EH]. cbn [m_history] in EH. pose proof HF as HF0. rewrite EH in HF0. apply feasible_prefix in HF0.
  exact (proj2 (async_exec_ok bd closure ring_slots slots_pos slots_small _ _ _ _ _ Y (init_inv _ _ _ _ HF0 E) HF)).
Qed.
Print Assumptions C94_measurements_are_true.

Section World.
Context {F D X U : Type} (bd : build) (closure : async_behaviour F D X U) (H : list aop).
Hypothesis HR : roomy H.
Hypothesis HW : well_behaved ring_slots closure.
(** what is known of a measured call *)
Lemma true_async_facts f data m v : true_async_call ring_slots closure H (Ran f data (Some (m, v))) ->
  sane m /\ space_ok (pr_space m) /\ exists u u' ops, closure u (BRun f data) u' ops (pr_time m) (Some v) /\
    forall p, peak ops p -> growth (pr_space m) = p.
Proof.
  intros (u & u' & pre & ops & rest & EH & CC & T). destruct (HW _ _ _ _ _ _ _ CC) as [DS SV].
  assert (RP : roomy (pre ++ OSave :: ops)). { apply roomy_prefix with rest. rewrite <- app_assoc. cbn [app]. rewrite <- EH. exact HR. }
  pose proof (true_measurement_wf _ _ _ _ (proj1 RP) T) as WF. pose proof WF as (W1 & W2 & W3 & W4 & W5 & W6).
  split; [split; [exact DS|]; split; [exact WF|exact (true_measurement_small _ _ _ _ RP SV T)]|]. split; [unfold space_ok; lia|].
  exists u, u', ops. split; [exact CC|]. intros p PK. exact (true_measurement_growth _ _ _ _ _ SV T PK).
Qed.
Lemma true_async_sane tr : Forall (true_async_call ring_slots closure H) (bcalls tr) -> b_sane tr.
Proof.
  intros TCs f d m d' I. rewrite Forall_forall in TCs. exact (proj1 (true_async_facts _ _ _ _ (TCs _ I))).
Qed.
End World.

(** the end of a run in terms of [attempts], metrics never panicking *)
Lemma async_end {F D X U} bd t l (b : builder F X) (closure : async_behaviour F D X U) h al outs u tr s' o :
  never_panics closure -> well_behaved ring_slots closure -> BuilderSpec.usable b -> 0 <= reattempts b < two32 ->
  arun bd (ainit ring_slots) h = Val (al, outs) ->
  fexec (async_world bd closure) (test_algorithm_async bd t l b) (MState al h u) tr s' o ->
  roomy (m_history s') ->
  Forall (true_async_call ring_slots closure (m_history s')) (bcalls tr) /\
  ((exists es d, o = Val BPassed /\ attempts bd t l b None es (ROk (b, d)) (bcalls tr))
   \/ (exists es e d, o = Val (BPanicked es e) /\ attempts bd t l b None es (RFatal (b, d) e) (bcalls tr))
   \/ (exists es e d, o = Val (BPanicked es e) /\ attempts bd t l b None es (RTransient (b, d) e) (bcalls tr) /\ Z.of_nat (length es) = reattempts b)).
Proof.
  intros NP WB US Hm E Y HR.
  pose proof (C94_measurements_are_true _ _ _ _ _ _ _ _ _ _ _ _ _ _ _ _ E Y (proj1 HR)) as TCs. change kept_slots with ring_slots in TCs.
  split; [exact TCs|].
  destruct (async_grows bd closure _ _ _ _ _ Y) as [ext EH]. cbn [m_history] in EH. pose proof (proj1 HR) as HF0. rewrite EH in HF0. apply feasible_prefix in HF0.
  pose proof (returning_exec bd closure ring_slots slots_pos slots_small _ NP _ _ _ _ Y (init_inv _ _ _ _ HF0 E) (proj1 HR)) as Y'. clear Y.
  destruct (C49_no_other_end _ _ _ _ _ _ _ _ _ _ _ _ _ (returning_returns bd closure) US Y' (true_async_sane closure _ HR WB _ TCs)) as [e ->].
  pose proof (C49_outcome _ _ _ _ _ _ _ _ _ _ _ _ _ Hm Y') as O. destruct e as [|es e].
  - destruct O as (es & d & A & _). left. eauto.
  - destruct O as (d & [(A & _)|(A & L)]); [right; left; eauto|right; right; exists es, e, d; auto].
Qed.

(** The whole chain -- allocator, save points, clock, analyses, reattempts: if the time and the
    peak memory of the two passes follow the laws [ft] and [fs] within 2%, then the test
    - panics after one attempt, blaming space, iff a space limit was set and [fs] is worse;
    - otherwise, if a time limit was set and [ft] is worse, makes 1 + max_reattempts attempts and panics blaming time;
    - otherwise passes at the first attempt. *)
Theorem C94_end_to_end :
  forall F D X U bd t l (b : builder F X) (closure : async_behaviour F D X U) pass1 pass2 ct ft cs fs h al outs u tr s' o,
  libm_accurate l ->
  b_pass1 b = Some pass1 -> b_pass2 b = Some pass2 ->
  4 <= b_n1 b -> 2 * b_n1 b <= b_n2 b < two32 ->
  distinguishable t ft (b_n1 b) (b_n2 b) -> distinguishable t fs (b_n1 b) (b_n2 b) ->
  (0 < ct)%R -> (0 < cs)%R ->
  pass_obeys closure pass1 (b_n1 b) ct ft cs fs -> pass_obeys closure pass2 (b_n2 b) ct ft cs fs ->
  never_panics closure -> well_behaved kept_slots closure ->
  0 <= reattempts b < two32 ->
  arun bd (ainit ring_slots) h = Val (al, outs) ->
  fexec (async_world bd closure) (test_algorithm_async bd t l b) (MState al h u) tr s' o ->
  roomy (m_history s') ->
  exists runs, b_must_end b (law_class ft) (law_class fs) o runs /\ Z.of_nat (length (bcalls tr)) = calls_per_attempt b * runs.
Proof.
  change kept_slots with ring_slots. intros F D X U bd t l b closure pass1 pass2 ct ft cs fs h al outs u tr s' o Hl P1 P2 N1 N2 D1 D2 Pt Ps O1 O2 NP WB Hm E Y HR.
  destruct (async_end bd t l b closure h al outs u tr s' o NP WB ltac:(unfold BuilderSpec.usable; rewrite P1, P2; repeat split; try discriminate; lia) Hm E Y HR) as [TCs END].
  assert (N4 : 4 <= b_n2 b) by lia.
  assert (GEN : forall f n data m v, 4 <= n -> pass_obeys closure f n ct ft cs fs -> true_async_call ring_slots closure (m_history s') (Ran f data (Some (m, v))) ->
     follows ct ft n (pr_time m) /\ duration_sane (pr_time m) /\ follows cs fs n (growth (pr_space m)) /\ space_ok (pr_space m)).
  { intros f n data m v Hn O T. destruct (true_async_facts closure _ HR WB _ _ _ _ T) as ((S1 & _) & S2 & u0 & u' & ops & CC & PK).
    destruct (O _ _ _ _ _ _ CC) as (F1 & p & F2 & F3). rewrite (PK _ F2). auto. }
  assert (HV : forall q1 q2 d0 d1 d2 m1 m2 last, b_pass1 b = Some q1 -> b_pass2 b = Some q2 ->
    true_async_call ring_slots closure (m_history s') (Ran q1 d0 (Some (m1, d1))) -> true_async_call ring_slots closure (m_history s') (Ran q2 d2 (Some (m2, last))) ->
    analyse_time_complexity t l (b_n1 b) (b_n2 b) (pr_time m1) (pr_time m2) = law_class ft /\
    analyse_space_complexity bd t l (b_n1 b) (b_n2 b) (pr_space m1) (pr_space m2) = Val (law_class fs)).
  { intros q1 q2 d0 d1 d2 m1 m2 last Q1 Q2 T1 T2. rewrite P1 in Q1. rewrite P2 in Q2. injection Q1 as <-. injection Q2 as <-.
    destruct (GEN _ _ _ _ _ N1 O1 T1) as (A1 & A2 & A3 & A4). destruct (GEN _ _ _ _ _ N4 O2 T2) as (B1 & B2 & B3 & B4). split.
    - exact (proj1 (C05_binary64_noisy_time t l ft (b_n1 b) (b_n2 b) (pr_time m1) (pr_time m2) Hl N1 N2 D1 A2 (follows_pos _ _ _ _ Pt N1 A1) B2
        (follows_pos _ _ _ _ Pt N4 B1) (follows_ratio _ _ _ _ _ _ Pt N1 N4 A1 B1))).
    - exact (proj1 (C05_binary64_noisy_space bd t l fs (b_n1 b) (b_n2 b) (pr_space m1) (pr_space m2) Hl N1 N2 D2 A4 (follows_pos _ _ _ _ Ps N1 A3) B4
        (follows_pos _ _ _ _ Ps N4 B3) (follows_ratio _ _ _ _ _ _ Ps N1 N4 A3 B3))). }
  assert (NL : forall a c, clt a c -> cle c a -> False) by (unfold clt, cle; intros; lia).
  destruct END as [(es & d & -> & A)|[(es & e & d & -> & A)|(es & e & d & -> & A & L)]];
    destruct (attempts_expected bd t l b _ _ _ HV _ _ _ _ A TCs) as (V & LEN & R).
  - destruct V as [(e & i & _ & _ & V)|[(_ & e & i & _ & _ & V)|(V1 & V2 & _)]]; [discriminate|discriminate|].
    destruct R as [-> | (_ & e & R1 & R2 & _)]; [|destruct (NL _ _ R2 (V2 _ R1))].
    exists 1. split; [right; right; auto|]. rewrite LEN. cbn [length]. lia.
  - destruct V as [(e' & i & V1 & V2 & V)|[(_ & e' & i & _ & _ & V)|(_ & _ & i & V)]]; [|discriminate|discriminate]. injection V as _ ->.
    destruct R as [-> | (R0 & _)]; [|destruct (NL _ _ V2 (R0 _ V1))].
    exists 1. split; [left; exists e'; auto|]. rewrite LEN. cbn [length]. lia.
  - destruct V as [(e' & i & _ & _ & V)|[(V0 & e' & i & V1 & V2 & V)|(_ & _ & i & V)]]; [discriminate| |discriminate]. injection V as _ ->.
    exists (1 + reattempts b). split; [|rewrite LEN, L; reflexivity]. right. left. split; [exact V0|]. exists e'. split; [exact V1|]. split; [exact V2|].
    split; [|reflexivity]. f_equal. f_equal. rewrite <- L, Nat2Z.id.
    destruct R as [-> | (_ & e2 & R1 & _ & R)]; [reflexivity|]. rewrite V1 in R1. injection R1 as <-. exact R.
Qed.
Print Assumptions C94_end_to_end.

(** ** C95: passes that never hold more memory than when they were called are classified
    WorseThanExponential: the test panics after one attempt unless no space limit was set
    or that very class is allowed *)
Theorem C95_no_growth_fails :
  forall F D X U bd t l (b : builder F X) (closure : async_behaviour F D X U) pass1 pass2 limit h al outs u tr s' o,
  powf_zero_ok l ->
  b_pass1 b = Some pass1 -> b_pass2 b = Some pass2 ->
  1 <= b_n1 b < two32 -> 1 <= b_n2 b < two32 ->
  pass_never_grows closure pass1 -> pass_never_grows closure pass2 ->
  never_panics closure -> well_behaved kept_slots closure ->
  0 <= reattempts b < two32 ->
  arun bd (ainit ring_slots) h = Val (al, outs) ->
  fexec (async_world bd closure) (test_algorithm_async bd t l b) (MState al h u) tr s' o ->
  roomy (m_history s') ->
  b_space b = Some limit -> limit <> WorseThanExponential ->
  o = Val (BPanicked [] (BError (b_name b) Space limit WorseThanExponential)) /\
  Z.of_nat (length (bcalls tr)) = calls_per_attempt b.
Proof.
  change kept_slots with ring_slots. intros F D X U bd t l b closure pass1 pass2 limit h al outs u tr s' o Hl P1 P2 N1 N2 G1 G2 NP WB Hm E Y HR SL NW.
  destruct (async_end bd t l b closure h al outs u tr s' o NP WB ltac:(unfold BuilderSpec.usable; rewrite P1, P2; repeat split; try discriminate; lia) Hm E Y HR) as [TCs END].
  assert (GEN : forall f data m v, pass_never_grows closure f -> true_async_call ring_slots closure (m_history s') (Ran f data (Some (m, v))) ->
     growth (pr_space m) = 0 /\ space_ok (pr_space m)).
  { intros f data m v G T. destruct (true_async_facts closure _ HR WB _ _ _ _ T) as (_ & S2 & u0 & u' & ops & CC & PK). split; [apply PK, (G _ _ _ _ _ _ CC)|exact S2]. }
  assert (V : forall previous calls m1 m2 last v, attempt b previous calls m1 m2 last -> b_verdict bd t l b m1 m2 last v ->
     Forall (true_async_call ring_slots closure (m_history s')) calls -> v = RFatal (b, last) (BError (b_name b) Space limit WorseThanExponential)).
  { intros previous calls m1 m2 last v A (tc & sc & HT & HS & V) F0. rewrite Forall_forall in F0.
    destruct (attempt_passes b _ _ _ _ _ A) as (q1 & q2 & d0 & d1 & d2 & Q1 & Q2 & I1 & I2). rewrite P1 in Q1. rewrite P2 in Q2. injection Q1 as <-. injection Q2 as <-.
    destruct (GEN _ _ _ _ G1 (F0 _ I1)) as (Z1 & S1). destruct (GEN _ _ _ _ G2 (F0 _ I2)) as (Z2 & S2).
    rewrite (proj1 (C07_zero_usage bd t l (b_n1 b) (b_n2 b) _ _ Hl N1 N2 S1 Z1 S2 Z2)) in HS. apply val_inj in HS. subst sc.
    assert (LT : clt limit WorseThanExponential). { unfold clt. destruct limit; try congruence; cbn; lia. }
    destruct V as [(e & V1 & _ & V3)|[(V1 & _)|(V1 & _)]]; [rewrite SL in V1; injection V1 as <-; exact V3| |];
      specialize (V1 _ SL); unfold clt, cle in *; lia. }
  assert (FIN : forall es v, attempts bd t l b None es v (bcalls tr) -> es = [] /\ (exists last, v = RFatal (b, last) (BError (b_name b) Space limit WorseThanExponential)) /\ Z.of_nat (length (bcalls tr)) = calls_per_attempt b).
  { intros es v A. inversion A as [? ? m1 m2 last v0 AT VD|? ? m1 m2 last e es0 v0 calls' AT VD A']; subst.
    - split; [reflexivity|]. split; [exists last; exact (V _ _ _ _ _ _ AT VD TCs)|exact (attempt_length b _ _ _ _ _ AT)].
    - match goal with Q : _ ++ calls' = bcalls tr |- _ => rewrite <- Q in TCs end. apply Forall_app in TCs. pose proof (V _ _ _ _ _ _ AT VD (proj1 TCs)). discriminate. }
  destruct END as [(es & d & -> & A)|[(es & e & d & -> & A)|(es & e & d & -> & A & L)]]; destruct (FIN _ _ A) as (-> & (last & Q) & LEN); try discriminate.
  injection Q as _ ->. auto.
Qed.
Print Assumptions C95_no_growth_fails.
