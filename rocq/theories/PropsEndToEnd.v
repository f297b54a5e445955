(** * Property theorems C77, C78: test_algorithm running on the metrics allocator. *)
From Coq Require Import List ZArith Lia Bool Reals Lra Psatz.
From Flocq Require Import Core.Core.
From Verif Require Import Machine Complexity Floats Analysis AnalysisF64 AnalysisF64b AnalysisF64c AnalysisF64d AnalysisF64e GrowthSpec Bridge Bridge4 PropsBridge PropsAnalysis Alloc AllocSpec AllocProofs Report ReportProofs Crud CrudSpec CrudProofs Free Standard StandardSpec PropsStandard EndToEnd EndToEndSpec EndToEndProofs Demo.
Import ListNotations.
Open Scope Z_scope.

Lemma slots_pos : (0 < ring_slots)%nat. Proof. unfold ring_slots. lia. Qed.
Lemma slots_small : Z.of_nat ring_slots < two32. Proof. rewrite two32_val. unfold ring_slots. lia. Qed.
Lemma init_inv b h al outs : feasible h -> arun b (ainit ring_slots) h = Val (al, outs) -> ainv ring_slots h al.
Proof.
  intros HF E. destruct (arun_ok b ring_slots h slots_pos slots_small HF) as (s & o & E' & _ & I'). rewrite E in E'. injection E' as -> _. exact I'.
Qed.

(** ** C77: the measurements the verdict is based on are the true ones -- whatever
    happened before the test, whatever the closures and the printing allocate *)
Theorem C77_measurements_are_true :
  forall U b t l cfg (closure : behaviour U) max h al outs u tr s' o,
  arun b (ainit ring_slots) h = Val (al, outs) ->
  fexec (alloc_world b closure) (test_algorithm b t l cfg max) (MState al h u) tr s' o ->
  feasible (m_history s') ->
  Forall (true_call kept_slots closure (m_history s')) (scalls tr).
Proof.
  change kept_slots with ring_slots. intros U b t l cfg closure max h al outs u tr s' o E X HF.
  destruct (exec_grows b closure _ _ _ _ _ X) as [ext EH]. cbn [m_history] in EH. pose proof HF as HF0. rewrite EH in HF0. apply feasible_prefix in HF0.
  exact (proj2 (exec_ok b closure ring_slots slots_pos slots_small _ _ _ _ _ X (init_inv _ _ _ _ HF0 E) HF)).
Qed.
Print Assumptions C77_measurements_are_true.

(** in a feasible execution nothing in the metrics panics *)
Definition no_panic_world {U} (b : build) (closure : behaviour U) : world sans (mstate U) :=
  fun s q s' a => alloc_world b closure s q s' a /\ a <> None.
Lemma no_panic_exec {U} b (closure : behaviour U) {A} (m : fprog sans A) : forall s tr s' o,
  fexec (alloc_world b closure) m s tr s' o -> ainv ring_slots (m_history s) (m_alloc s) -> feasible (m_history s') ->
  fexec (no_panic_world b closure) m s tr s' o.
Proof.
  induction m as [a|p|q k IH]; intros s tr s' o X HI HF; [exact X|exact X|].
  destruct X as [(a & s1 & tr' & W & X & ->)|(W & -> & _)].
  - destruct (exec_grows b closure _ _ _ _ _ X) as [ext E]. pose proof HF as HF1. rewrite E in HF1. apply feasible_prefix in HF1.
    destruct (world_ok b closure ring_slots slots_pos slots_small _ _ _ _ HI HF1 W) as (I1 & N & _).
    left. exists a, s1, tr'. split; [split; [exact W|exact N]|]. split; [|reflexivity]. apply IH; assumption.
  - destruct (world_ok b closure ring_slots slots_pos slots_small _ _ _ _ HI HF W) as (_ & N & _). destruct (N eq_refl).
Qed.
Lemma no_panic_returns {U} b (closure : behaviour U) : returns (no_panic_world b closure).
Proof. intros s q s' a [_ N]. exact N. Qed.

Section Expected.
Context {U : Type} (b : build) (t : tolerance) (l : libm) (cfg : std_cfg) (closure : behaviour U) (H : list aop).
Variables (TC SC : complexity).
(** the classes every pair of passes gets *)
Hypothesis verdicts : forall m1 r1 m2 r2, true_call ring_slots closure H (CPass1 (Some (m1, r1))) -> true_call ring_slots closure H (CPass2 (Some (m2, r2))) ->
  analyse_time_complexity t l (st_n1 cfg) (st_n2 cfg) (pr_time m1) (pr_time m2) = TC /\
  analyse_space_complexity b t l (st_n1 cfg) (st_n2 cfg) (pr_space m1) (pr_space m2) = Val SC.
Definition run_expected (v : retry_result unit Z std_error) : Prop :=
  (clt (st_max_space cfg) SC /\ v = RFatal tt (StdError Space (st_max_space cfg) SC))
  \/ (cle SC (st_max_space cfg) /\ clt (st_max_time cfg) TC /\ v = RTransient tt (StdError Time (st_max_time cfg) TC))
  \/ (cle SC (st_max_space cfg) /\ cle TC (st_max_time cfg) /\ exists r, v = ROk r).
Lemma run_verdict s tr s' v : fexec (no_panic_world b closure) (analyse_algorithm b t l cfg) s tr s' (Val v) ->
  Forall (true_call ring_slots closure H) (scalls tr) -> run_expected v /\ length (scalls tr) = 3%nat.
Proof.
  intros X F. destruct (C45_each_run _ _ _ _ _ _ _ _ _ _ X) as [(v' & m0 & m1 & r1 & m2 & r2 & V & C & (tc & sc & HT & HS & D))|([p Y] & _)]; [|discriminate].
  apply val_inj in V. subst v'. rewrite C in F |- *. split; [|reflexivity].
  inversion F as [|? ? _ F1]; subst. inversion F1 as [|? ? P1 F2]; subst. inversion F2 as [|? ? P2 _]; subst.
  destruct (verdicts _ _ _ _ P1 P2) as [E1 E2]. rewrite E1 in D. rewrite E2 in HS. apply val_inj in HS. subst sc. unfold run_expected.
  destruct D as [D|[D|(D1 & D2 & D3)]]; [auto|auto|right; right; eauto].
Qed.
Lemma tries_expected p s fs r tr s' : tries (fun _ : unit => analyse_algorithm b t l cfg) (no_panic_world b closure) p s fs r tr s' ->
  p = analyse_algorithm b t l cfg -> Forall (true_call ring_slots closure H) (scalls tr) ->
  run_expected r /\ length (scalls tr) = (3 * (length fs + 1))%nat /\ Forall (fun x => run_expected (RTransient (fst x) (snd x))) fs.
Proof.
  intros T. induction T as [p s tr s' v X|p s tr s1 i e fs v tr1 s' X T IH]; intros -> F.
  - destruct (run_verdict _ _ _ _ X F) as [R L]. auto.
  - rewrite scalls_app in F |- *. apply Forall_app in F. destruct F as [F1 F2].
    destruct (run_verdict _ _ _ _ X F1) as [R L]. destruct (IH eq_refl F2) as (R' & L' & FS). rewrite app_length, L, L'.
    split; [exact R'|]. split; [cbn [length]; lia|]. constructor; assumption.
Qed.
End Expected.

(** what the test must end with when every run finds time class [TC] and space class [SC] *)
Definition must_end (cfg : std_cfg) (max : Z) (TC SC : complexity) (o : res std_end) (runs : Z) : Prop :=
  (clt (st_max_space cfg) SC /\ o = Val (StdPanicked [] (StdError Space (st_max_space cfg) SC)) /\ runs = 1)
  \/ (cle SC (st_max_space cfg) /\ clt (st_max_time cfg) TC /\
      o = Val (StdPanicked (repeat (StdError Time (st_max_time cfg) TC) (Z.to_nat max)) (StdError Time (st_max_time cfg) TC)) /\ runs = 1 + max)
  \/ (cle SC (st_max_space cfg) /\ cle TC (st_max_time cfg) /\ o = Val StdPassed /\ runs = 1).

Lemma expected_end {U} b t l cfg (closure : behaviour U) max h al outs u tr s' o TC SC :
  0 <= max < two32 -> 1 <= st_n1 cfg < two32 -> 1 <= st_n2 cfg < two32 ->
  arun b (ainit ring_slots) h = Val (al, outs) ->
  fexec (alloc_world b closure) (test_algorithm b t l cfg max) (MState al h u) tr s' o ->
  feasible (m_history s') -> s_sane tr ->
  (forall m1 r1 m2 r2, true_call ring_slots closure (m_history s') (CPass1 (Some (m1, r1))) -> true_call ring_slots closure (m_history s') (CPass2 (Some (m2, r2))) ->
    analyse_time_complexity t l (st_n1 cfg) (st_n2 cfg) (pr_time m1) (pr_time m2) = TC /\
    analyse_space_complexity b t l (st_n1 cfg) (st_n2 cfg) (pr_space m1) (pr_space m2) = Val SC) ->
  exists runs, must_end cfg max TC SC o runs /\ Z.of_nat (length (scalls tr)) = 3 * runs.
Proof.
  intros Hm N1 N2 E X HF SA HV.
  pose proof (C77_measurements_are_true _ _ _ _ _ _ _ _ _ _ _ _ _ _ E X HF) as TCs.
  destruct (exec_grows b closure _ _ _ _ _ X) as [ext EH]. cbn [m_history] in EH. pose proof HF as HF0. rewrite EH in HF0. apply feasible_prefix in HF0.
  pose proof (no_panic_exec b closure _ _ _ _ _ X (init_inv _ _ _ _ HF0 E) HF) as X'. clear X.
  destruct (C45_no_other_end _ _ _ _ _ _ _ _ _ _ _ (no_panic_returns b closure) N1 N2 X' SA) as [e ->].
  pose proof (C45_outcome _ _ _ _ _ _ max _ _ _ _ Hm X') as O. cbv zeta in O.
  assert (FS : forall fs, Forall (fun x => run_expected cfg TC SC (RTransient (fst x) (snd x))) fs ->
     fs <> [] -> cle SC (st_max_space cfg) /\ clt (st_max_time cfg) TC /\ map snd fs = repeat (StdError Time (st_max_time cfg) TC) (length fs)).
  { intros fs F N. assert (K : Forall (fun x : unit * std_error => cle SC (st_max_space cfg) /\ clt (st_max_time cfg) TC /\ snd x = StdError Time (st_max_time cfg) TC) fs).
    { revert F. apply Forall_impl. intros [i e'] [(_ & Y)|[(A & B & Y)|(_ & _ & r & Y)]]; [discriminate| |discriminate]. cbn [fst snd] in *. injection Y as _ ->. auto. }
    split; [|split]. 1-2: destruct fs; [congruence|]; inversion K; subst; tauto.
    clear - K. induction K as [|x fs (_ & _ & Ex) _ IH]; [reflexivity|]. cbn [map length repeat]. rewrite Ex, IH. reflexivity. }
  assert (NL : forall a c, clt a c -> cle c a -> False) by (unfold clt, cle; intros; lia).
  destruct e as [|es e].
  - destruct O as (fs & r & T & L). destruct (tries_expected b t l cfg closure _ TC SC HV _ _ _ _ _ _ T eq_refl TCs) as (R & LT & F).
    destruct R as [(_ & Y)|[(_ & _ & Y)|(R1 & R2 & _)]]; [discriminate|discriminate|].
    destruct fs as [|f fs]; [|destruct (FS _ F ltac:(discriminate)) as (_ & B & _); destruct (NL _ _ B R2)].
    exists 1. split; [right; right; auto|]. rewrite LT. cbn [length]. lia.
  - destruct O as (fs & -> & [(T & L)|(T & L)]); destruct (tries_expected b t l cfg closure _ TC SC HV _ _ _ _ _ _ T eq_refl TCs) as (R & LT & F).
    + destruct R as [(R & Y)|[(_ & _ & Y)|(_ & _ & r & Y)]]; [|discriminate|discriminate]. injection Y as ->.
      destruct fs as [|f fs]; [|destruct (FS _ F ltac:(discriminate)) as (B & _ & _); destruct (NL _ _ R B)].
      exists 1. split; [left; auto|]. rewrite LT. cbn [length]. lia.
    + destruct R as [(_ & Y)|[(R1 & R2 & Y)|(_ & _ & r & Y)]]; [discriminate| |discriminate]. injection Y as ->.
      exists (1 + max). split; [|rewrite LT; lia]. right. left. split; [exact R1|]. split; [exact R2|]. split; [|reflexivity]. f_equal.
      replace (Z.to_nat max) with (length fs) by lia. destruct fs as [|f fs]; [reflexivity|].
      destruct (FS _ F ltac:(discriminate)) as (_ & _ & ->). reflexivity.
Qed.

(** ** the laws *)
Lemma law_fun_pos f n : 4 <= n -> (0 < law_fun f (IZR n))%R.
Proof.
  intros Hn. apply IZR_le in Hn. assert (0 < ln (IZR n))%R by (rewrite <- ln_1; apply ln_increasing; lra).
  destruct f; cbn [law_fun]; try lra; try (apply pow_lt; lra). apply Rmult_lt_0_compat; lra.
Qed.
Lemma follows_pos c f n x : (0 < c)%R -> 4 <= n -> follows c f n x -> 0 < x.
Proof.
  intros Hc Hn [H _]. pose proof (law_fun_pos f n Hn). apply lt_IZR. apply Rlt_le_trans with (2 := H).
  apply Rmult_lt_0_compat; [lra|]. apply Rmult_lt_0_compat; lra.
Qed.
Lemma follows_ratio c f n1 n2 x1 x2 : (0 < c)%R -> 4 <= n1 -> 4 <= n2 -> follows c f n1 x1 -> follows c f n2 x2 ->
  (95 / 100 * (law_fun f (IZR n2) / law_fun f (IZR n1)) <= IZR x2 / IZR x1 <= 105 / 100 * (law_fun f (IZR n2) / law_fun f (IZR n1)))%R.
Proof.
  intros Hc H1 H2 F1 F2. pose proof (follows_pos _ _ _ _ Hc H1 F1) as P1. apply IZR_lt in P1.
  destruct F1 as [A1 B1]. destruct F2 as [A2 B2]. pose proof (law_fun_pos f n1 H1) as L1. pose proof (law_fun_pos f n2 H2) as L2.
  set (a := law_fun f (IZR n1)) in *. set (e := law_fun f (IZR n2)) in *.
  assert (Q : (0 < c * e)%R) by (apply Rmult_lt_0_compat; assumption).
  assert (Q1 : (0 < c * a)%R) by (apply Rmult_lt_0_compat; assumption).
  replace (e / a)%R with (c * e / (c * a))%R by (field; lra).
  generalize dependent (c * e)%R. generalize dependent (c * a)%R. intros ca Bc Ac Qa ce Ae Be Qe.
  split.
  - apply Rmult_le_reg_r with (IZR x1); [lra|]. replace (IZR x2 / IZR x1 * IZR x1)%R with (IZR x2) by (field; lra).
    apply Rle_trans with (95 / 100 * (ce / ca) * (102 / 100 * ca))%R.
    + apply Rmult_le_compat_l; [|exact Ac]. apply Rmult_le_pos; [lra|]. apply Rlt_le, Rdiv_lt_0_compat; lra.
    + replace (95 / 100 * (ce / ca) * (102 / 100 * ca))%R with (95 / 100 * (102 / 100) * ce)%R by (field; lra). lra.
  - apply Rmult_le_reg_r with (IZR x1); [lra|]. replace (IZR x2 / IZR x1 * IZR x1)%R with (IZR x2) by (field; lra).
    apply Rle_trans with (105 / 100 * (ce / ca) * (98 / 100 * ca))%R.
    + replace (105 / 100 * (ce / ca) * (98 / 100 * ca))%R with (105 / 100 * (98 / 100) * ce)%R by (field; lra). lra.
    + apply Rmult_le_compat_l; [|exact Bc]. apply Rmult_le_pos; [lra|]. apply Rlt_le, Rdiv_lt_0_compat; lra.
Qed.

(** the two sizes are far enough apart to tell [f] from its neighbours (only logarithms need it) *)
Definition distinguishable (t : tolerance) (f : law) (n1 n2 : Z) : Prop :=
  f = Llog \/ f = Lnlogn -> (107 / 100 * (1 + tolR t) <= ln (IZR n2) / ln (IZR n1))%R.

Lemma true_sane {U} (closure : behaviour U) H n1 n2 ct ft cs fs :
  roomy H -> clock_ok closure -> reset_ok closure ring_slots -> obeys closure ring_slots n1 n2 ct ft cs fs ->
  forall tr, Forall (true_call ring_slots closure H) (scalls tr) -> s_sane tr.
Proof.
  intros HR HC HRS HO tr F c Hc. rewrite Forall_forall in F. specialize (F c Hc).
  assert (K : forall q u u' pre ops rest d r m, H = pre ++ OSave :: ops ++ rest -> closure u q u' ops d r -> saves ops <= Z.of_nat ring_slots ->
     true_measurement ring_slots pre ops m -> duration_sane d /\ well_formed m /\ max_used_memory m < 2 ^ 62).
  { intros q u u' pre ops rest d r m EH CC SV T.
    assert (RP : roomy (pre ++ OSave :: ops)). { apply roomy_prefix with rest. rewrite <- app_assoc. cbn [app]. rewrite <- EH. exact HR. }
    split; [exact (HC _ _ _ _ _ _ CC)|]. split; [exact (true_measurement_wf _ _ _ _ (proj1 RP) T)|exact (true_measurement_small _ _ _ _ RP SV T)]. }
  destruct c as [[m|]|[x|]|[x|]]; auto; cbn [true_call] in F.
  - destruct F as (r & u & u' & pre & ops & rest & EH & CC & T). exact (K _ _ _ _ _ _ _ _ _ EH CC (HRS _ _ _ _ _ CC) T).
  - destruct F as (u & u' & pre & ops & rest & EH & CC & T). destruct (HO _ SPass1 n1 _ _ _ _ (or_introl eq_refl) CC) as (_ & SV & _). exact (K _ _ _ _ _ _ _ _ _ EH CC SV T).
  - destruct F as (u & u' & pre & ops & rest & EH & CC & T). destruct (HO _ SPass2 n2 _ _ _ _ (or_intror eq_refl) CC) as (_ & SV & _). exact (K _ _ _ _ _ _ _ _ _ EH CC SV T).
Qed.

(** The whole chain -- allocator, save points, clock, analyses, retries: if the time and the
    peak memory of the two passes follow the laws [ft] and [fs] within 2%, then the test
    - panics after one run, blaming space, iff [fs] is worse than allowed;
    - otherwise, if [ft] is worse than allowed, runs 1 + max_retry_attempts times and panics blaming time;
    - otherwise passes at the first run. *)
Theorem C77_end_to_end :
  forall U b t l cfg (closure : behaviour U) ct ft cs fs max h al outs u tr s' o,
  libm_accurate l ->
  4 <= st_n1 cfg -> 2 * st_n1 cfg <= st_n2 cfg < two32 ->
  distinguishable t ft (st_n1 cfg) (st_n2 cfg) -> distinguishable t fs (st_n1 cfg) (st_n2 cfg) ->
  (0 < ct)%R -> (0 < cs)%R ->
  obeys closure kept_slots (st_n1 cfg) (st_n2 cfg) ct ft cs fs -> clock_ok closure -> reset_ok closure kept_slots ->
  0 <= max < two32 ->
  arun b (ainit ring_slots) h = Val (al, outs) ->
  fexec (alloc_world b closure) (test_algorithm b t l cfg max) (MState al h u) tr s' o ->
  roomy (m_history s') ->
  exists runs, must_end cfg max (law_class ft) (law_class fs) o runs /\ Z.of_nat (length (scalls tr)) = 3 * runs.
Proof.
  change kept_slots with ring_slots. intros U b t l cfg closure ct ft cs fs max h al outs u tr s' o Hl N1 N2 D1 D2 Pt Ps HO HC HRS Hm E X HR.
  pose proof (C77_measurements_are_true _ _ _ _ _ _ _ _ _ _ _ _ _ _ E X (proj1 HR)) as TCs.
  assert (GEN : forall q n m r, (q, n) = (SPass1, st_n1 cfg) \/ (q, n) = (SPass2, st_n2 cfg) -> 4 <= n ->
     (exists u u' pre ops rest, m_history s' = pre ++ OSave :: ops ++ rest /\ closure u q u' ops (pr_time m) r /\ true_measurement ring_slots pre ops (pr_space m)) ->
     follows ct ft n (pr_time m) /\ duration_sane (pr_time m) /\ follows cs fs n (growth (pr_space m)) /\ space_ok (pr_space m)).
  { intros q n m r Q Hn (u0 & u' & pre & ops & rest & EH & CC & T). destruct (HO _ _ _ _ _ _ _ Q CC) as (F1 & SV & p & PK & F2).
    rewrite (true_measurement_growth _ _ _ _ _ SV T PK). split; [exact F1|]. split; [exact (HC _ _ _ _ _ _ CC)|]. split; [exact F2|].
    assert (RP : roomy (pre ++ OSave :: ops)). { apply roomy_prefix with rest. rewrite <- app_assoc. cbn [app]. rewrite <- EH. exact HR. }
    pose proof (true_measurement_wf _ _ _ _ (proj1 RP) T) as (W1 & W2 & W3 & W4 & W5 & W6). unfold space_ok. lia. }
  refine (expected_end b t l cfg closure max h al outs u tr s' o _ _ Hm _ _ E X (proj1 HR) (true_sane closure _ _ _ _ _ _ _ HR HC HRS HO _ TCs) _); [lia|lia|].
  intros m1 r1 m2 r2 C1 C2. cbn [true_call fst snd] in C1, C2.
  destruct (GEN _ _ _ _ (or_introl eq_refl) N1 C1) as (A1 & A2 & A3 & A4).
  destruct (GEN _ _ _ _ (or_intror eq_refl) ltac:(lia) C2) as (B1 & B2 & B3 & B4).
  assert (N4 : 4 <= st_n2 cfg) by lia.
  split.
  - exact (proj1 (C05_binary64_noisy_time t l ft (st_n1 cfg) (st_n2 cfg) (pr_time m1) (pr_time m2) Hl N1 N2 D1 A2 (follows_pos _ _ _ _ Pt N1 A1) B2
      (follows_pos _ _ _ _ Pt N4 B1) (follows_ratio _ _ _ _ _ _ Pt N1 N4 A1 B1))).
  - exact (proj1 (C05_binary64_noisy_space b t l fs (st_n1 cfg) (st_n2 cfg) (pr_space m1) (pr_space m2) Hl N1 N2 D2 A4 (follows_pos _ _ _ _ Ps N1 A3) B4
      (follows_pos _ _ _ _ Ps N4 B3) (follows_ratio _ _ _ _ _ _ Ps N1 N4 A3 B3))).
Qed.
Print Assumptions C77_end_to_end.

(** ** C78: an algorithm that never holds more memory than when it was called -- sorting in
    place, searching, anything under the feature [no_allocator_metrics] -- is classified
    WorseThanExponential, so that the test panics unless that very class is allowed *)
Theorem C78_no_growth_fails :
  forall U b t l cfg (closure : behaviour U) max h al outs u tr s' o,
  powf_zero_ok l -> 1 <= st_n1 cfg < two32 -> 1 <= st_n2 cfg < two32 ->
  (forall u q u' ops d r, q = SPass1 \/ q = SPass2 -> closure u q u' ops d r -> saves ops <= Z.of_nat kept_slots /\ peak ops 0) ->
  clock_ok closure -> reset_ok closure kept_slots ->
  0 <= max < two32 ->
  arun b (ainit ring_slots) h = Val (al, outs) ->
  fexec (alloc_world b closure) (test_algorithm b t l cfg max) (MState al h u) tr s' o ->
  roomy (m_history s') -> st_max_space cfg <> WorseThanExponential ->
  o = Val (StdPanicked [] (StdError Space (st_max_space cfg) WorseThanExponential)) /\ length (scalls tr) = 3%nat.
Proof.
  change kept_slots with ring_slots. intros U b t l cfg closure max h al outs u tr s' o Hl N1 N2 HP HC HRS Hm E X HR NW.
  pose proof (C77_measurements_are_true _ _ _ _ _ _ _ _ _ _ _ _ _ _ E X (proj1 HR)) as TCs.
  assert (GEN : forall q m r, q = SPass1 \/ q = SPass2 ->
     (exists u u' pre ops rest, m_history s' = pre ++ OSave :: ops ++ rest /\ closure u q u' ops (pr_time m) r /\ true_measurement ring_slots pre ops (pr_space m)) ->
     growth (pr_space m) = 0 /\ space_ok (pr_space m) /\ sane m).
  { intros q m r Q (u0 & u' & pre & ops & rest & EH & CC & T). destruct (HP _ _ _ _ _ _ Q CC) as (SV & PK).
    assert (RP : roomy (pre ++ OSave :: ops)). { apply roomy_prefix with rest. rewrite <- app_assoc. cbn [app]. rewrite <- EH. exact HR. }
    pose proof (true_measurement_wf _ _ _ _ (proj1 RP) T) as WF. pose proof WF as (W1 & W2 & W3 & W4 & W5 & W6).
    split; [exact (true_measurement_growth _ _ _ _ _ SV T PK)|]. split; [unfold space_ok; lia|].
    split; [exact (HC _ _ _ _ _ _ CC)|]. split; [exact WF|exact (true_measurement_small _ _ _ _ RP SV T)]. }
  assert (SA : s_sane tr).
  { intros c Hc. rewrite Forall_forall in TCs. specialize (TCs c Hc). destruct c as [[m|]|[x|]|[x|]]; auto; cbn [true_call] in TCs.
    - destruct TCs as (r & u0 & u' & pre & ops & rest & EH & CC & T). pose proof (HRS _ _ _ _ _ CC) as SV.
      assert (RP : roomy (pre ++ OSave :: ops)). { apply roomy_prefix with rest. rewrite <- app_assoc. cbn [app]. rewrite <- EH. exact HR. }
      split; [exact (HC _ _ _ _ _ _ CC)|]. split; [exact (true_measurement_wf _ _ _ _ (proj1 RP) T)|exact (true_measurement_small _ _ _ _ RP SV T)].
    - exact (proj2 (proj2 (GEN _ _ _ (or_introl eq_refl) TCs))).
    - exact (proj2 (proj2 (GEN _ _ _ (or_intror eq_refl) TCs))). }
  (* the time class is the same for the (only) run: reason on the run directly *)
  destruct (exec_grows b closure _ _ _ _ _ X) as [ext EH]. cbn [m_history] in EH. pose proof (proj1 HR) as HF0. rewrite EH in HF0. apply feasible_prefix in HF0.
  pose proof (no_panic_exec b closure _ _ _ _ _ X (init_inv _ _ _ _ HF0 E) (proj1 HR)) as X'. clear X.
  destruct (C45_no_other_end _ _ _ _ _ _ _ _ _ _ _ (no_panic_returns b closure) N1 N2 X' SA) as [e ->].
  pose proof (C45_outcome _ _ _ _ _ _ max _ _ _ _ Hm X') as O. cbv zeta in O.
  assert (RUN : forall s tr s1 v, fexec (no_panic_world b closure) (analyse_algorithm b t l cfg) s tr s1 (Val v) ->
     Forall (true_call ring_slots closure (m_history s')) (scalls tr) -> v = RFatal tt (StdError Space (st_max_space cfg) WorseThanExponential) /\ length (scalls tr) = 3%nat).
  { intros s0 tr0 s1 v X F. destruct (C45_each_run _ _ _ _ _ _ _ _ _ _ X) as [(v' & m0 & m1 & r1 & m2 & r2 & V & C & (tc & sc & HT & HS & D))|([p Y] & _)]; [|discriminate].
    apply val_inj in V. subst v'. rewrite C in F |- *. split; [|reflexivity].
    inversion F as [|? ? _ F1]; subst. inversion F1 as [|? ? P1 F2]; subst. inversion F2 as [|? ? P2 _]; subst.
    cbn [true_call fst snd] in P1, P2.
    destruct (GEN _ _ _ (or_introl eq_refl) P1) as (G1 & S1 & _). destruct (GEN _ _ _ (or_intror eq_refl) P2) as (G2 & S2 & _).
    rewrite (proj1 (C07_zero_usage b t l (st_n1 cfg) (st_n2 cfg) _ _ Hl N1 N2 S1 G1 S2 G2)) in HS. apply val_inj in HS. subst sc.
    assert (clt (st_max_space cfg) WorseThanExponential). { unfold clt. destruct (st_max_space cfg); try congruence; cbn; lia. }
    destruct D as [(_ & D)|[(D & _)|(D & _)]]; [exact D| |]; unfold clt, cle in *; lia. }
  assert (ALL : forall fs v, tries (fun _ : unit => analyse_algorithm b t l cfg) (no_panic_world b closure) (analyse_algorithm b t l cfg) (MState al h u) fs v tr s' ->
     fs = [] /\ v = RFatal tt (StdError Space (st_max_space cfg) WorseThanExponential) /\ length (scalls tr) = 3%nat).
  { intros fs v T. inversion T as [p s0 tr0 s0' v0 X|p s0 tr0 s1 i e0 fs0 v0 tr1 s0' X T']; subst.
    - destruct (RUN _ _ _ _ X TCs) as [-> L]. auto.
    - rewrite scalls_app in TCs. apply Forall_app in TCs. destruct (RUN _ _ _ _ X (proj1 TCs)) as [Y _]. discriminate. }
  destruct e as [|es e].
  - destruct O as (fs & r & T & _). destruct (ALL _ _ T) as (_ & Y & _). discriminate.
  - destruct O as (fs & -> & [(T & _)|(T & _)]); destruct (ALL _ _ T) as (-> & Y & L); [|discriminate]. injection Y as ->. auto.
Qed.
Print Assumptions C78_no_growth_fails.

(** ... in particular if the metrics allocator is not the global allocator (features.rs:35-38):
    the only calls it gets are the library's own save points and queries *)
Theorem C78_no_allocator_metrics :
  forall U b t l cfg (closure : behaviour U) max tr u s' o,
  powf_zero_ok l -> 1 <= st_n1 cfg < two32 -> 1 <= st_n2 cfg < two32 ->
  (forall u q u' ops d r, closure u q u' ops d r -> ops = []) -> clock_ok closure ->
  0 <= max < two32 ->
  fexec (alloc_world b closure) (test_algorithm b t l cfg max) (MState (ainit ring_slots) [] u) tr s' o ->
  Z.of_nat (length (m_history s')) < two32 -> st_max_space cfg <> WorseThanExponential ->
  o = Val (StdPanicked [] (StdError Space (st_max_space cfg) WorseThanExponential)) /\ length (scalls tr) = 3%nat.
Proof.
  intros U b t l cfg closure max tr u s' o Hl N1 N2 HP HC Hm X HL NW.
  assert (ONLY : forall A (m : fprog sans A) s tr s1 o, fexec (alloc_world b closure) m s tr s1 o -> Forall (eq OSave) (m_history s) -> Forall (eq OSave) (m_history s1)).
  { intros A m. induction m as [a|p|q k IH]; intros s0 tr0 s1 o0 Y F; [destruct Y as (_ & -> & _); exact F|destruct Y as (_ & -> & _); exact F|].
    assert (ST : forall s2 (a : option (sans q)), alloc_world b closure s0 q s2 a -> Forall (eq OSave) (m_history s2)).
    { intros s2 a W. unfold alloc_world in W. destruct q; [destruct W as (x & W & _)| | |]; destruct W as (ops & d & r & CC & HH & _); rewrite HH, (HP _ _ _ _ _ _ CC); apply Forall_app; split; auto. }
    destruct Y as [(a & s2 & tr' & W & Y & _)|(W & _)]; [apply (IH a _ _ _ _ Y), (ST _ _ W)|exact (ST _ _ W)]. }
  pose proof (ONLY _ _ _ _ _ _ X (Forall_nil _)) as F. cbn [m_history] in F.
  assert (TOT : forall f, f OSave = 0 -> forall h, Forall (eq OSave) h -> total f h = 0).
  { intros f F0 h0 FF. unfold total. induction FF as [|x h0 <- FF IH]; [reflexivity|]. cbn [map sum fold_right]. rewrite F0. unfold sum in IH. rewrite IH. reflexivity. }
  assert (LV : forall x, In x (levels [] (m_history s')) -> x = 0).
  { intros x Hx. unfold levels in Hx. apply in_map_iff in Hx. destruct Hx as (i & <- & _). apply TOT; [reflexivity|].
    cbn [app]. rewrite Forall_forall in F |- *. intros y Hy. apply F. rewrite <- (firstn_skipn i). apply in_or_app. left. exact Hy. }
  assert (SV : forall h, Forall (eq OSave) h -> saves h = Z.of_nat (length h)).
  { intros h0 FF. unfold saves, total. induction FF as [|x h0 <- FF IH]; [reflexivity|]. cbn [map sum fold_right length is_save]. unfold sum in IH. rewrite IH. lia. }
  refine (C78_no_growth_fails U b t l cfg closure max [] (ainit ring_slots) [] u tr s' o Hl N1 N2 _ HC _ Hm eq_refl X _ NW).
  - intros u0 q u' ops d r _ CC. rewrite (HP _ _ _ _ _ _ CC). split; [cbn; lia|]. unfold peak, levels. cbn. split; [left; reflexivity|]. intros x [<-|[]]. cbn. lia.
  - intros u0 u' ops d r CC. rewrite (HP _ _ _ _ _ _ CC). cbn; lia.
  - pose proof two64_val as V64. pose proof two32_val as V32. split; [|intros x Hx; rewrite (LV x Hx); lia].
    split; [revert F; apply Forall_impl; intros x <-; exact I|]. split; [intros x Hx; rewrite (LV x Hx); lia|]. split; [lia|].
    rewrite !(TOT _ eq_refl _ F), (SV _ F). repeat split; lia.
Qed.
Print Assumptions C78_no_allocator_metrics.
