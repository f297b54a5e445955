(** * Property theorems: the shipped (binary64) analyses, for every accurate math library,
    and the complete decision tables (C03, C04, C05, C11 in binary64; C70-C73).

    [libm_accurate l]: the platform's log2 and powi have relative error at most 2^-49 on the
    arguments that can occur (16 units in the last place; real libraries guarantee 1 or 2).
    [mg] = 2^-40 is the relative width of the band around a boundary in which rounding could
    matter.  [IZR t2 / IZR t1] is the exact ratio of the two measured durations,
    [IZR (growth m2) / IZR (growth m1)] the exact ratio of the two measured peak growths. *)
From Coq Require Import ZArith Reals Lra Lia Bool List.
From Flocq Require Import Core.Core IEEE754.BinarySingleNaN.
From Verif Require Import Machine Complexity Floats Analysis GrowthSpec AnalysisF64 AnalysisF64b
  AnalysisF64c AnalysisF64d AnalysisF64e AnalysisR AnalysisTable DurationProofs Bridge Bridge2 Bridge3 Bridge4 Demo.
Import ListNotations.
Open Scope R_scope.

Example mg_value : mg = / 2 ^ 40. Proof. unfold mg. f_equal. simpl. ring. Qed.
Example accurate_library_exists : libm_accurate good_libm. Proof. exact good_libm_accurate. Qed.

Definition size_ok (n : Z) : Prop := (2 <= n < two32)%Z.
Definition time_ratio (t1 t2 : duration) : R := IZR t2 / IZR t1.
Definition space_ratio (m1 m2 : space_pass) : R := IZR (growth m2) / IZR (growth m1).

Lemma dur_ratio t1 t2 : (0 < t1)%Z -> IZR t2 / 1000000000 / (IZR t1 / 1000000000) = time_ratio t1 t2.
Proof. intros H. apply IZR_lt in H. unfold time_ratio. field. lra. Qed.
Lemma minmax n1 n2 : size_ok n1 -> size_ok n2 -> size_ok (Z.min n1 n2) /\ size_ok (Z.max n1 n2).
Proof. unfold size_ok. lia. Qed.
Lemma as_secs_zero_int : as_secs_f64 0 = f64_of_int 0. Proof. apply as_secs_zero. Qed.

(** ** C03: no false alarm *)
Theorem C03_binary64_time : forall t l f (n1 n2 : Z) (t1 t2 : duration),
  libm_accurate l -> size_ok n1 -> size_ok n2 -> duration_sane t1 -> (0 < t1)%Z -> duration_sane t2 ->
  (time_ratio t1 t2 <= (1 + tolR t) * (1 - mg) * (law_fun f (IZR n2) / law_fun f (IZR n1)) ->
     cle (analyse_time_complexity t l n1 n2 t1 t2) (law_class f)) /\
  (time_ratio t1 t2 <= (1 + tolR t) * (1 - mg) * (law_fun f (IZR (Z.max n1 n2)) / law_fun f (IZR (Z.min n1 n2))) ->
     cle (analyse_time_complexity_constant_set t l n1 n2 t1 t2) (law_class f)).
Proof.
  intros t l f n1 n2 t1 t2 Hl H1 H2 S1 P1 S2. destruct (minmax n1 n2 H1 H2) as [Hm HM].
  destruct (Z.eq_dec t2 0) as [->|N].
  - destruct (as_secs_spec t1 S1) as [F1 _]. pose proof (as_secs_pos t1 S1 ltac:(lia)) as P.
    unfold analyse_time_complexity, analyse_time_complexity_constant_set. rewrite as_secs_zero_int.
    rewrite !analyse64_zero_second by assumption. unfold cle. split; intros _; destruct f; cbn; lia.
  - assert (P2 : (0 < t2)%Z) by (destruct S2; lia). rewrite <- (dur_ratio t1 t2 P1). split; intros H.
    + exact (core_low t l n1 n2 _ _ _ _ Hl H1 H2 (ap_duration t1 S1 P1) (ap_duration t2 S2 P2) f H).
    + exact (core_low t l _ _ _ _ _ _ Hl Hm HM (ap_duration t1 S1 P1) (ap_duration t2 S2 P2) f H).
Qed.
Print Assumptions C03_binary64_time.

Theorem C03_binary64_space : forall b t l f (n1 n2 : Z) (m1 m2 : space_pass),
  libm_accurate l -> size_ok n1 -> size_ok n2 -> space_ok m1 -> (0 < growth m1)%Z -> space_ok m2 ->
  (space_ratio m1 m2 <= (1 + tolR t) * (1 - mg) * (law_fun f (IZR n2) / law_fun f (IZR n1)) ->
     exists c, analyse_space_complexity b t l n1 n2 m1 m2 = Val c /\ cle c (law_class f)) /\
  (space_ratio m1 m2 <= (1 + tolR t) * (1 - mg) * (law_fun f (IZR (Z.max n1 n2)) / law_fun f (IZR (Z.min n1 n2))) ->
     exists c, analyse_space_complexity_constant_set b t l n1 n2 m1 m2 = Val c /\ cle c (law_class f)).
Proof.
  intros b t l f n1 n2 m1 m2 Hl H1 H2 S1 P1 S2. destruct (minmax n1 n2 H1 H2) as [Hm HM].
  unfold analyse_space_complexity, analyse_space_complexity_constant_set. rewrite (max_growth_ok b m1 S1), (max_growth_ok b m2 S2). cbn [bind].
  pose proof (growth_bound m1 S1) as G1. pose proof (growth_bound m2 S2) as G2. unfold space_ratio.
  destruct (Z.eq_dec (growth m2) 0) as [E|N].
  - rewrite E. destruct (f64_growth_pos m1 S1 P1) as [F1 Q1].
    split; intros _; eexists; (split; [reflexivity|]); rewrite analyse64_zero_second by assumption; unfold cle; destruct f; cbn; lia.
  - split; intros H; eexists; (split; [reflexivity|]).
    + exact (core_low t l n1 n2 _ _ _ _ Hl H1 H2 (ap_growth _ (conj P1 (proj2 G1))) (ap_growth (growth m2) ltac:(lia)) f H).
    + exact (core_low t l _ _ _ _ _ _ Hl Hm HM (ap_growth _ (conj P1 (proj2 G1))) (ap_growth (growth m2) ltac:(lia)) f H).
Qed.
Print Assumptions C03_binary64_space.

(** 50 ms then 108 ms, sets of 1000 and 2000: at most O(n) for any accurate library *)
Example C03_binary64_example : duration_sane 50000000 /\ duration_sane 108000000 /\ size_ok 1000 /\ size_ok 2000 /\
  time_ratio 50000000 108000000 <= (1 + tolR Tol10) * (1 - mg) * (law_fun Ln (IZR 2000) / law_fun Ln (IZR 1000)).
Proof. unfold duration_sane, size_ok, time_ratio, law_fun, tolR, mg, two32. rewrite nps_val. repeat split; try lia. lra. Qed.

(** ** C04: no missed regression *)
Theorem C04_binary64_time : forall t l f (n1 n2 : Z) (t1 t2 : duration),
  libm_accurate l -> size_ok n1 -> size_ok n2 -> (n1 <= n2)%Z -> ~ (n1 = 2 /\ n2 = 3)%Z ->
  duration_sane t1 -> (0 < t1)%Z -> duration_sane t2 ->
  (1 + tolR t) * (1 + mg) * (law_fun f (IZR n2) / law_fun f (IZR n1)) <= time_ratio t1 t2 ->
  clt (law_class f) (analyse_time_complexity t l n1 n2 t1 t2) /\
  clt (law_class f) (analyse_time_complexity_constant_set t l n1 n2 t1 t2) /\
  clt (law_class f) (analyse_time_complexity_constant_set t l n2 n1 t1 t2).
Proof.
  intros t l f n1 n2 t1 t2 Hl H1 H2 Hle N23 S1 P1 S2 H. rewrite <- (dur_ratio t1 t2 P1) in H.
  assert (P2 : (0 < t2)%Z).
  { destruct (Z.eq_dec t2 0) as [->|]; [|destruct S2; lia]. exfalso. unfold size_ok in *. assert (1 < IZR n1) by (apply (IZR_lt 1); lia). assert (1 < IZR n2) by (apply (IZR_lt 1); lia).
    pose proof (ratio_pos f (IZR n1) (IZR n2) ltac:(assumption) ltac:(assumption)) as RP. unfold law_ratio in RP. pose proof (tolR_bounds t).
    assert (Z : 0 / 1000000000 / (IZR t1 / 1000000000) = 0) by (unfold Rdiv; rewrite !Rmult_0_l; reflexivity). rewrite Z in H.
    assert (0 < (1 + tolR t) * (1 + mg)) by (unfold mg; nra). assert (0 < (1 + tolR t) * (1 + mg) * (law_fun f (IZR n2) / law_fun f (IZR n1))) by (apply Rmult_lt_0_compat; assumption). lra. }
  assert (OK : sizes_ok n1 n2) by (unfold sizes_ok, size_ok in *; lia).
  pose proof (core_high t l n1 n2 _ _ _ _ Hl H1 H2 (ap_duration t1 S1 P1) (ap_duration t2 S2 P2) f OK H) as C.
  unfold analyse_time_complexity_constant_set. rewrite (Z.min_comm n2), (Z.max_comm n2), Z.min_l, Z.max_r by exact Hle. auto.
Qed.
Print Assumptions C04_binary64_time.

Theorem C04_binary64_space : forall b t l f (n1 n2 : Z) (m1 m2 : space_pass),
  libm_accurate l -> size_ok n1 -> size_ok n2 -> (n1 <= n2)%Z -> ~ (n1 = 2 /\ n2 = 3)%Z ->
  space_ok m1 -> (0 < growth m1)%Z -> space_ok m2 -> (0 < growth m2)%Z ->
  (1 + tolR t) * (1 + mg) * (law_fun f (IZR n2) / law_fun f (IZR n1)) <= space_ratio m1 m2 ->
  exists c, analyse_space_complexity b t l n1 n2 m1 m2 = Val c /\
            analyse_space_complexity_constant_set b t l n1 n2 m1 m2 = Val c /\ clt (law_class f) c.
Proof.
  intros b t l f n1 n2 m1 m2 Hl H1 H2 Hle N23 S1 P1 S2 P2 H.
  unfold analyse_space_complexity, analyse_space_complexity_constant_set. rewrite (max_growth_ok b m1 S1), (max_growth_ok b m2 S2). cbn [bind].
  pose proof (growth_bound m1 S1) as G1. pose proof (growth_bound m2 S2) as G2. rewrite Z.min_l, Z.max_r by exact Hle.
  assert (OK : sizes_ok n1 n2) by (unfold sizes_ok, size_ok in *; lia).
  eexists. split; [reflexivity|]. split; [reflexivity|].
  exact (core_high t l n1 n2 _ _ _ _ Hl H1 H2 (ap_growth _ (conj P1 (proj2 G1))) (ap_growth _ (conj P2 (proj2 G2))) f OK H).
Qed.
Print Assumptions C04_binary64_space.

Example C04_binary64_example : size_ok 100 /\ size_ok 200 /\ duration_sane 100000 /\ duration_sane 600000 /\
  (1 + tolR Tol25) * (1 + mg) * (law_fun Ln2 (IZR 200) / law_fun Ln2 (IZR 100)) <= time_ratio 100000 600000.
Proof. unfold duration_sane, size_ok, time_ratio, law_fun, tolR, mg, two32. rewrite nps_val. repeat split; try lia. lra. Qed.

(** ** C05: costs following a law, measured with up to 5% of noise, get exactly its class *)
Theorem C05_binary64_noisy_time : forall t l f (n1 n2 : Z) (t1 t2 : duration),
  libm_accurate l -> (4 <= n1)%Z -> (2 * n1 <= n2 < two32)%Z ->
  (f = Llog \/ f = Lnlogn -> 107 / 100 * (1 + tolR t) <= ln (IZR n2) / ln (IZR n1)) ->
  duration_sane t1 -> (0 < t1)%Z -> duration_sane t2 -> (0 < t2)%Z ->
  95 / 100 * (law_fun f (IZR n2) / law_fun f (IZR n1)) <= time_ratio t1 t2 <= 105 / 100 * (law_fun f (IZR n2) / law_fun f (IZR n1)) ->
  analyse_time_complexity t l n1 n2 t1 t2 = law_class f /\
  analyse_time_complexity_constant_set t l n1 n2 t1 t2 = law_class f.
Proof.
  intros t l f n1 n2 t1 t2 Hl H1 H2 HS S1 P1 S2 P2 H. rewrite <- (dur_ratio t1 t2 P1) in H.
  assert (K : analyse_time_complexity t l n1 n2 t1 t2 = law_class f).
  { refine (core_noisy t l n1 n2 _ _ _ _ Hl _ _ (ap_duration t1 S1 P1) (ap_duration t2 S2 P2) f _ _ HS H); try lia; [apply IZR_le; lia|].
    rewrite <- mult_IZR. apply IZR_le. lia. }
  split; [exact K|]. unfold analyse_time_complexity_constant_set. rewrite Z.min_l, Z.max_r by lia. exact K.
Qed.
Print Assumptions C05_binary64_noisy_time.

Theorem C05_binary64_noisy_space : forall b t l f (n1 n2 : Z) (m1 m2 : space_pass),
  libm_accurate l -> (4 <= n1)%Z -> (2 * n1 <= n2 < two32)%Z ->
  (f = Llog \/ f = Lnlogn -> 107 / 100 * (1 + tolR t) <= ln (IZR n2) / ln (IZR n1)) ->
  space_ok m1 -> (0 < growth m1)%Z -> space_ok m2 -> (0 < growth m2)%Z ->
  95 / 100 * (law_fun f (IZR n2) / law_fun f (IZR n1)) <= space_ratio m1 m2 <= 105 / 100 * (law_fun f (IZR n2) / law_fun f (IZR n1)) ->
  analyse_space_complexity b t l n1 n2 m1 m2 = Val (law_class f) /\
  analyse_space_complexity_constant_set b t l n1 n2 m1 m2 = Val (law_class f).
Proof.
  intros b t l f n1 n2 m1 m2 Hl H1 H2 HS S1 P1 S2 P2 H.
  unfold analyse_space_complexity, analyse_space_complexity_constant_set. rewrite (max_growth_ok b m1 S1), (max_growth_ok b m2 S2). cbn [bind].
  pose proof (growth_bound m1 S1) as G1. pose proof (growth_bound m2 S2) as G2. rewrite Z.min_l, Z.max_r by lia.
  assert (K : analyse64 t l (f64_of_int (growth m1)) (f64_of_int (growth m2)) (f64_of_int n1) (f64_of_int n2) = law_class f); [|rewrite K; auto].
  refine (core_noisy t l n1 n2 _ _ _ _ Hl _ _ (ap_growth _ (conj P1 (proj2 G1))) (ap_growth _ (conj P2 (proj2 G2))) f _ _ HS H); try lia; [apply IZR_le; lia|].
  rewrite <- mult_IZR. apply IZR_le. lia.
Qed.
Print Assumptions C05_binary64_noisy_space.

(** sets of 1024 and 4096, 3.1 ms then 50.4 ms (16.26 times): O(n^2) although 1.6% off *)
Example C05_binary64_example : (4 <= 1024)%Z /\ (2 * 1024 <= 4096 < two32)%Z /\ duration_sane 3100000 /\ duration_sane 50400000 /\
  95 / 100 * (law_fun Ln2 (IZR 4096) / law_fun Ln2 (IZR 1024)) <= time_ratio 3100000 50400000 <= 105 / 100 * (law_fun Ln2 (IZR 4096) / law_fun Ln2 (IZR 1024)).
Proof. unfold duration_sane, time_ratio, law_fun, two32. rewrite nps_val. repeat split; try lia; lra. Qed.

(** ** C11 *)
Theorem C11_log_cost : forall t c (n : nat), 0 < c -> 32768 <= INR n ->
  let r := resizingR t (total_cost (fun i => c * ln (INR (S i))) 0 n) (total_cost (fun i => c * ln (INR (S i))) n n) (INR n) in
  cle O1 r /\ cle r OLogN.
Proof. exact resizingR_log. Qed.
Print Assumptions C11_log_cost.

(** the two durations are within 5% of the ratio of constant (1), resp. linear, costs
    (total_cost of i+1 over n..2n divided by the one over 0..n is (3n+1)/(n+1)) *)
Lemma linear_total_ratio c n : 0 < c -> (1 <= n)%nat ->
  total_cost (fun i => c * INR (S i)) n n / total_cost (fun i => c * INR (S i)) 0 n = (3 * INR n + 1) / (INR n + 1).
Proof.
  intros Hc Hn. rewrite !total_linear. change (INR 0) with 0. assert (1 <= INR n) by (apply (le_INR 1); exact Hn).
  field. repeat split; try lra; nra.
Qed.
Theorem C11_binary64_noisy_time : forall t l (n : Z) (t1 t2 : duration),
  libm_accurate l -> duration_sane t1 -> (0 < t1)%Z -> duration_sane t2 -> (0 < t2)%Z ->
  (size_ok n -> 95 / 100 <= time_ratio t1 t2 <= 105 / 100 ->
     analyse_time_complexity_set_resizing t l n t1 t2 = O1) /\
  ((12 <= n < two32)%Z ->
     95 / 100 * ((3 * IZR n + 1) / (IZR n + 1)) <= time_ratio t1 t2 <= 105 / 100 * ((3 * IZR n + 1) / (IZR n + 1)) ->
     analyse_time_complexity_set_resizing t l n t1 t2 = ON).
Proof.
  intros t l n t1 t2 Hl S1 P1 S2 P2. rewrite <- (dur_ratio t1 t2 P1). split; intros Hn H.
  - exact (resizing64_const_noise t l n _ _ _ _ Hl (ap_duration t1 S1 P1) (ap_duration t2 S2 P2) Hn H).
  - exact (resizing64_linear_noise t l n _ _ _ _ Hl (ap_duration t1 S1 P1) (ap_duration t2 S2 P2) Hn H).
Qed.
Print Assumptions C11_binary64_noisy_time.

Theorem C11_binary64_noisy_space : forall b t l (n : Z) (m1 m2 : space_pass),
  libm_accurate l -> space_ok m1 -> (0 < growth m1)%Z -> space_ok m2 -> (0 < growth m2)%Z ->
  (size_ok n -> 95 / 100 <= space_ratio m1 m2 <= 105 / 100 ->
     analyse_space_complexity_set_resizing b t l n m1 m2 = Val O1) /\
  ((12 <= n < two32)%Z ->
     95 / 100 * ((3 * IZR n + 1) / (IZR n + 1)) <= space_ratio m1 m2 <= 105 / 100 * ((3 * IZR n + 1) / (IZR n + 1)) ->
     analyse_space_complexity_set_resizing b t l n m1 m2 = Val ON).
Proof.
  intros b t l n m1 m2 Hl S1 P1 S2 P2. unfold analyse_space_complexity_set_resizing. rewrite (max_growth_ok b m1 S1), (max_growth_ok b m2 S2). cbn [bind].
  pose proof (growth_bound m1 S1) as G1. pose proof (growth_bound m2 S2) as G2. split; intros Hn H.
  - rewrite (resizing64_const_noise t l n _ _ _ _ Hl (ap_growth _ (conj P1 (proj2 G1))) (ap_growth _ (conj P2 (proj2 G2))) Hn H). reflexivity.
  - rewrite (resizing64_linear_noise t l n _ _ _ _ Hl (ap_growth _ (conj P1 (proj2 G1))) (ap_growth _ (conj P2 (proj2 G2))) Hn H). reflexivity.
Qed.
Print Assumptions C11_binary64_noisy_space.

Example C11_binary64_example : (12 <= 1000 < two32)%Z /\ duration_sane 1000000 /\ duration_sane 3050000 /\
  95 / 100 * ((3 * IZR 1000 + 1) / (IZR 1000 + 1)) <= time_ratio 1000000 3050000 <= 105 / 100 * ((3 * IZR 1000 + 1) / (IZR 1000 + 1)).
Proof. unfold duration_sane, time_ratio, two32. rewrite nps_val. repeat split; try lia; lra. Qed.

(** ** C70: binary64 and the reals agree *)
Theorem C70_agrees_time : forall t l (n1 n2 : Z) (t1 t2 : duration),
  libm_accurate l -> size_ok n1 -> size_ok n2 -> duration_sane t1 -> (0 < t1)%Z -> duration_sane t2 -> (0 < t2)%Z ->
  (forall f, away t (time_ratio t1 t2 / (law_fun f (IZR n2) / law_fun f (IZR n1)))) ->
  let shipped := analyse_time_complexity t l n1 n2 t1 t2 in
  let ideal := analyseR t (IZR t1 / 1000000000) (IZR t2 / 1000000000) (IZR n1) (IZR n2) in
  shipped = ideal \/ (clt ON4 shipped /\ clt ON4 ideal).
Proof.
  intros t l n1 n2 t1 t2 Hl H1 H2 S1 P1 S2 P2 A. cbv zeta. rewrite <- (dur_ratio t1 t2 P1) in A.
  exact (core_agree t l n1 n2 _ _ _ _ Hl H1 H2 (ap_duration t1 S1 P1) (ap_duration t2 S2 P2) A).
Qed.
Print Assumptions C70_agrees_time.

Theorem C70_agrees_space : forall b t l (n1 n2 : Z) (m1 m2 : space_pass),
  libm_accurate l -> size_ok n1 -> size_ok n2 -> space_ok m1 -> (0 < growth m1)%Z -> space_ok m2 -> (0 < growth m2)%Z ->
  (forall f, away t (space_ratio m1 m2 / (law_fun f (IZR n2) / law_fun f (IZR n1)))) ->
  let ideal := analyseR t (IZR (growth m1)) (IZR (growth m2)) (IZR n1) (IZR n2) in
  exists shipped, analyse_space_complexity b t l n1 n2 m1 m2 = Val shipped /\
    (shipped = ideal \/ (clt ON4 shipped /\ clt ON4 ideal)).
Proof.
  intros b t l n1 n2 m1 m2 Hl H1 H2 S1 P1 S2 P2 A. cbv zeta. unfold analyse_space_complexity. rewrite (max_growth_ok b m1 S1), (max_growth_ok b m2 S2). cbn [bind].
  pose proof (growth_bound m1 S1) as G1. pose proof (growth_bound m2 S2) as G2. eexists. split; [reflexivity|].
  exact (core_agree t l n1 n2 _ _ _ _ Hl H1 H2 (ap_growth _ (conj P1 (proj2 G1))) (ap_growth _ (conj P2 (proj2 G2))) A).
Qed.
Print Assumptions C70_agrees_space.

(** a quadratic measurement (x4 when n doubles from 100) is away from every boundary but the
    log ones, whose ratio is between 1 and 4/3 *)
Example C70_example : forall f, away Tol10 (time_ratio 1000000 4000000 / (law_fun f (IZR 100) / law_fun f (IZR 50))).
Proof.
  intros f. pose proof (log_ratio_bounds_3 50 100 ltac:(lra) ltac:(lra)) as [L1 _].
  assert (E : forall x, time_ratio 1000000 4000000 / x = 4 / x) by (intros x; unfold time_ratio, Rdiv; f_equal; lra). rewrite E.
  assert (G := ratio_log_gap 50 100 ltac:(lra) ltac:(lra)).
  destruct (law_ratio_forms 50 100 ltac:(lra)) as (E0 & E1 & E2 & E3 & E4 & E5 & E6). cbv zeta in *.
  change (law_fun f (IZR 100) / law_fun f (IZR 50)) with (law_ratio f 50 100).
  assert (Q2 : 100 / 50 = 2) by field. rewrite Q2 in *.
  unfold away, tolR, mg. destruct f; rewrite ?E0, ?E1, ?E2, ?E3, ?E4, ?E5, ?E6.
  - right. right. lra.
  - right. right. apply le_div_iff; lra.
  - right. right. lra.
  - right. right. apply le_div_iff; lra.
  - right. left. lra.
  - left. lra.
  - left. lra.
Qed.

(** ** C71: the complete decision table of the general analysis (over the reals) *)
Theorem C71_decision_table : forall t (u1 u2 n1 n2 : R), 1 < n1 -> 1 < n2 ->
  let X := u2 / u1 in
  let expected f := law_fun f n2 / law_fun f n1 in
  let all_smaller_laws_exceeded f :=
    forall g, clt (law_class g) (law_class f) -> (1 + tolR t) * expected g < X in
  let answer := analyseR t u1 u2 n1 n2 in
  (forall f, answer = law_class f <->
     all_smaller_laws_exceeded f /\ (1 - tolR t) * expected f <= X <= (1 + tolR t) * expected f) /\
  (forall f, answer = below_class f <->
     all_smaller_laws_exceeded f /\ X < (1 - tolR t) * expected f) /\
  (clt ON4 answer <-> forall f, (1 + tolR t) * expected f < X).
Proof.
  intros t u1 u2 n1 n2 H1 H2. cbv zeta. split; [|split].
  - intros f. exact (table_exact t u1 u2 n1 n2 H1 H2 f).
  - intros f. exact (table_below t u1 u2 n1 n2 H1 H2 f).
  - exact (table_beyond t u1 u2 n1 n2 H1 H2).
Qed.
Print Assumptions C71_decision_table.

Theorem C71_exponential_levels : forall t (u1 u2 n1 n2 : R), 1 < n1 -> 1 < n2 ->
  let answer := analyseR t u1 u2 n1 n2 in
  let E := u2 / Rpower u1 (n2 / n1) in
  clt ON4 answer ->
  (answer = BetweenON4AndOkN <-> E < 1 - tolR t) /\
  (answer = OkN <-> 1 - tolR t <= E <= 1 + tolR t) /\
  (answer = WorseThanExponential <-> 1 + tolR t < E).
Proof. intros t u1 u2 n1 n2 H1 H2. exact (table_exponential t u1 u2 n1 n2 H1 H2). Qed.
Print Assumptions C71_exponential_levels.

(** an instance of each kind of row: 108 after 50 is O(n), 130 after 50 is between O(n) and O(n log n)
    only if the logarithm row allows it; 50 -> 30 is better than O(1) *)
Example C71_example : analyseR Tol10 50 30 100 200 = BetterThanO1.
Proof.
  destruct (C71_decision_table Tol10 50 30 100 200 ltac:(lra) ltac:(lra)) as (_ & T & _). cbv zeta in T.
  apply (T Lconst). split.
  - intros g C. unfold clt in C. destruct g; cbn in C; lia.
  - unfold tolR, law_fun. lra.
Qed.

(** ** C72: the complete decision table of the set-resizing analysis *)
Theorem C72_resizing_table : forall t (u1 u2 n : R), 0 < u1 -> 0 < u2 -> 2 <= n ->
  let X := u2 / u1 in let L := ln (3 * n) / ln n in let T := tolR t in
  let answer := resizingR t u1 u2 n in
  (X * (1 + T) < 1 -> answer = BetterThanO1) /\
  (1 <= X * (1 + T) -> X <= 1 + T -> answer = O1) /\
  (1 + T < X -> X < L -> answer = BetweenO1AndOLogN) /\
  (1 + T < X -> L <= X < (1 + T) * L -> answer = OLogN) /\
  ((1 + T) * L <= X -> 3 * (1 - T) <= X <= 3 * (1 + T) -> answer = ON) /\
  ((1 + T) * L <= X -> X < 3 * (1 - T) -> answer = BetweenOLogNAndON) /\
  ((1 + T) * L <= X -> 3 * (1 + T) < X -> answer = BetweenONAndONLogN).
Proof. intros t u1 u2 n P1 P2 Hn. exact (resizingR_table t u1 u2 n P1 P2 Hn). Qed.
Print Assumptions C72_resizing_table.

Theorem C72_resizing_table_binary64_time : forall t l (n : Z) (t1 t2 : duration),
  libm_accurate l -> size_ok n -> duration_sane t1 -> (0 < t1)%Z -> duration_sane t2 -> (0 < t2)%Z ->
  let X := time_ratio t1 t2 in let L := ln (3 * IZR n) / ln (IZR n) in let T := tolR t in
  let answer := analyse_time_complexity_set_resizing t l n t1 t2 in
  (X * (1 + T) <= 1 - mg -> answer = BetterThanO1) /\
  (1 + mg <= X * (1 + T) -> X <= (1 + T) * (1 - mg) -> answer = O1) /\
  ((1 + T) * (1 + mg) <= X -> X <= L * (1 - mg) -> answer = BetweenO1AndOLogN) /\
  ((1 + T) * (1 + mg) <= X -> L * (1 + mg) <= X <= (1 + T) * L * (1 - mg) -> answer = OLogN) /\
  ((1 + T) * L * (1 + mg) <= X -> 3 * (1 - T) * (1 + mg) <= X <= 3 * (1 + T) * (1 - mg) -> answer = ON) /\
  ((1 + T) * L * (1 + mg) <= X -> X <= 3 * (1 - T) * (1 - mg) -> answer = BetweenOLogNAndON) /\
  ((1 + T) * L * (1 + mg) <= X -> 3 * (1 + T) * (1 + mg) <= X -> answer = BetweenONAndONLogN).
Proof.
  intros t l n t1 t2 Hl Hn S1 P1 S2 P2. cbv zeta. rewrite <- (dur_ratio t1 t2 P1).
  exact (resizing64_table t l n _ _ _ _ Hl Hn (ap_duration t1 S1 P1) (ap_duration t2 S2 P2)).
Qed.
Print Assumptions C72_resizing_table_binary64_time.

Theorem C72_resizing_table_binary64_space : forall b t l (n : Z) (m1 m2 : space_pass),
  libm_accurate l -> size_ok n -> space_ok m1 -> (0 < growth m1)%Z -> space_ok m2 -> (0 < growth m2)%Z ->
  let X := space_ratio m1 m2 in let L := ln (3 * IZR n) / ln (IZR n) in let T := tolR t in
  exists answer, analyse_space_complexity_set_resizing b t l n m1 m2 = Val answer /\
  (X * (1 + T) <= 1 - mg -> answer = BetterThanO1) /\
  (1 + mg <= X * (1 + T) -> X <= (1 + T) * (1 - mg) -> answer = O1) /\
  ((1 + T) * (1 + mg) <= X -> X <= L * (1 - mg) -> answer = BetweenO1AndOLogN) /\
  ((1 + T) * (1 + mg) <= X -> L * (1 + mg) <= X <= (1 + T) * L * (1 - mg) -> answer = OLogN) /\
  ((1 + T) * L * (1 + mg) <= X -> 3 * (1 - T) * (1 + mg) <= X <= 3 * (1 + T) * (1 - mg) -> answer = ON) /\
  ((1 + T) * L * (1 + mg) <= X -> X <= 3 * (1 - T) * (1 - mg) -> answer = BetweenOLogNAndON) /\
  ((1 + T) * L * (1 + mg) <= X -> 3 * (1 + T) * (1 + mg) <= X -> answer = BetweenONAndONLogN).
Proof.
  intros b t l n m1 m2 Hl Hn S1 P1 S2 P2. cbv zeta. unfold analyse_space_complexity_set_resizing. rewrite (max_growth_ok b m1 S1), (max_growth_ok b m2 S2). cbn [bind].
  pose proof (growth_bound m1 S1) as G1. pose proof (growth_bound m2 S2) as G2. eexists. split; [reflexivity|].
  exact (resizing64_table t l n _ _ _ _ Hl Hn (ap_growth _ (conj P1 (proj2 G1))) (ap_growth _ (conj P2 (proj2 G2)))).
Qed.
Print Assumptions C72_resizing_table_binary64_space.

(** the rows cover the line: outside the 2^-40 bands every X > 0 falls in one of them *)
Example C72_example : size_ok 1000 /\ (3 * (1 + tolR Tol10) * (1 + mg) <= time_ratio 1000000 9000000) /\
  (1 + tolR Tol10) * (ln (3 * IZR 1000) / ln (IZR 1000)) * (1 + mg) <= time_ratio 1000000 9000000.
Proof.
  split; [unfold size_ok, two32; lia|]. assert (E : time_ratio 1000000 9000000 = 9) by (unfold time_ratio; field). rewrite E. split; [unfold tolR, mg; lra|].
  assert (K : ln (3 * 1000) / ln 1000 <= 2).
  { pose proof (ln_ge_1 3 ltac:(lra)). pose proof (ln_mono 3 1000 ltac:(lra) ltac:(lra)). rewrite ln_mult by lra. apply div_le_iff; lra. }
  set (L := ln (3 * 1000) / ln 1000) in *. unfold tolR, mg. lra.
Qed.
