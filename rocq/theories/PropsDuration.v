(** * Property theorems C66-C68: durations shown and averaged. *)
From Coq Require Import ZArith Reals Lra Lia Bool List String Psatz.
From Flocq Require Import Core.Core IEEE754.BinarySingleNaN.
From Verif Require Import Machine Floats Analysis AnalysisF64 AnalysisF64b AnalysisF64d Report ReportProofs Present PassTime DurationProofs.
Import ListNotations.
Open Scope R_scope.

Lemma sane_real d : duration_sane d -> 0 <= IZR d / 1000000000 <= 9007199254740992.
Proof.
  intros [H0 H1]. apply IZR_le in H0. apply IZR_lt in H1. rewrite mult_IZR in H1. change (IZR (2 ^ 53)) with 9007199254740992 in H1.
  change (IZR nanos_per_sec) with 1000000000 in H1. lra.
Qed.
Lemma near_integer (a b : Z) : Rabs (IZR a - IZR b) < 1 -> a = b.
Proof.
  intros H. rewrite <- minus_IZR, <- abs_IZR in H. apply lt_IZR in H. lia.
Qed.

(** what [from_secs_f64] makes of a number of seconds close to [y] nanoseconds *)
Lemma from_rel k (x : f64) y : is_finite x = true -> INR k * uu <= 1 / 2 -> 0 <= y <= 9007199254740992 * 1000000000 ->
  rel k (B2R x) (y / 1000000000) ->
  exists v, from_secs_f64 x = Val v /\ Rabs (IZR v - y) <= / 2 + 2 * (INR k * uu) * y.
Proof.
  intros F K Y R. pose proof uu_pos. assert (Y' : 0 <= y / 1000000000 <= 9007199254740992) by lra.
  pose proof (rel_error k _ _ (proj1 Y') K R) as E.
  assert (NN : 0 <= B2R x) by (apply (rel_nonneg k _ _ (proj1 Y') R)).
  assert (UB : B2R x <= bpow radix2 63).
  { change (bpow radix2 63) with 9223372036854775808. apply Rabs_le_inv in E. pose proof (pos_INR k). assert (0 <= INR k * uu) by nra. nra. }
  destruct (from_secs_spec x F (conj NN UB)) as (v & EV & _ & A). exists v. split; [exact EV|].
  apply Rabs_le_inv in E. apply Rabs_le_inv in A. apply Rabs_le. nra.
Qed.

(** ** C66: a duration measurement shows the duration: exactly below 2^50 ns (13 days),
    and always to within half a nanosecond and 2^-51 of it *)
Theorem C66_duration_measurement : forall c d, duration_sane d ->
  exists d', display c (duration_measurement d) = Some (Val (TDuration d')) /\
    Rabs (IZR d' - IZR d) <= / 2 + bpow radix2 (-51) * IZR d /\
    ((d < 2 ^ 50)%Z -> d' = d).
Proof.
  intros c d H. destruct (as_secs_spec d H) as [F _]. destruct (as_secs_rel d H) as [B R]. pose proof (big_nonneg _ B) as NN.
  assert (K : INR 2 * uu <= 1 / 2) by (cbn; unfold uu; lra).
  pose proof (sane_real d H) as SR.
  destruct (from_rel 2 _ (IZR d) F K ltac:(lra) R) as (v & EV & A).
  exists v. split.
  - unfold display, duration_measurement. cbn [deref pm_scale pm_value]. unfold display_table, duration_table. cbn [find sr_threshold].
    assert (L : f64_leb zero64 (as_secs_f64 d) = true).
    { apply leb_intro; [reflexivity|apply fin_not_nan, F|]. rewrite (toR_fin _ _ _ F). exact NN. }
    rewrite L. cbn [sr_format sr_rate sr_suffix]. change (lit 1) with one64. rewrite div_one by (apply fin_not_nan, F).
    cbn [render String.eqb Ascii.eqb Bool.eqb]. rewrite EV. reflexivity.
  - assert (C : 2 * (INR 2 * uu) = bpow radix2 (-51)).
    { change (bpow radix2 (-51)) with (/ 2251799813685248). cbn [INR]. unfold uu. lra. }
    rewrite C in A. split; [exact A|]. intros L. apply near_integer. apply Rle_lt_trans with (1 := A).
    change (bpow radix2 (-51)) with (/ 2251799813685248). assert (IZR d <= 1125899906842623) by (apply IZR_le; lia). lra.
Qed.
Print Assumptions C66_duration_measurement.
Example C66_example : duration_sane 1500000000 /\ (1500000000 < 2 ^ 50)%Z.
Proof. unfold duration_sane, nanos_per_sec. lia. Qed.
(** the limit of the representation: Duration::MAX (2^64 s - 1 ns) cannot be shown *)
Theorem C66_longest_duration_panics : forall c,
  display c (duration_measurement (two64 * nanos_per_sec - 1)) = Some (Panic PDuration).
Proof. intros c. vm_compute. reflexivity. Qed.

(** ** C68: the duration of an iterator pass is the average of its threads' durations *)
Definition total (ds : list duration) : R := fold_right (fun d acc => IZR d + acc) 0 ds.
Lemma total_nonneg ds : Forall duration_sane ds -> 0 <= total ds.
Proof. induction 1 as [|d ds H _ IH]; [cbn; lra|]. cbn [total fold_right]. fold (total ds). destruct H as [H _]. apply IZR_le in H. lra. Qed.
Lemma total_bound ds : Forall duration_sane ds -> total ds <= INR (length ds) * (9007199254740992 * 1000000000).
Proof. induction 1 as [|d ds H _ IH]; [cbn; lra|]. cbn [total fold_right length]. fold (total ds). rewrite S_INR. pose proof (sane_real d H). lra. Qed.
Lemma total_app a b : total (a ++ b) = total a + total b.
Proof. unfold total. induction a as [|x a IH]; cbn [app fold_right]; [lra|]. rewrite IH. lra. Qed.

Lemma M64_bigger : 1237940039285380274899124224 < M64.
Proof. change 1237940039285380274899124224 with (bpow radix2 90). apply bpow_lt. lia. Qed.
Section Average.
Variable threads : Z.
Hypothesis HT : (1 <= threads < two32)%Z.
Lemma thread_share d : duration_sane d ->
  is_finite (f64_div (as_secs_f64 d) (f64_of_int threads)) = true /\
  big (B2R (f64_div (as_secs_f64 d) (f64_of_int threads))) /\
  rel 3 (B2R (f64_div (as_secs_f64 d) (f64_of_int threads))) (IZR d / IZR threads / 1000000000).
Proof.
  intros H. pose proof HT as Hn. rewrite two32_val in Hn.
  destruct (as_secs_spec d H) as [F _]. destruct (as_secs_rel d H) as [B R]. pose proof (sane_real d H) as SR.
  pose proof (of_int_fin threads ltac:(lia)) as Fn. pose proof (of_int_exact threads ltac:(lia)) as En.
  assert (N1 : 1 <= IZR threads <= 4294967296) by (split; apply IZR_le; lia).
  assert (IN : 0 < / IZR threads <= 1).
  { split; [apply Rinv_0_lt_compat; lra|]. rewrite <- Rinv_1. apply Rinv_le; lra. }
  assert (IN2 : / 4294967296 <= / IZR threads) by (apply Rinv_le; lra).
  assert (BQ : big (B2R (as_secs_f64 d) / IZR threads)).
  { destruct (Z.eq_dec d 0) as [->|NZ]; [left; change (B2R (as_secs_f64 0)) with 0; unfold Rdiv; ring|right].
    destruct R as [R _]. cbn [pow] in R. pose proof uu_pos. assert (1 <= IZR d) by (apply IZR_le; destruct H; lia).
    apply Rle_trans with (bpow radix2 (-63)); [apply bpow_le; lia|]. change (bpow radix2 (-63)) with (/ 9223372036854775808). unfold Rdiv in *.
    assert (IZR d * / 1000000000 * / 2 <= B2R (as_secs_f64 d)) by (apply Rle_trans with (2 := R); apply Rmult_le_compat_l; nra).
    apply Rle_trans with (/ 2000000000 * / 4294967296); [lra|]. apply Rmult_le_compat; lra. }
  destruct (div_toR 53 1024 _ _ (as_secs_f64 d) (f64_of_int threads) F Fn) as [N E]; [rewrite En; lra|]. rewrite En in E. fold (f64_div (as_secs_f64 d) (f64_of_int threads)) in N, E.
  assert (RR : rel 3 (rnd64 (B2R (as_secs_f64 d) / IZR threads)) (IZR d / IZR threads / 1000000000)).
  { apply (rel_trans 1 2) with (y := B2R (as_secs_f64 d) / IZR threads).
    - unfold Rdiv in *. apply Rmult_le_pos; [apply Rmult_le_pos; [apply IZR_le; destruct H; lia|lra]|lra].
    - apply rel_rnd, BQ.
    - replace (IZR d / IZR threads / 1000000000) with (IZR d / 1000000000 * / IZR threads) by (field; lra). apply rel_scale; [lra|exact R]. }
  assert (YB : 0 <= IZR d / IZR threads <= 9007199254740992 * 1000000000).
  { unfold Rdiv. assert (0 <= IZR d) by (apply IZR_le; destruct H; lia). split; [apply Rmult_le_pos; lra|].
    apply Rle_trans with (IZR d * 1); [apply Rmult_le_compat_l; lra|]. lra. }
  assert (K : INR 3 * uu <= 1 / 2) by (cbn; unfold uu; lra).
  assert (Y9 : 0 <= IZR d / IZR threads / 1000000000) by lra.
  assert (SM : rnd64 (B2R (as_secs_f64 d) / IZR threads) < M64 /\ 0 <= rnd64 (B2R (as_secs_f64 d) / IZR threads)).
  { pose proof (rel_error 3 _ _ Y9 K RR) as ER. apply Rabs_le_inv in ER. pose proof M64_big as MB. rewrite bpow70 in MB. cbn [INR] in ER. unfold uu in ER.
    split; [nra|]. apply (rel_nonneg 3 _ (IZR d / IZR threads / 1000000000)); [lra|exact RR]. }
  rewrite clamp_in in E by (rewrite Rabs_pos_eq; lra).
  assert (FD : is_finite (f64_div (as_secs_f64 d) (f64_of_int threads)) = true).
  { destruct (f64_div (as_secs_f64 d) (f64_of_int threads)) as [s|[]| |s m e HH]; try reflexivity; try discriminate; cbn [toR] in E; pose proof (M_pos 1024); lra. }
  rewrite (toR_fin _ _ _ FD) in E. rewrite <- E in RR. split; [exact FD|]. split; [rewrite E; apply big_rnd, BQ|exact RR].
Qed.
Definition share ds : R := total ds / IZR threads / 1000000000.
Lemma average_rel : forall ds, Forall duration_sane ds -> INR (length ds) <= 4294967296 ->
  let a := elapsed_seconds_average threads ds in
  is_finite a = true /\ big (B2R a) /\ rel (3 + length ds) (B2R a) (share ds).
Proof.
  intros ds. cbv zeta. unfold elapsed_seconds_average.
  induction ds as [|d ds IH] using rev_ind; intros FA L.
  - cbn [fold_left]. split; [reflexivity|]. split; [left; reflexivity|]. unfold share, total, rel. cbn [fold_right B2R f64_of_int].
    change (B2R (f64_of_int 0)) with 0. unfold Rdiv. rewrite !Rmult_0_l. lra.
  - apply Forall_app in FA. destruct FA as [FA FD]. inversion FD as [|? ? Hd _]; subst. rewrite app_length, plus_INR in L. cbn [length] in L. change (INR 1) with 1 in L.
    destruct (IH FA ltac:(lra)) as (F1 & B1 & R1). rewrite fold_left_app. cbn [fold_left]. set (a := fold_left (add_thread threads) ds (f64_of_int 0)) in *.
    destruct (thread_share d Hd) as (F2 & B2 & R2). set (q := f64_div (as_secs_f64 d) (f64_of_int threads)) in *.
    assert (NT : 1 <= IZR threads) by (apply IZR_le; destruct HT; lia).
    assert (NI : 0 < / IZR threads) by (apply Rinv_0_lt_compat; lra).
    assert (SE : share (ds ++ [d]) = share ds + IZR d / IZR threads / 1000000000).
    { unfold share. rewrite total_app. cbn [total fold_right]. unfold Rdiv. ring. }
    assert (D0 : 0 <= IZR d) by (destruct Hd as [Hd _]; apply IZR_le in Hd; exact Hd).
    assert (S0 : 0 <= share ds) by (pose proof (total_nonneg ds FA); unfold share, Rdiv; apply Rmult_le_pos; [apply Rmult_le_pos; lra|lra]).
    assert (S1 : 0 <= IZR d / IZR threads / 1000000000) by (unfold Rdiv; apply Rmult_le_pos; [apply Rmult_le_pos; lra|lra]).
    assert (SN : 0 <= share (ds ++ [d])) by (rewrite SE; lra).
    assert (RS : rel (3 + length ds) (B2R a + B2R q) (share (ds ++ [d]))).
    { rewrite SE. apply rel_plus; [exact R1|]. apply rel_weaken with 3%nat; [exact S1|lia|exact R2]. }
    assert (BS : big (B2R a + B2R q)) by (apply big_plus; assumption).
    assert (RT : rel (3 + length (ds ++ [d])) (rnd64 (B2R a + B2R q)) (share (ds ++ [d]))).
    { replace (3 + length (ds ++ [d]))%nat with (1 + (3 + length ds))%nat by (rewrite app_length; cbn; lia).
      apply rel_trans with (y := B2R a + B2R q); [rewrite SE; lra|apply rel_rnd, BS|exact RS]. }
    assert (K : INR (3 + length (ds ++ [d])) * uu <= 1 / 2).
    { rewrite plus_INR, app_length, plus_INR. cbn [length]. change (INR 3) with (2 + 1). change (INR 1) with 1. unfold uu. lra. }
    assert (UB : share (ds ++ [d]) <= 4294967296 * 9007199254740992).
    { assert (FA2 : Forall duration_sane (ds ++ [d])) by (apply Forall_app; auto). pose proof (total_bound _ FA2) as TB. pose proof (total_nonneg _ FA2) as TN.
      rewrite app_length, plus_INR in TB. cbn [length] in TB. change (INR 1) with 1 in TB. unfold share, Rdiv.
      assert (/ IZR threads <= 1) by (rewrite <- Rinv_1; apply Rinv_le; lra). nra. }
    assert (SM : 0 <= rnd64 (B2R a + B2R q) < M64).
    { pose proof (rel_error _ _ _ SN K RT) as ER. apply Rabs_le_inv in ER. pose proof M64_bigger as MB.
      split; [apply (rel_nonneg _ _ (share (ds ++ [d])) SN RT)|].
      assert (0 <= share (ds ++ [d])) by (rewrite SE; lra). nra. }
    destruct (plus_fin a q F1 F2 ltac:(rewrite Rabs_pos_eq; lra)) as [PF PE].
    unfold add_thread. fold q. split; [exact PF|]. rewrite PE. split; [apply big_rnd, BS|exact RT].
Qed.
End Average.

(** ** C67: the per-element time of a report is the true quotient to within half a
    nanosecond and 2^-50 of it *)
Theorem C67_time_per_element : forall t n, duration_sane t -> (1 <= n < two32)%Z ->
  exists v, time_per t n = Val v /\
    Rabs (IZR v - IZR t / IZR n) <= / 2 + bpow radix2 (-50) * (IZR t / IZR n).
Proof.
  intros t n H Hn. unfold time_per. destruct (thread_share n Hn t H) as (FD & _ & RR). pose proof (sane_real t H) as SR.
  rewrite two32_val in Hn. assert (N1 : 1 <= IZR n) by (apply IZR_le; lia).
  assert (IN : 0 < / IZR n <= 1).
  { split; [apply Rinv_0_lt_compat; lra|]. rewrite <- Rinv_1. apply Rinv_le; lra. }
  assert (YB : 0 <= IZR t / IZR n <= 9007199254740992 * 1000000000).
  { unfold Rdiv. assert (0 <= IZR t) by (apply IZR_le; destruct H; lia). split; [apply Rmult_le_pos; lra|].
    apply Rle_trans with (IZR t * 1); [apply Rmult_le_compat_l; lra|]. lra. }
  assert (K : INR 3 * uu <= 1 / 2) by (cbn; unfold uu; lra).
  destruct (from_rel 3 _ _ FD K YB RR) as (v & EV & A). exists v. split; [exact EV|].
  apply Rle_trans with (1 := A). apply Rplus_le_compat_l. apply Rmult_le_compat_r; [lra|].
  change (bpow radix2 (-50)) with (/ 1125899906842624). cbn [INR]. unfold uu. lra.
Qed.
Print Assumptions C67_time_per_element.
Example C67_example : duration_sane 1000000000 /\ (1 <= 3 < two32)%Z /\ time_per 1000000000 3 = Val 333333333%Z.
Proof. unfold duration_sane, nanos_per_sec. rewrite two32_val. split; [lia|]. split; [lia|]. vm_compute. reflexivity. Qed.

(** The threads' average, to within half a nanosecond and (threads+3) * 2^-52 of it; in
    particular no panic.  [ds] are the durations measured by the threads. *)
Theorem C68_pass_time_is_the_average : forall threads ds,
  (1 <= threads < two31)%Z -> Z.of_nat (length ds) = threads -> Forall duration_sane ds ->
  let mean := total ds / IZR threads in
  exists v, pass_time threads ds = Val v /\
    Rabs (IZR v - mean) <= / 2 + (IZR threads + 3) * bpow radix2 (-52) * mean.
Proof.
  intros threads ds HT HL FA. cbv zeta. rewrite two31_val in HT.
  assert (IL : INR (length ds) = IZR threads) by (rewrite INR_IZR_INZ, HL; reflexivity).
  assert (N1 : 1 <= IZR threads <= 2147483648) by (split; apply IZR_le; lia).
  assert (HT2 : (1 <= threads < two32)%Z) by (rewrite two32_val; lia).
  destruct (average_rel threads HT2 ds FA ltac:(lra)) as (F & _ & R). unfold share in R.
  pose proof (total_nonneg ds FA) as TN. pose proof (total_bound ds FA) as TB. rewrite IL in TB.
  assert (NI : 0 < / IZR threads) by (apply Rinv_0_lt_compat; lra).
  assert (MB : 0 <= total ds / IZR threads <= 9007199254740992 * 1000000000).
  { split; [apply Rmult_le_pos; lra|]. apply Rmult_le_reg_r with (IZR threads); [lra|]. unfold Rdiv. rewrite Rmult_assoc, Rinv_l by lra. lra. }
  assert (K : INR (3 + length ds) * uu <= 1 / 2).
  { rewrite plus_INR, IL. change (INR 3) with (2 + 1). unfold uu. lra. }
  destruct (from_rel _ _ _ F K MB R) as (v & EV & A). exists v. split; [exact EV|].
  apply Rle_trans with (1 := A). apply Rplus_le_compat_l. apply Rmult_le_compat_r; [lra|].
  rewrite plus_INR, IL. change (INR 3) with (2 + 1). change (bpow radix2 (-52)) with (/ 4503599627370496). unfold uu. lra.
Qed.
Print Assumptions C68_pass_time_is_the_average.

(** a single thread: its own duration, exactly below 2^49 ns (6 days) *)
Theorem C68_single_thread : forall d, (0 <= d < 2 ^ 49)%Z -> pass_time 1 [d] = Val d.
Proof.
  intros d H. assert (SD : duration_sane d) by (unfold duration_sane, nanos_per_sec; lia).
  destruct (C68_pass_time_is_the_average 1 [d] ltac:(rewrite two31_val; lia) eq_refl ltac:(constructor; [exact SD|constructor])) as (v & E & A).
  rewrite E. f_equal. apply near_integer. unfold total in A. cbn [fold_right] in A. rewrite Rplus_0_r in A.
  replace (IZR d / 1) with (IZR d) in A by (unfold Rdiv; rewrite Rinv_1; ring).
  apply Rle_lt_trans with (1 := A). change (bpow radix2 (-52)) with (/ 4503599627370496).
  assert (IZR d <= 562949953421311) by (apply IZR_le; lia). lra.
Qed.
Print Assumptions C68_single_thread.
(** the average is between the fastest and the slowest thread, up to that error *)
Theorem C68_between_extremes : forall threads ds lo hi,
  (1 <= threads < two31)%Z -> Z.of_nat (length ds) = threads -> Forall (fun d => duration_sane d /\ (lo <= d <= hi)%Z) ds ->
  exists v, pass_time threads ds = Val v /\
    IZR lo - / 2 - (IZR threads + 3) * bpow radix2 (-52) * IZR hi <= IZR v <= IZR hi + / 2 + (IZR threads + 3) * bpow radix2 (-52) * IZR hi.
Proof.
  intros threads ds lo hi HT HL FA.
  assert (FS : Forall duration_sane ds) by (eapply Forall_impl; [|exact FA]; intros a [H _]; exact H).
  destruct (C68_pass_time_is_the_average threads ds HT HL FS) as (v & E & A). exists v. split; [exact E|].
  rewrite two31_val in HT. assert (IL : INR (length ds) = IZR threads) by (rewrite INR_IZR_INZ, HL; reflexivity).
  assert (N1 : 1 <= IZR threads) by (apply IZR_le; lia).
  assert (TB : IZR lo * INR (length ds) <= total ds <= IZR hi * INR (length ds)).
  { clear - FA. induction FA as [|d ds [_ [L1 L2]] _ IH]; [cbn; lra|]. cbn [total fold_right length]. fold (total ds). rewrite S_INR.
    apply IZR_le in L1. apply IZR_le in L2. lra. }
  rewrite IL in TB. pose proof (total_nonneg ds FS) as TN.
  assert (MB : IZR lo <= total ds / IZR threads <= IZR hi /\ 0 <= total ds / IZR threads).
  { assert (X : total ds = total ds / IZR threads * IZR threads) by (field; lra). 
    split; [split|]; apply Rmult_le_reg_r with (IZR threads); lra. }
  pose proof (bpow_gt_0 radix2 (-52)) as BP. apply Rabs_le_inv in A.
  assert (M : (IZR threads + 3) * bpow radix2 (-52) * (total ds / IZR threads) <= (IZR threads + 3) * bpow radix2 (-52) * IZR hi).
  { apply Rmult_le_compat_l; [apply Rmult_le_pos; lra|lra]. }
  lra.
Qed.
Print Assumptions C68_between_extremes.
Example C68_example : exists v, pass_time 2 [1000000000; 3000000000]%Z = Val v /\ v = 2000000000%Z.
Proof. eexists. split; [vm_compute; reflexivity|reflexivity]. Qed.
