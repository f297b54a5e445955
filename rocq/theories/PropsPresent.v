(** * Property theorems C52, C53, C66: auto-scaled measurements. *)
From Coq Require Import ZArith Reals Lra Lia Bool List String Psatz.
From Flocq Require Import Core.Core IEEE754.BinarySingleNaN Mult_error Relative.
From Verif Require Import Machine Floats Analysis AnalysisF64 AnalysisF64b AnalysisF64d Report ReportProofs Present.
Import ListNotations.
Open Scope R_scope.

(** ** The specification: units and their sizes *)
Definition byte_units : list (string * R) :=
  [("TiB", 1099511627776); ("GiB", 1073741824); ("MiB", 1048576); ("KiB", 1024); ("b", 1)]%string.
(** the largest unit not exceeding [x] (the smallest unit below 1) *)
Definition right_unit (units : list (string * R)) (x : R) (u : string) (size : R) : Prop :=
  In (u, size) units /\ (size <= x \/ x < 1 /\ size = 1) /\
  forall u' size', In (u', size') units -> size' <= x -> size' <= size.

(** ** Tools *)
Lemma leb_real (c v : f64) : is_nan c = false -> is_nan v = false -> f64_leb c v = Rle_bool (toR64 c) (toR64 v).
Proof. intros. apply leb_toR; assumption. Qed.

Lemma lit_fin z : (Z.abs z <= 2 ^ 69)%Z -> is_finite (lit z) = true. Proof. apply of_int_fin. Qed.
Lemma lit_R z : (Z.abs z <= 2 ^ 53)%Z -> toR64 (lit z) = IZR z.
Proof. intros H. rewrite toR_fin by (apply lit_fin; lia). apply of_int_exact. exact H. Qed.
Lemma lit_nan z : (Z.abs z <= 2 ^ 69)%Z -> is_nan (lit z) = false.
Proof. intros H. apply fin_not_nan, lit_fin, H. Qed.
Lemma zero_R : toR64 zero64 = 0. Proof. reflexivity. Qed.

Lemma pm_fin : is_finite per_minute = true. Proof. vm_compute. reflexivity. Qed.
Lemma ph_fin : is_finite per_hour = true. Proof. vm_compute. reflexivity. Qed.
Lemma pm_R : B2R per_minute = 4803839602528529 / 288230376151711744. Proof. compute_B2R. lra. Qed.
Lemma ph_R : B2R per_hour = 5124095576030431 / 18446744073709551616. Proof. compute_B2R. lra. Qed.

(** division by a power of two of a number that is at least that is exact *)
Lemma rnd_scaled (x : R) k : generic_format radix2 (SpecFloat.fexp 53 1024) x -> (0 <= k <= 100)%Z -> bpow radix2 k <= x ->
  rnd64 (x / bpow radix2 k) = x / bpow radix2 k.
Proof.
  intros G Hk L. apply round_generic; try exact _.
  unfold Rdiv. rewrite <- bpow_opp.
  change (SpecFloat.fexp 53 1024) with (FLT_exp (SpecFloat.emin 53 1024) 53) in *.
  apply mult_bpow_exact_FLT; [exact G|].
  assert (M : (k < mag radix2 x)%Z).
  { apply mag_gt_bpow. rewrite Rabs_pos_eq; [exact L|]. pose proof (bpow_gt_0 radix2 k). lra. }
  unfold SpecFloat.emin. lia.
Qed.
Lemma div_pow2 (v : f64) k : is_finite v = true -> (0 <= k <= 53)%Z -> IZR (2 ^ k) <= B2R v ->
  is_finite (f64_div v (lit (2 ^ k))) = true /\ B2R (f64_div v (lit (2 ^ k))) = B2R v / IZR (2 ^ k).
Proof.
  intros F Hk L. assert (E : B2R (lit (2 ^ k)) = IZR (2 ^ k)).
  { apply of_int_exact. rewrite Z.abs_eq by (apply Z.pow_nonneg; lia). apply Z.pow_le_mono_r; lia. }
  assert (P : 0 < IZR (2 ^ k)) by (apply IZR_lt, Z.pow_pos_nonneg; lia).
  assert (Ebp : IZR (2 ^ k) = bpow radix2 k) by (change (2 ^ k)%Z with (radix_val radix2 ^ k)%Z; apply IZR_Zpower; lia).
  pose proof (Bdiv_correct 53 1024 _ _ mode_NE v (lit (2 ^ k))) as D. rewrite E in D. specialize (D ltac:(lra)).
  change (round_mode mode_NE) with ZnearestE in D.
  assert (R : rnd64 (B2R v / IZR (2 ^ k)) = B2R v / IZR (2 ^ k)).
  { rewrite Ebp. apply rnd_scaled; [apply generic_format_B2R|lia|rewrite <- Ebp; exact L]. }
  rewrite R in D. rewrite Rlt_bool_true in D.
  - destruct D as (D1 & D2 & _). rewrite F in D2. unfold f64_div. split; assumption.
  - pose proof (abs_B2R_lt_emax _ _ v) as B. rewrite Rabs_pos_eq in B by lra.
    rewrite Rabs_pos_eq by (apply Rmult_le_pos; [lra|apply Rlt_le, Rinv_0_lt_compat; lra]).
    apply Rle_lt_trans with (2 := B). apply Rle_trans with (B2R v / 1); [|lra].
    unfold Rdiv. apply Rmult_le_compat_l; [lra|]. apply Rinv_le; [lra|]. 
    apply IZR_le. assert (0 < 2 ^ k)%Z by (apply Z.pow_pos_nonneg; lia). lia.
Qed.

Ltac below_c c := rewrite (leb_real c) by (first [reflexivity | apply lit_nan; vm_compute; congruence | vm_compute; reflexivity | assumption]).

Section Find.
Variable v : f64.
Hypothesis F : is_finite v = true.
Local Notation x := (B2R v).
Lemma leb_lit z : (Z.abs z <= 2 ^ 53)%Z -> f64_leb (lit z) v = Rle_bool (IZR z) x.
Proof.
  intros H. rewrite leb_real by (try apply lit_nan; try apply fin_not_nan; try assumption; lia).
  rewrite lit_R by exact H. rewrite toR_fin by exact F. reflexivity.
Qed.
Lemma leb_zero : f64_leb zero64 v = Rle_bool 0 x.
Proof. rewrite leb_real by (reflexivity || apply fin_not_nan, F). rewrite zero_R, toR_fin by exact F. reflexivity. Qed.
Lemma leb_pm : f64_leb per_minute v = Rle_bool (B2R per_minute) x.
Proof. rewrite leb_real by (apply fin_not_nan; (exact pm_fin || exact F)). rewrite !toR_fin by (exact pm_fin || exact F). reflexivity. Qed.
Lemma leb_ph : f64_leb per_hour v = Rle_bool (B2R per_hour) x.
Proof. rewrite leb_real by (apply fin_not_nan; (exact ph_fin || exact F)). rewrite !toR_fin by (exact ph_fin || exact F). reflexivity. Qed.
End Find.

Definition TIB : Z := 1099511627776. Definition GIB : Z := 1073741824. Definition MIB : Z := 1048576. Definition KIB : Z := 1024.
(** the tables, as the built rows *)
Lemma bytes_rows : bytes_table =
  [ScaleRow (lit TIB) (lit TIB) "TiB" ":.2"; ScaleRow (lit GIB) (lit GIB) "GiB" ":.2"; ScaleRow (lit MIB) (lit MIB) "MiB" ":.2";
   ScaleRow (lit KIB) (lit KIB) "KiB" ":.2"; ScaleRow (lit 1) (lit 1) "b" ":.0"; ScaleRow zero64 (lit 1) "b" ":.0"]%string.
Proof. reflexivity. Qed.
Lemma byte_rate_rows : byte_rate_table =
  [ScaleRow (lit TIB) (lit TIB) "TiB/s" ":.2"; ScaleRow (lit GIB) (lit GIB) "GiB/s" ":.2"; ScaleRow (lit MIB) (lit MIB) "MiB/s" ":.2";
   ScaleRow (lit KIB) (lit KIB) "KiB/s" ":.2"; ScaleRow (lit 1) (lit 1) "b/s" ":.2"; ScaleRow per_minute per_minute "b/min" ":.2";
   ScaleRow per_hour per_hour "b/hr" ":.2"; ScaleRow zero64 (lit 1) "b/s" ":.0"]%string.
Proof. reflexivity. Qed.

Ltac le_true a := rewrite (Rle_bool_true a) by (unfold TIB, GIB, MIB, KIB in *; lra).
Ltac le_false a := rewrite (Rle_bool_false a) by (unfold TIB, GIB, MIB, KIB in *; lra).
Ltac lits F := repeat (rewrite (leb_lit _ F) by (vm_compute; congruence)); rewrite ?(leb_pm _ F), ?(leb_ph _ F), ?(leb_zero _ F).

(** ** C52, bytes: for every finite non-negative value, whatever the caches contain *)
Theorem C52_bytes : forall c v, is_finite v = true -> 0 <= B2R v ->
  exists u size scaled,
    display c (bytes_measurement v) = Some (Val (TFixed (if String.eqb u "b" then 0%nat else 2%nat) scaled u)) /\
    right_unit byte_units (B2R v) u size /\
    is_finite scaled = true /\ B2R scaled = B2R v / size /\
    (1 <= B2R v -> 1 <= B2R scaled) /\ (B2R v < 1024 * 1099511627776 -> B2R scaled < 1024).
Proof.
  intros c v F P. unfold display, bytes_measurement. cbn [deref pm_scale pm_value]. rewrite bytes_rows. unfold display_table.
  cbn [find sr_threshold]. lits F.
  assert (U : forall (u : string) size, In (u, size) byte_units -> (size <= B2R v \/ B2R v < 1 /\ size = 1) -> (B2R v < 1024 * size \/ size = 1099511627776) -> right_unit byte_units (B2R v) u size).
  { intros u size I1 I2 I3. split; [exact I1|]. split; [exact I2|]. intros u' size' I4 L.
    cbn [byte_units In] in I1, I4.
    repeat match goal with H : _ \/ _ |- _ => destruct H as [H|H] end; try contradiction;
      injection I1 as <- <-; injection I4 as <- <-; lra. }
  assert (ONE : f64_div v (lit 1) = v) by (apply div_one, fin_not_nan, F).
  destruct (Rle_or_lt (IZR TIB) (B2R v)) as [L|L]; [le_true (IZR TIB)|le_false (IZR TIB)].
  { exists "TiB"%string, 1099511627776, (f64_div v (lit TIB)). destruct (div_pow2 v 40 F ltac:(lia) L) as [DF DE]. change (2 ^ 40)%Z with TIB in *.
    cbn [sr_format sr_rate sr_suffix]. split; [reflexivity|]. unfold TIB in *. split; [apply U; [cbn; tauto|left; lra|right; reflexivity]|].
    split; [exact DF|]. rewrite DE. split; [lra|]. split; [intros _|intros X]; lra. }
  destruct (Rle_or_lt (IZR GIB) (B2R v)) as [L2|L2]; [le_true (IZR GIB)|le_false (IZR GIB)].
  { exists "GiB"%string, 1073741824, (f64_div v (lit GIB)). destruct (div_pow2 v 30 F ltac:(lia) L2) as [DF DE]. change (2 ^ 30)%Z with GIB in *.
    cbn [sr_format sr_rate sr_suffix]. split; [reflexivity|]. unfold TIB, GIB in *. split; [apply U; [cbn; tauto|left; lra|left; lra]|].
    split; [exact DF|]. rewrite DE. split; [lra|]. split; [intros _|intros X]; lra. }
  destruct (Rle_or_lt (IZR MIB) (B2R v)) as [L3|L3]; [le_true (IZR MIB)|le_false (IZR MIB)].
  { exists "MiB"%string, 1048576, (f64_div v (lit MIB)). destruct (div_pow2 v 20 F ltac:(lia) L3) as [DF DE]. change (2 ^ 20)%Z with MIB in *.
    cbn [sr_format sr_rate sr_suffix]. split; [reflexivity|]. unfold GIB, MIB in *. split; [apply U; [cbn; tauto|left; lra|left; lra]|].
    split; [exact DF|]. rewrite DE. split; [lra|]. split; [intros _|intros X]; lra. }
  destruct (Rle_or_lt (IZR KIB) (B2R v)) as [L4|L4]; [le_true (IZR KIB)|le_false (IZR KIB)].
  { exists "KiB"%string, 1024, (f64_div v (lit KIB)). destruct (div_pow2 v 10 F ltac:(lia) L4) as [DF DE]. change (2 ^ 10)%Z with KIB in *.
    cbn [sr_format sr_rate sr_suffix]. split; [reflexivity|]. unfold MIB, KIB in *. split; [apply U; [cbn; tauto|left; lra|left; lra]|].
    split; [exact DF|]. rewrite DE. split; [lra|]. split; [intros _|intros X]; lra. }
  exists "b"%string, 1, v. unfold KIB in *.
  assert (RES : forall r, r = ScaleRow (lit 1) (lit 1) "b" ":.0" \/ r = ScaleRow zero64 (lit 1) "b" ":.0" ->
    Some (render (sr_format r) (f64_div v (sr_rate r)) (sr_suffix r)) = Some (Val (TFixed (if String.eqb "b" "b" then 0%nat else 2%nat) v "b"))).
  { intros r [-> | ->]; cbn [sr_format sr_rate sr_suffix]; rewrite ONE; reflexivity. }
  split.
  - destruct (Rle_or_lt 1 (B2R v)) as [L5|L5]; [le_true 1; apply RES; auto|le_false 1; le_true 0; apply RES; auto].
  - split; [apply U; [cbn; tauto|destruct (Rle_or_lt 1 (B2R v)); [left; lra|right; lra]|left; lra]|].
    split; [exact F|]. split; [field|]. split; intros; lra.
Qed.
Print Assumptions C52_bytes.
Example C52_example : is_finite (f64_of_int 1536) = true /\
  match display no_caches (bytes_measurement (f64_of_int 1536)) with
  | Some (Val (TFixed 2 v "KiB")) => f64_ltb (f64_of_int 1) v && f64_ltb v (f64_of_int 2)
  | _ => false end = true.
Proof. split; vm_compute; reflexivity. Qed.

(** ** C52, bytes per second *)
Definition byte_rate_units : list (string * R) :=
  [("TiB/s", 1099511627776); ("GiB/s", 1073741824); ("MiB/s", 1048576); ("KiB/s", 1024); ("b/s", 1)]%string.

Lemma rnd_rel y : 1 <= y -> Rabs (rnd64 y - y) <= / 2 * bpow radix2 (-52) * y.
Proof.
  intros H. change (SpecFloat.fexp 53 1024) with (FLT_exp (SpecFloat.emin 53 1024) 53).
  rewrite <- (Rabs_pos_eq y) at 3 by lra. apply (relative_error_N_FLT radix2 (SpecFloat.emin 53 1024) 53 ltac:(reflexivity)).
  rewrite Rabs_pos_eq by lra. apply Rle_trans with (bpow radix2 0); [apply bpow_le; unfold SpecFloat.emin; lia|cbn; lra].
Qed.
(** dividing a value in [c, h] by the constant c *)
Lemma div_const (v c h : f64) k : is_finite v = true -> is_finite c = true -> is_finite h = true ->
  0 < B2R c -> B2R c <= B2R v -> B2R v <= B2R h -> is_finite (f64_div h c) = true -> B2R (f64_div h c) <= 60 ->
  (Rabs (/ B2R c - k) <= bpow radix2 (-52) * k) -> 60 <= k ->
  is_finite (f64_div v c) = true /\ 1 <= B2R (f64_div v c) <= 60 /\
  Rabs (B2R (f64_div v c) - B2R v * k) <= bpow radix2 (-50) * (B2R v * k).
Proof.
  intros Fv Fc Fh Pc L1 L2 FB HB HK K60.
  destruct (div_toR 53 1024 _ _ v c Fv Fc ltac:(lra)) as [N1 E1]. destruct (div_toR 53 1024 _ _ h c Fh Fc ltac:(lra)) as [N2 E2].
  fold (f64_div v c) in N1, E1. fold (f64_div h c) in N2, E2.
  assert (Q : 1 <= B2R v / B2R c).
  { apply Rmult_le_reg_r with (B2R c); [exact Pc|]. unfold Rdiv. rewrite Rmult_assoc, Rinv_l by lra. lra. }
  assert (MN : rnd64 (B2R v / B2R c) <= rnd64 (B2R h / B2R c)).
  { apply rnd_mono; try exact _. unfold Rdiv. apply Rmult_le_compat_r; [apply Rlt_le, Rinv_0_lt_compat; lra|exact L2]. }
  rewrite (toR_fin _ _ _ FB) in E2.
  assert (HB2 : rnd64 (B2R h / B2R c) <= 60).
  { destruct (Rle_or_lt (rnd64 (B2R h / B2R c)) 60) as [Y|Y]; [exact Y|]. exfalso.
    assert (C : clamp64 60 < clamp64 (rnd64 (B2R h / B2R c))).
    { pose proof M64_big as MB. rewrite bpow70 in MB.
      rewrite (clamp_in 1024 60) by (rewrite Rabs_pos_eq; lra).
      destruct (Rle_or_lt M64 (rnd64 (B2R h / B2R c))) as [Z|Z]; [rewrite clamp_hi by exact Z; lra|].
      rewrite clamp_in by (rewrite Rabs_pos_eq; lra). exact Y. }
    pose proof M64_big as MB. rewrite bpow70 in MB. rewrite (clamp_in 1024 60) in C by (rewrite Rabs_pos_eq; lra). lra. }
  assert (LB : 1 <= rnd64 (B2R v / B2R c)).
  { rewrite <- rnd_1. apply rnd_mono; try exact _. exact Q. }
  rewrite clamp_in in E1 by (rewrite Rabs_pos_eq by lra; pose proof M64_big as MB; rewrite bpow70 in MB; lra).
  assert (Fd : is_finite (f64_div v c) = true).
  { destruct (f64_div v c) as [s|[]| |s m e H]; try reflexivity; [| |discriminate]; cbn [toR] in E1;
      pose proof M64_big as MB; rewrite bpow70 in MB; lra. }
  rewrite (toR_fin _ _ _ Fd) in E1. split; [exact Fd|]. rewrite E1. split; [lra|].
  pose proof (rnd_rel _ Q) as RR. unfold Rdiv in *.
  assert (Pv : 0 < B2R v) by lra.
  assert (D : Rabs (B2R v * / B2R c - B2R v * k) <= bpow radix2 (-52) * (B2R v * k)).
  { rewrite <- Rmult_minus_distr_l, Rabs_mult, (Rabs_pos_eq (B2R v)) by lra. 
    replace (bpow radix2 (-52) * (B2R v * k)) with (B2R v * (bpow radix2 (-52) * k)) by ring. apply Rmult_le_compat_l; lra. }
  set (a := B2R v * / B2R c) in *. set (t := B2R v * k) in *.
  assert (Pt : 0 < t) by (unfold t; apply Rmult_lt_0_compat; lra).
  change (bpow radix2 (-52)) with (/ 4503599627370496) in *. change (bpow radix2 (-50)) with (/ 1125899906842624).
  apply Rabs_le_inv in RR. apply Rabs_le_inv in D. apply Rabs_le. lra.
Qed.

Lemma one_over_pm : is_finite (f64_div (lit 1) per_minute) = true /\ B2R (f64_div (lit 1) per_minute) <= 60.
Proof. split; [vm_compute; reflexivity|]. compute_B2R. lra. Qed.
Lemma pm_over_ph : is_finite (f64_div per_minute per_hour) = true /\ B2R (f64_div per_minute per_hour) <= 60.
Proof. split; [vm_compute; reflexivity|]. compute_B2R. lra. Qed.

(** values of one minute / one hour resolution, shared by the byte-rate and custom-unit tables *)
Lemma minute_scaled v : is_finite v = true -> B2R per_minute <= B2R v -> B2R v < 1 ->
  is_finite (f64_div v per_minute) = true /\ 1 <= B2R (f64_div v per_minute) <= 60 /\
  Rabs (B2R (f64_div v per_minute) - B2R v * 60) <= bpow radix2 (-50) * (B2R v * 60).
Proof.
  intros F L1 L2. apply div_const with (h := lit 1); try assumption.
  - exact pm_fin.
  - apply lit_fin; vm_compute; congruence.
  - rewrite pm_R; lra.
  - rewrite of_int_exact by (vm_compute; congruence). lra.
  - apply one_over_pm.
  - apply one_over_pm.
  - rewrite pm_R. change (bpow radix2 (-52)) with (/ 4503599627370496). apply Rabs_le. 
    replace (/ (4803839602528529 / 288230376151711744)) with (288230376151711744 / 4803839602528529) by (field; lra). lra.
  - lra.
Qed.
Lemma hour_scaled v : is_finite v = true -> B2R per_hour <= B2R v -> B2R v < B2R per_minute ->
  is_finite (f64_div v per_hour) = true /\ 1 <= B2R (f64_div v per_hour) <= 60 /\
  Rabs (B2R (f64_div v per_hour) - B2R v * 3600) <= bpow radix2 (-50) * (B2R v * 3600).
Proof.
  intros F L1 L2. apply div_const with (h := per_minute); try assumption.
  - exact ph_fin.
  - exact pm_fin.
  - rewrite ph_R; lra.
  - lra.
  - apply pm_over_ph.
  - apply pm_over_ph.
  - rewrite ph_R. change (bpow radix2 (-52)) with (/ 4503599627370496). apply Rabs_le. 
    replace (/ (5124095576030431 / 18446744073709551616)) with (18446744073709551616 / 5124095576030431) by (field; lra). lra.
  - lra.
Qed.

(** The thresholds 1/60 and 1/3600 of the code are the nearest doubles. *)
Theorem C52_thresholds :
  Rabs (B2R per_minute - 1 / 60) <= bpow radix2 (-58) /\ Rabs (B2R per_hour - 1 / 3600) <= bpow radix2 (-64).
Proof.
  rewrite pm_R, ph_R. change (bpow radix2 (-58)) with (/ 288230376151711744). change (bpow radix2 (-64)) with (/ 18446744073709551616).
  split; apply Rabs_le; lra.
Qed.
Print Assumptions C52_thresholds.

Theorem C52_byte_rates : forall c v, is_finite v = true -> 0 <= B2R v ->
  let x := B2R v in
  exists digits scaled u,
    display c (bytes_per_second_measurement v) = Some (Val (TFixed digits scaled u)) /\ is_finite scaled = true /\
    ( 1 <= x /\ digits = 2%nat /\
        (exists size, right_unit byte_rate_units x u size /\ B2R scaled = x / size /\
                      1 <= B2R scaled /\ (x < 1024 * 1099511627776 -> B2R scaled < 1024))
    \/ B2R per_minute <= x < 1 /\ digits = 2%nat /\ u = "b/min"%string /\
         1 <= B2R scaled <= 60 /\ Rabs (B2R scaled - x * 60) <= bpow radix2 (-50) * (x * 60)
    \/ B2R per_hour <= x < B2R per_minute /\ digits = 2%nat /\ u = "b/hr"%string /\
         1 <= B2R scaled <= 60 /\ Rabs (B2R scaled - x * 3600) <= bpow radix2 (-50) * (x * 3600)
    \/ x < B2R per_hour /\ digits = 0%nat /\ u = "b/s"%string /\ scaled = v).
Proof.
  intros c v F P. cbv zeta. unfold display, bytes_per_second_measurement. cbn [deref pm_scale pm_value]. rewrite byte_rate_rows. unfold display_table.
  cbn [find sr_threshold]. lits F.
  assert (U : forall (u : string) size, In (u, size) byte_rate_units -> size <= B2R v -> (B2R v < 1024 * size \/ size = 1099511627776) -> right_unit byte_rate_units (B2R v) u size).
  { intros u size I1 I2 I3. split; [exact I1|]. split; [left; exact I2|]. intros u' size' I4 L.
    cbn [byte_rate_units In] in I1, I4.
    repeat match goal with H : _ \/ _ |- _ => destruct H as [H|H] end; try contradiction;
      injection I1 as <- <-; injection I4 as <- <-; lra. }
  assert (ONE : f64_div v (lit 1) = v) by (apply div_one, fin_not_nan, F).
  destruct (Rle_or_lt (IZR TIB) (B2R v)) as [L|L]; [le_true (IZR TIB)|le_false (IZR TIB)].
  { destruct (div_pow2 v 40 F ltac:(lia) L) as [DF DE]. change (2 ^ 40)%Z with TIB in *.
    cbn [sr_format sr_rate sr_suffix]. eexists 2%nat, (f64_div v (lit TIB)), _. split; [reflexivity|]. split; [exact DF|]. left. unfold TIB in *.
    split; [lra|]. split; [reflexivity|]. exists 1099511627776. split; [apply U; [cbn; tauto|lra|right; reflexivity]|].
    rewrite DE. split; [lra|]. split; [|intros X]; lra. }
  destruct (Rle_or_lt (IZR GIB) (B2R v)) as [L2|L2]; [le_true (IZR GIB)|le_false (IZR GIB)].
  { destruct (div_pow2 v 30 F ltac:(lia) L2) as [DF DE]. change (2 ^ 30)%Z with GIB in *.
    cbn [sr_format sr_rate sr_suffix]. eexists 2%nat, (f64_div v (lit GIB)), _. split; [reflexivity|]. split; [exact DF|]. left. unfold TIB, GIB in *.
    split; [lra|]. split; [reflexivity|]. exists 1073741824. split; [apply U; [cbn; tauto|lra|left; lra]|].
    rewrite DE. split; [lra|]. split; [|intros X]; lra. }
  destruct (Rle_or_lt (IZR MIB) (B2R v)) as [L3|L3]; [le_true (IZR MIB)|le_false (IZR MIB)].
  { destruct (div_pow2 v 20 F ltac:(lia) L3) as [DF DE]. change (2 ^ 20)%Z with MIB in *.
    cbn [sr_format sr_rate sr_suffix]. eexists 2%nat, (f64_div v (lit MIB)), _. split; [reflexivity|]. split; [exact DF|]. left. unfold GIB, MIB in *.
    split; [lra|]. split; [reflexivity|]. exists 1048576. split; [apply U; [cbn; tauto|lra|left; lra]|].
    rewrite DE. split; [lra|]. split; [|intros X]; lra. }
  destruct (Rle_or_lt (IZR KIB) (B2R v)) as [L4|L4]; [le_true (IZR KIB)|le_false (IZR KIB)].
  { destruct (div_pow2 v 10 F ltac:(lia) L4) as [DF DE]. change (2 ^ 10)%Z with KIB in *.
    cbn [sr_format sr_rate sr_suffix]. eexists 2%nat, (f64_div v (lit KIB)), _. split; [reflexivity|]. split; [exact DF|]. left. unfold MIB, KIB in *.
    split; [lra|]. split; [reflexivity|]. exists 1024. split; [apply U; [cbn; tauto|lra|left; lra]|].
    rewrite DE. split; [lra|]. split; [|intros X]; lra. }
  unfold KIB in *.
  destruct (Rle_or_lt 1 (B2R v)) as [L5|L5]; [le_true 1|le_false 1].
  { cbn [sr_format sr_rate sr_suffix]. rewrite ONE. eexists 2%nat, v, _. split; [reflexivity|]. split; [exact F|]. left.
    split; [lra|]. split; [reflexivity|]. exists 1. split; [apply U; [cbn; tauto|lra|left; lra]|]. split; [field|]. split; [|intros X]; lra. }
  destruct (Rle_or_lt (B2R per_minute) (B2R v)) as [L6|L6]; [le_true (B2R per_minute)|le_false (B2R per_minute)].
  { destruct (minute_scaled v F L6 L5) as (DF & DB & DE). cbn [sr_format sr_rate sr_suffix]. eexists 2%nat, (f64_div v per_minute), _. split; [reflexivity|].
    split; [exact DF|]. right. left. repeat split; try reflexivity; try lra; exact DE. }
  destruct (Rle_or_lt (B2R per_hour) (B2R v)) as [L7|L7]; [le_true (B2R per_hour)|le_false (B2R per_hour)].
  { destruct (hour_scaled v F L7 L6) as (DF & DB & DE). cbn [sr_format sr_rate sr_suffix]. eexists 2%nat, (f64_div v per_hour), _. split; [reflexivity|].
    split; [exact DF|]. right. right. left. repeat split; try reflexivity; try lra; exact DE. }
  le_true 0. cbn [sr_format sr_rate sr_suffix]. rewrite ONE. eexists 0%nat, v, _. split; [reflexivity|]. split; [exact F|].
  right. right. right. repeat split; try reflexivity. lra.
Qed.
Print Assumptions C52_byte_rates.

(** ** C52, custom units (a first call, with empty caches; C53 says all calls are like the first) *)
Definition first_unit_display (v : f64) (u : string) : option (res text) :=
  let '(p, c) := custom_unit_measurement no_caches v u in display c p.
Definition first_unit_rate_display (v : f64) (u : string) : option (res text) :=
  let '(p, c) := custom_unit_per_second_measurement no_caches v u in display c p.

Lemma first_unit v u : first_unit_display v u = Some (display_table (unit_table u) v).
Proof. unfold first_unit_display, custom_unit_measurement, display. cbn [deref pm_scale ca_unit no_caches get_or_insert or_insert lookup]. rewrite String.eqb_refl. reflexivity. Qed.
Lemma first_unit_rate v u : first_unit_rate_display v u = Some (display_table (unit_rate_table u) v).
Proof. unfold first_unit_rate_display, custom_unit_per_second_measurement, display. cbn [deref pm_scale ca_unit_rate no_caches get_or_insert or_insert lookup]. rewrite String.eqb_refl. reflexivity. Qed.

Theorem C52_custom_units : forall v u, is_finite v = true -> 0 <= B2R v ->
  let x := B2R v in
  (100000 <= x -> first_unit_display v u = Some (Val (TExp 3 v u))) /\
  (1 <= x < 100000 -> first_unit_display v u = Some (Val (TFixed 2 v u))) /\
  (x < 1 -> first_unit_display v u = Some (Val (TFixed 0 v u))).
Proof.
  intros v u F P. cbv zeta. rewrite !first_unit. unfold display_table, unit_table. cbn [find map sr_threshold]. lits F.
  assert (ONE : f64_div v (lit 1) = v) by (apply div_one, fin_not_nan, F).
  repeat split; intros H; [le_true 100000|le_false 100000; le_true 1|le_false 100000; le_false 1; le_true 0];
    cbn [sr_format sr_rate sr_suffix]; rewrite ONE; reflexivity.
Qed.
Print Assumptions C52_custom_units.

Theorem C52_custom_unit_rates : forall v u, is_finite v = true -> 0 <= B2R v ->
  let x := B2R v in
  (100000 <= x -> first_unit_rate_display v u = Some (Val (TExp 3 v (u ++ "/s")))) /\
  (1 <= x < 100000 -> first_unit_rate_display v u = Some (Val (TFixed 2 v (u ++ "/s")))) /\
  (B2R per_minute <= x < 1 -> exists scaled, first_unit_rate_display v u = Some (Val (TFixed 2 scaled (u ++ "/min"))) /\
     is_finite scaled = true /\ 1 <= B2R scaled <= 60 /\ Rabs (B2R scaled - x * 60) <= bpow radix2 (-50) * (x * 60)) /\
  (B2R per_hour <= x < B2R per_minute -> exists scaled, first_unit_rate_display v u = Some (Val (TFixed 2 scaled (u ++ "/hr"))) /\
     is_finite scaled = true /\ 1 <= B2R scaled <= 60 /\ Rabs (B2R scaled - x * 3600) <= bpow radix2 (-50) * (x * 3600)) /\
  (x < B2R per_hour -> first_unit_rate_display v u = Some (Val (TFixed 0 v (u ++ "/s")))).
Proof.
  intros v u F P. cbv zeta. rewrite !first_unit_rate. unfold display_table, unit_rate_table. cbn [find map sr_threshold]. lits F.
  assert (ONE : f64_div v (lit 1) = v) by (apply div_one, fin_not_nan, F).
  pose proof pm_R as PM. pose proof ph_R as PH.
  split; [|split; [|split; [|split]]]; intros H.
  - le_true 100000. cbn [sr_format sr_rate sr_suffix]. rewrite ONE. reflexivity.
  - le_false 100000. le_true 1. cbn [sr_format sr_rate sr_suffix]. rewrite ONE. reflexivity.
  - le_false 100000. le_false 1. le_true (B2R per_minute). cbn [sr_format sr_rate sr_suffix]. exists (f64_div v per_minute). split; [reflexivity|].
    apply minute_scaled; tauto.
  - le_false 100000. le_false 1. le_false (B2R per_minute). le_true (B2R per_hour). cbn [sr_format sr_rate sr_suffix]. exists (f64_div v per_hour). split; [reflexivity|].
    apply hour_scaled; tauto.
  - le_false 100000. le_false 1. le_false (B2R per_minute). le_false (B2R per_hour). le_true 0. cbn [sr_format sr_rate sr_suffix]. rewrite ONE. reflexivity.
Qed.
Print Assumptions C52_custom_unit_rates.

(** ** C52: the fallback, and no unknown format *)
Definition built_in (t : table) : Prop :=
  t = bytes_table \/ t = byte_rate_table \/ (exists u, t = unit_table u) \/ (exists u, t = unit_rate_table u).
Definition row_ok (r : scale_row) : Prop :=
  is_nan (sr_threshold r) = false /\ 0 <= toR64 (sr_threshold r) /\ In (sr_format r) [":.0"; ":.2"; ":.3e"]%string.
Lemma built_in_rows t : built_in t -> Forall row_ok t /\ (exists r, In r t /\ sr_threshold r = zero64).
Proof.
  assert (Z : forall z f s q, (0 <= z <= 2 ^ 53)%Z -> In f [":.0"; ":.2"; ":.3e"]%string -> row_ok (ScaleRow (lit z) q s f)).
  { intros z f s q H I. split; [apply lit_nan; cbn; lia|]. split; [|exact I]. cbn [sr_threshold]. rewrite lit_R by lia. apply IZR_le. lia. }
  assert (ZZ : forall f s q, In f [":.0"; ":.2"; ":.3e"]%string -> row_ok (ScaleRow zero64 q s f)).
  { intros f s q I. split; [reflexivity|]. split; [|exact I]. cbn [sr_threshold]. rewrite zero_R; lra. }
  assert (ZM : forall f s q, In f [":.0"; ":.2"; ":.3e"]%string -> row_ok (ScaleRow per_minute q s f)).
  { intros f s q I. split; [reflexivity|]. split; [|exact I]. cbn [sr_threshold]. rewrite (toR_fin _ _ _ pm_fin), pm_R. lra. }
  assert (ZH : forall f s q, In f [":.0"; ":.2"; ":.3e"]%string -> row_ok (ScaleRow per_hour q s f)).
  { intros f s q I. split; [reflexivity|]. split; [|exact I]. cbn [sr_threshold]. rewrite (toR_fin _ _ _ ph_fin), ph_R. lra. }
  intros B. destruct B as [->|[->|[[u ->]|[u ->]]]].
  1: rewrite bytes_rows. 2: rewrite byte_rate_rows. 3: unfold unit_table; cbn [map]. 4: unfold unit_rate_table.
  all: split; [repeat (constructor; [first [apply Z; [unfold TIB, GIB, MIB, KIB; lia|]|apply ZZ|apply ZM|apply ZH]; cbn; tauto|]); constructor|].
  - eexists. split; [do 5 right; left; reflexivity|reflexivity].
  - eexists. split; [do 7 right; left; reflexivity|reflexivity].
  - eexists. split; [do 2 right; left; reflexivity|reflexivity].
  - eexists. split; [do 4 right; left; reflexivity|reflexivity].
Qed.
(** it never panics; the fallback text appears exactly for NaN and negative values *)
Theorem C52_fallback_exactly_negative_or_nan : forall t v, built_in t ->
  (find (fun r => f64_leb (sr_threshold r) v) t = None <-> is_nan v = true \/ toR64 v < 0) /\
  (is_nan v = true \/ toR64 v < 0 -> display_table t v = Val (TFixed 2 v "<missing_unit_suffix_please_fix>")) /\
  exists x, display_table t v = Val x.
Proof.
  intros t v B. destruct (built_in_rows t B) as [RO (r0 & I0 & Z0)]. rewrite Forall_forall in RO.
  assert (FN : find (fun r => f64_leb (sr_threshold r) v) t = None <-> is_nan v = true \/ toR64 v < 0).
  { split.
    - intros N. pose proof (find_none _ _ N r0 I0) as L. cbn beta in L. rewrite Z0 in L.
      destruct (is_nan v) eqn:NV; [left; reflexivity|right]. rewrite leb_real in L by (reflexivity || exact NV). rewrite zero_R in L.
      revert L. case Rle_bool_spec; intros L E; [discriminate|exact L].
    - intros N. destruct (find (fun r => f64_leb (sr_threshold r) v) t) as [r|] eqn:E; [|reflexivity]. exfalso.
      apply find_some in E. destruct E as [I E]. destruct (RO r I) as (A1 & A2 & _). apply leb_true in E. destruct E as (_ & E1 & E2).
      destruct N as [N|N]; [congruence|lra]. }
  split; [exact FN|]. unfold display_table. split.
  - intros N. rewrite (proj2 FN N). reflexivity.
  - destruct (find (fun r => f64_leb (sr_threshold r) v) t) as [r|] eqn:E; [|eexists; reflexivity].
    apply find_some in E. destruct E as [I _]. destruct (RO r I) as (_ & _ & A).
    cbn [In] in A. destruct A as [<-|[<-|[<-|[]]]]; eexists; reflexivity.
Qed.
Print Assumptions C52_fallback_exactly_negative_or_nan.
(** the fallback text itself shows up for byte tables exactly then, and so for custom units unless the unit is that text *)
Theorem C52_bytes_fallback_text : forall v t d, t = bytes_table \/ t = byte_rate_table ->
  display_table t v = Val (TFixed d v "<missing_unit_suffix_please_fix>") -> is_nan v = true \/ toR64 v < 0.
Proof.
  intros v t d B E.
  assert (BI : built_in t) by (unfold built_in; tauto). apply (proj1 (C52_fallback_exactly_negative_or_nan t v BI)).
  unfold display_table in E. destruct (find (fun r => f64_leb (sr_threshold r) v) t) as [r|] eqn:FE; [exfalso|reflexivity].
  apply find_some in FE. destruct FE as [I _].
  assert (S : In (sr_suffix r, sr_format r) (map (fun r => (sr_suffix r, sr_format r)) t)) by (apply in_map_iff; eauto).
  revert E. generalize (f64_div v (sr_rate r)). intros y E.
  destruct B as [-> | ->]; [rewrite bytes_rows in S|rewrite byte_rate_rows in S]; cbn [map sr_suffix sr_format In] in S;
    repeat (destruct S as [S|S]; [injection S as S1 S2; rewrite <- S1, <- S2 in E; cbn [render String.eqb Ascii.eqb Bool.eqb] in E; congruence|]); destruct S.
Qed.
Print Assumptions C52_bytes_fallback_text.
(** infinity is shown in the top unit *)
Theorem C52_infinity : forall c,
  display c (bytes_measurement (B754_infinity false)) = Some (Val (TFixed 2 (B754_infinity false) "TiB")) /\
  display c (bytes_per_second_measurement (B754_infinity false)) = Some (Val (TFixed 2 (B754_infinity false) "TiB/s")).
Proof. intros c. split; vm_compute; reflexivity. Qed.

(** any table, built-in or not: the first row whose threshold the value reaches decides; a format
    ":.k" (k = 0..3) shows k decimals, ":.3e" the exponent form, any format outside the six known
    ones panics *)
Theorem C52_any_table : forall before row after v,
  let t := (before ++ row :: after)%list in
  (forall q, In q before -> f64_leb (sr_threshold q) v = false) -> f64_leb (sr_threshold row) v = true ->
  let scaled := f64_div v (sr_rate row) in
  (forall k digit, nth_error ["0"; "1"; "2"; "3"]%string k = Some digit -> sr_format row = (":." ++ digit)%string ->
     display_table t v = Val (TFixed k scaled (sr_suffix row))) /\
  (sr_format row = ":.3e"%string -> display_table t v = Val (TExp 3 scaled (sr_suffix row))) /\
  (~ In (sr_format row) [":.0"; ":.1"; ":.2"; ":.3"; ":.3e"; ":D"]%string -> display_table t v = Panic PFormat).
Proof.
  intros before row after v t Hb Hr scaled.
  assert (F : find (fun r => f64_leb (sr_threshold r) v) t = Some row).
  { unfold t. induction before as [|q l IH]; cbn [app find].
    - rewrite Hr. reflexivity.
    - rewrite (Hb q) by (left; reflexivity). apply IH. intros q' H. apply Hb. right. exact H. }
  unfold display_table. rewrite F. fold scaled. split; [|split].
  - intros k d Hk E. rewrite E. destruct k as [|[|[|[|k]]]]; cbn [nth_error] in Hk; try (injection Hk as <-; reflexivity).
    destruct k; discriminate.
  - intros ->. reflexivity.
  - intros N. unfold render.
    repeat match goal with |- context [String.eqb ?a ?b] => destruct (String.eqb_spec a b) as [Q|_]; [exfalso; apply N; rewrite Q; cbn; tauto|] end.
    reflexivity.
Qed.
Print Assumptions C52_any_table.
Example C52_any_table_example :
  let row := ScaleRow (lit 10) (lit 10) "tens"%string ":.1"%string in
  f64_leb (sr_threshold row) (lit 25) = true /\ f64_leb (lit 100) (lit 25) = false.
Proof. split; vm_compute; reflexivity. Qed.

(** ** C53: the caches are transparent: whatever calls are made before, and between the
    making of a measurement and its display, the text is that of a first call *)
Inductive unit_call := CallUnit (v : f64) (u : string) | CallUnitRate (v : f64) (u : string).
Definition perform (c : caches) (k : unit_call) : caches :=
  match k with
  | CallUnit v u => snd (custom_unit_measurement c v u)
  | CallUnitRate v u => snd (custom_unit_per_second_measurement c v u)
  end.
Definition history (c : caches) (ks : list unit_call) : caches := fold_left perform ks c.

Definition maps_to (mk : string -> table) (m : option hash_map) : Prop :=
  forall h k t, m = Some h -> lookup k h = Some t -> t = mk k.
Definition caches_ok (c : caches) : Prop := maps_to unit_table (ca_unit c) /\ maps_to unit_rate_table (ca_unit_rate c).
Lemma or_insert_lookup k k' mk h : lookup k (or_insert k' mk h) =
  match lookup k h with Some t => Some t | None => if String.eqb k k' then Some mk else None end.
Proof.
  unfold or_insert. destruct (lookup k' h) as [t'|] eqn:E'.
  - destruct (lookup k h) as [t|] eqn:E; [reflexivity|]. destruct (String.eqb_spec k k') as [->|N]; [congruence|reflexivity].
  - cbn [lookup]. destruct (String.eqb_spec k k') as [->|N]; [rewrite E'; reflexivity|]. destruct (lookup k h); reflexivity.
Qed.
Lemma maps_to_insert mk m u : maps_to mk m -> maps_to mk (Some (or_insert u (mk u) (get_or_insert m))).
Proof.
  intros H h k t E L. injection E as <-. rewrite or_insert_lookup in L. destruct m as [h|]; cbn [get_or_insert] in L.
  - destruct (lookup k h) as [t'|] eqn:E; [injection L as <-; apply (H h k t' eq_refl E)|].
    destruct (String.eqb_spec k u) as [->|N]; [congruence|discriminate].
  - cbn [lookup] in L. destruct (String.eqb_spec k u) as [->|N]; [congruence|discriminate].
Qed.
Lemma perform_ok c k : caches_ok c -> caches_ok (perform c k).
Proof. intros [A B]. destruct k; split; cbn; try assumption; apply maps_to_insert; assumption. Qed.
Lemma history_ok ks : forall c, caches_ok c -> caches_ok (history c ks).
Proof. induction ks as [|k ks IH]; intros c H; [exact H|]. cbn [history fold_left]. apply IH, perform_ok, H. Qed.
(** entries stay *)
Definition extends (m m' : option hash_map) : Prop :=
  forall h k t, m = Some h -> lookup k h = Some t -> exists h', m' = Some h' /\ lookup k h' = Some t.
Lemma extends_refl m : extends m m. Proof. intros h k t -> L. eauto. Qed.
Lemma extends_insert m u mk : extends m (Some (or_insert u mk (get_or_insert m))).
Proof. intros h k t -> L. eexists. split; [reflexivity|]. rewrite or_insert_lookup. cbn [get_or_insert]. rewrite L. reflexivity. Qed.
Lemma history_extends ks : forall c, extends (ca_unit c) (ca_unit (history c ks)) /\ extends (ca_unit_rate c) (ca_unit_rate (history c ks)).
Proof.
  induction ks as [|k ks IH]; intros c; [split; apply extends_refl|]. cbn [history fold_left].
  destruct (IH (perform c k)) as [A B]. split; intros h q t E L.
  - destruct k; [|exact (A h q t E L)]. destruct (extends_insert (ca_unit c) u (unit_table u) h q t E L) as (h' & E' & L'). exact (A h' q t E' L').
  - destruct k; [exact (B h q t E L)|]. destruct (extends_insert (ca_unit_rate c) u (unit_rate_table u) h q t E L) as (h' & E' & L'). exact (B h' q t E' L').
Qed.
Lemma no_caches_ok : caches_ok no_caches. Proof. split; intros h k t E; discriminate. Qed.

Theorem C53_caches_are_transparent : forall before after v u,
  (let '(p, c) := custom_unit_measurement (history no_caches before) v u in
   display (history c after) p = first_unit_display v u) /\
  (let '(p, c) := custom_unit_per_second_measurement (history no_caches before) v u in
   display (history c after) p = first_unit_rate_display v u).
Proof.
  intros before after v u. pose proof (history_ok before _ no_caches_ok) as [O1 O2]. set (c0 := history no_caches before) in *. split.
  - unfold custom_unit_measurement. set (c1 := Caches _ _). rewrite first_unit. unfold display. cbn [pm_scale pm_value deref].
    assert (L : exists h t, ca_unit c1 = Some h /\ lookup u h = Some t /\ t = unit_table u).
    { cbn [c1 ca_unit]. eexists. destruct (lookup u (get_or_insert (ca_unit c0))) as [t|] eqn:E.
      - exists t. split; [reflexivity|]. split; [rewrite or_insert_lookup, E; reflexivity|]. destruct (ca_unit c0) as [h|]; [|discriminate]. apply (O1 h u t eq_refl E).
      - exists (unit_table u). split; [reflexivity|]. split; [rewrite or_insert_lookup, E, String.eqb_refl; reflexivity|reflexivity]. }
    destruct L as (h & t & E & L & ->). destruct (proj1 (history_extends after c1) h u _ E L) as (h' & -> & ->). reflexivity.
  - unfold custom_unit_per_second_measurement. set (c1 := Caches _ _). rewrite first_unit_rate. unfold display. cbn [pm_scale pm_value deref].
    assert (L : exists h t, ca_unit_rate c1 = Some h /\ lookup u h = Some t /\ t = unit_rate_table u).
    { cbn [c1 ca_unit_rate]. eexists. destruct (lookup u (get_or_insert (ca_unit_rate c0))) as [t|] eqn:E.
      - exists t. split; [reflexivity|]. split; [rewrite or_insert_lookup, E; reflexivity|]. destruct (ca_unit_rate c0) as [h|]; [|discriminate]. apply (O2 h u t eq_refl E).
      - exists (unit_rate_table u). split; [reflexivity|]. split; [rewrite or_insert_lookup, E, String.eqb_refl; reflexivity|reflexivity]. }
    destruct L as (h & t & E & L & ->). destruct (proj2 (history_extends after c1) h u _ E L) as (h' & -> & ->). reflexivity.
Qed.
Print Assumptions C53_caches_are_transparent.
(** a unit that was used before, with other values, and is used again before the display *)
Example C53_example :
  let c := history no_caches [CallUnit (f64_of_int 7) "files"; CallUnitRate (f64_of_int 1) "files"] in
  let '(p, c') := custom_unit_measurement c (f64_of_int 250000) "files" in
  match display (history c' [CallUnit (f64_of_int 3) "files"; CallUnit (f64_of_int 3) "rows"]) p with
  | Some (Val (TExp 3 v "files")) => f64_leb v (f64_of_int 250000) && f64_leb (f64_of_int 250000) v
  | _ => false end = true.
Proof. vm_compute. reflexivity. Qed.
