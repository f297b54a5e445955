(** * Accuracy of the conversions between durations and f64 seconds. *)
From Coq Require Import ZArith Reals Lra Lia Bool List Psatz.
From Flocq Require Import Core.Core IEEE754.BinarySingleNaN Relative.
From Verif Require Import Machine Floats Analysis AnalysisF64 AnalysisF64b AnalysisF64d Report ReportProofs PassTime.
Import ListNotations.
Open Scope R_scope.

Definition uu : R := / 9007199254740992.  (* 2^-53 *)
Lemma uu_bpow : uu = / 2 * bpow radix2 (-52).
Proof. unfold uu. change (bpow radix2 (-52)) with (/ 4503599627370496). lra. Qed.
Lemma uu_pos : 0 < uu < 1 / 1000. Proof. unfold uu. lra. Qed.

(** [x] is [y] up to [k] roundings *)
Definition rel (k : nat) (x y : R) : Prop := y * (1 - uu) ^ k <= x <= y * (1 + uu) ^ k.
Definition big (x : R) : Prop := x = 0 \/ bpow radix2 (-900) <= x.
Lemma big_nonneg x : big x -> 0 <= x.
Proof. intros [->|H]; [lra|]. pose proof (bpow_gt_0 radix2 (-900)). lra. Qed.

Lemma rel_refl x : rel 0 x x. Proof. unfold rel. cbn. lra. Qed.
Lemma pow_lo k : 0 < (1 - uu) ^ k <= 1.
Proof. pose proof uu_pos. induction k as [|k IH]; cbn; [lra|]. nra. Qed.
Lemma pow_hi k : 1 <= (1 + uu) ^ k.
Proof. pose proof uu_pos. induction k as [|k IH]; cbn; [lra|]. nra. Qed.
Lemma rel_nonneg k x y : 0 <= y -> rel k x y -> 0 <= x.
Proof. intros H [L _]. pose proof (pow_lo k). nra. Qed.
Lemma rel_trans j k x y z : 0 <= z -> rel j x y -> rel k y z -> rel (j + k) x z.
Proof.
  intros Hz [A1 A2] [B1 B2]. pose proof (pow_lo j). pose proof (pow_hi j). pose proof (pow_lo k). pose proof (pow_hi k).
  unfold rel. rewrite !pow_add. split.
  - apply Rle_trans with (y * (1 - uu) ^ j); [|exact A1]. replace (z * ((1 - uu) ^ j * (1 - uu) ^ k)) with ((z * (1 - uu) ^ k) * (1 - uu) ^ j) by ring.
    apply Rmult_le_compat_r; lra.
  - apply Rle_trans with (y * (1 + uu) ^ j); [exact A2|]. replace (z * ((1 + uu) ^ j * (1 + uu) ^ k)) with ((z * (1 + uu) ^ k) * (1 + uu) ^ j) by ring.
    apply Rmult_le_compat_r; lra.
Qed.
Lemma rel_weaken j k x y : 0 <= y -> (j <= k)%nat -> rel j x y -> rel k x y.
Proof.
  intros Hy L [A1 A2]. replace k with (j + (k - j))%nat by lia. unfold rel. rewrite !pow_add.
  pose proof (pow_lo j). pose proof (pow_hi j). pose proof (pow_lo (k - j)). pose proof (pow_hi (k - j)).
  assert (0 <= y * (1 - uu) ^ j) by (apply Rmult_le_pos; lra). assert (0 <= y * (1 + uu) ^ j) by (apply Rmult_le_pos; lra).
  split; [apply Rle_trans with (2 := A1)|apply Rle_trans with (1 := A2)]; rewrite <- Rmult_assoc; nra.
Qed.
Lemma rel_plus k x y x' y' : rel k x y -> rel k x' y' -> rel k (x + x') (y + y').
Proof. unfold rel. intros. lra. Qed.
Lemma rel_scale k x y c : 0 <= c -> rel k x y -> rel k (x * c) (y * c).
Proof. intros H [A B]. unfold rel. split; [replace (y * c * (1 - uu) ^ k) with (y * (1 - uu) ^ k * c) by ring|replace (y * c * (1 + uu) ^ k) with (y * (1 + uu) ^ k * c) by ring]; apply Rmult_le_compat_r; assumption. Qed.
Lemma rel_rnd x : big x -> rel 1 (rnd64 x) x.
Proof.
  intros [->|H].
  - rewrite round_0 by apply valid_rnd_N. unfold rel. lra.
  - pose proof (bpow_gt_0 radix2 (-900)) as P. change (SpecFloat.fexp 53 1024) with (FLT_exp (SpecFloat.emin 53 1024) 53).
    pose proof (relative_error_N_FLT radix2 (SpecFloat.emin 53 1024) 53 ltac:(reflexivity) (fun z => negb (Z.even z)) x) as E.
    rewrite Rabs_pos_eq in E by lra. specialize (E ltac:(apply Rle_trans with (2 := H); apply bpow_le; unfold SpecFloat.emin; lia)).
    apply Rabs_le_inv in E. assert (EQ : / 2 * bpow radix2 (Z.opp 53 + 1) = uu) by (rewrite uu_bpow; reflexivity). rewrite EQ in E. unfold rel. cbn [pow]. lra.
Qed.
Lemma big_rnd x : big x -> big (rnd64 x).
Proof.
  intros [->|H]; [left; apply round_0, valid_rnd_N|right].
  apply round_ge_generic; try exact _; [|exact H]. apply generic_format_bpow. unfold SpecFloat.fexp, SpecFloat.emin. lia.
Qed.
Lemma big_plus x y : big x -> big y -> big (x + y).
Proof. intros A B. pose proof (big_nonneg _ A). pose proof (big_nonneg _ B). destruct A as [->|A]; [rewrite Rplus_0_l; exact B|right; lra]. Qed.

(** the accumulated error *)
Lemma bernoulli_lo k : 1 - INR k * uu <= (1 - uu) ^ k.
Proof.
  pose proof uu_pos. induction k as [|k IH]; [cbn; lra|]. rewrite S_INR. cbn [pow]. pose proof (pow_lo k). pose proof (pos_INR k). nra.
Qed.
Lemma bernoulli_hi k : INR k * uu <= 1 / 2 -> (1 + uu) ^ k <= 1 + 2 * (INR k * uu).
Proof.
  pose proof uu_pos. induction k as [|k IH]; [cbn; lra|]. rewrite S_INR. cbn [pow]. pose proof (pos_INR k). intros L.
  assert (L' : INR k * uu <= 1 / 2) by nra. specialize (IH L'). nra.
Qed.
Lemma rel_error k x y : 0 <= y -> INR k * uu <= 1 / 2 -> rel k x y -> Rabs (x - y) <= 2 * (INR k * uu) * y.
Proof.
  intros Hy Hk [A B]. pose proof (bernoulli_lo k). pose proof (bernoulli_hi k Hk). pose proof (pos_INR k). pose proof uu_pos.
  assert (0 <= INR k * uu) by nra. apply Rabs_le. split; nra.
Qed.

(** ** as_secs_f64 *)
Lemma big_small_frac (z : Z) : (0 <= z)%Z -> big (IZR z / 1000000000).
Proof.
  intros H. destruct (Z.eq_dec z 0) as [->|N]; [left; lra|right]. assert (1 <= IZR z) by (apply IZR_le; lia).
  apply Rle_trans with (bpow radix2 (-30)); [apply bpow_le; lia|]. change (bpow radix2 (-30)) with (/ 1073741824). lra.
Qed.
Lemma big_IZR (z : Z) : (0 <= z)%Z -> big (IZR z).
Proof.
  intros H. destruct (Z.eq_dec z 0) as [->|N]; [left; lra|right]. assert (1 <= IZR z) by (apply IZR_le; lia).
  apply Rle_trans with (bpow radix2 0); [apply bpow_le; lia|cbn; lra].
Qed.
Lemma as_secs_rel d : duration_sane d -> big (B2R (as_secs_f64 d)) /\ rel 2 (B2R (as_secs_f64 d)) (IZR d / 1000000000).
Proof.
  intros H. destruct (as_secs_spec d H) as [F ->]. destruct H as [H0 H1].
  pose proof (Z.div_mod d nanos_per_sec ltac:(discriminate)) as DM. pose proof (Z.mod_pos_bound d nanos_per_sec ltac:(reflexivity)) as MB.
  pose proof (Z.div_pos d nanos_per_sec H0 ltac:(reflexivity)) as DP. set (s := (d / nanos_per_sec)%Z) in *. set (r := (d mod nanos_per_sec)%Z) in *.
  assert (E : IZR d / 1000000000 = IZR s + IZR r / 1000000000).
  { rewrite DM, plus_IZR, mult_IZR. change (IZR nanos_per_sec) with 1000000000. lra. }
  assert (B1 := big_IZR s DP). assert (B2 := big_small_frac r ltac:(lia)). assert (B3 := big_rnd _ B2).
  split; [apply big_rnd, big_plus; assumption|]. rewrite E.
  apply (rel_trans 1 1) with (y := IZR s + rnd64 (IZR r / 1000000000)).
  - pose proof (big_nonneg _ B1). pose proof (big_nonneg _ B2). lra.
  - apply rel_rnd, big_plus; assumption.
  - apply rel_plus; [apply rel_weaken with 0%nat; [apply big_nonneg, B1|lia|apply rel_refl]|apply rel_rnd, B2].
Qed.

(** ** from_secs_f64 *)
Lemma round_half_even_spec a d : (0 < d)%Z -> Rabs (IZR (round_half_even a d) - IZR a / IZR d) <= / 2.
Proof.
  intros Hd. pose proof (Z.div_mod a d ltac:(lia)) as DM. pose proof (Z.mod_pos_bound a d Hd) as MB.
  assert (P : 0 < IZR d) by (apply IZR_lt; exact Hd).
  unfold round_half_even. cbv zeta. set (q := (a / d)%Z) in *. set (r := (a mod d)%Z) in *.
  assert (E : IZR a / IZR d = IZR q + IZR r / IZR d) by (rewrite DM, plus_IZR, mult_IZR; field; lra).
  assert (R0 : 0 <= IZR r / IZR d) by (apply Rmult_le_pos; [apply IZR_le; lia|apply Rlt_le, Rinv_0_lt_compat, P]).
  assert (RL : forall c : R, IZR r <= c * IZR d -> IZR r / IZR d <= c).
  { intros c L. apply Rmult_le_reg_r with (IZR d); [exact P|]. unfold Rdiv. rewrite Rmult_assoc, Rinv_l by lra. lra. }
  assert (RG : forall c : R, c * IZR d <= IZR r -> c <= IZR r / IZR d).
  { intros c L. apply Rmult_le_reg_r with (IZR d); [exact P|]. unfold Rdiv. rewrite Rmult_assoc, Rinv_l by lra. lra. }
  assert (R1 : IZR r / IZR d <= 1) by (apply RL; rewrite Rmult_1_l; apply IZR_le; lia).
  rewrite E.
  assert (LO : (2 * r <= d)%Z -> IZR r / IZR d <= / 2).
  { intros L. apply RL. apply IZR_le in L. rewrite mult_IZR in L. lra. }
  assert (HI : (d <= 2 * r)%Z -> / 2 <= IZR r / IZR d).
  { intros L. apply RG. apply IZR_le in L. rewrite mult_IZR in L. lra. }
  destruct (Z.ltb_spec (2 * r) d) as [L1|L1]; [|destruct (Z.ltb_spec d (2 * r)) as [L2|L2]; [|destruct (Z.even q)]];
    rewrite ?plus_IZR; apply Rabs_le; try (specialize (LO ltac:(lia))); try (specialize (HI ltac:(lia))); lra.
Qed.
Lemma from_secs_spec (x : f64) : is_finite x = true -> 0 <= B2R x <= bpow radix2 63 ->
  exists v, from_secs_f64 x = Val v /\ duration_ok v /\ Rabs (IZR v - B2R x * 1000000000) <= / 2.
Proof.
  intros F B. destruct (from_secs_ok x F B) as (v & E & O). exists v. split; [exact E|]. split; [exact O|].
  destruct x as [s|s| |s m e Hm]; try discriminate.
  - cbn in E. injection E as <-. cbn [B2R]. rewrite Rmult_0_l, Rminus_0_r, Rabs_R0. lra.
  - destruct s; [discriminate|]. cbn [from_secs_f64] in E.
    match type of E with (if ?c then _ else _) = _ => destruct c; [|discriminate] end. apply val_inj in E. subst v.
    unfold B2R, F2R. cbn [Fnum Fexp cond_Zopp]. destruct (Z.leb_spec 0 e) as [P|P].
    + rewrite !mult_IZR. change (2 ^ e)%Z with (radix_val radix2 ^ e)%Z. rewrite IZR_Zpower by exact P. change (IZR nanos_per_sec) with 1000000000.
      rewrite Rminus_diag_eq by ring. rewrite Rabs_R0. lra.
    + assert (PP : (0 < 2 ^ (- e))%Z) by (apply Z.pow_pos_nonneg; lia).
      pose proof (round_half_even_spec (Z.pos m * nanos_per_sec) (2 ^ (- e)) PP) as R.
      replace (IZR (Z.pos m) * bpow radix2 e * 1000000000) with (IZR (Z.pos m * nanos_per_sec) / IZR (2 ^ (- e))); [exact R|].
      rewrite mult_IZR. change (IZR nanos_per_sec) with 1000000000. change (2 ^ (- e))%Z with (radix_val radix2 ^ (- e))%Z.
      rewrite IZR_Zpower by lia. rewrite bpow_opp. field. apply Rgt_not_eq, bpow_gt_0.
Qed.
