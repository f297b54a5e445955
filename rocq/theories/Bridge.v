(** * From the real-number analysis to the binary64 one.

    The decision chain of [analyse_complexity] evaluated in binary64 takes the same
    branches as over the reals unless a measured ratio is within a relative 2^-40 of a
    boundary, for every math library whose log2 and powi are accurate. *)
From Coq Require Import ZArith Reals Lra Lia Bool List Psatz.
From Flocq Require Import Core.Core IEEE754.BinarySingleNaN Relative.
From Verif Require Import Machine Complexity Floats Analysis GrowthSpec AnalysisF64 AnalysisF64b AnalysisF64d AnalysisR DurationProofs.
Import ListNotations.
Open Scope R_scope.

(** ** Assumption on the math library (rustc's log2/powi): relative error at most 2^-49
    (16 units in the last place) on the arguments that can occur. *)
Definition log2R (x : R) : R := ln x / ln 2.
Definition libm_accurate (l : libm) : Prop :=
  (forall x : f64, is_finite x = true -> 2 <= B2R x <= bpow radix2 34 ->
     is_finite (lm_log2 l x) = true /\
     Rabs (B2R (lm_log2 l x) - log2R (B2R x)) <= bpow radix2 (-49) * log2R (B2R x)) /\
  (forall (x : f64) (k : Z), is_finite x = true -> bpow radix2 (-33) <= B2R x <= bpow radix2 33 -> (2 <= k <= 4)%Z ->
     is_finite (lm_powi l x k) = true /\
     Rabs (B2R (lm_powi l x k) - powerRZ (B2R x) k) <= bpow radix2 (-49) * powerRZ (B2R x) k).

(** ** A float approximating a real: [k] roundings, magnitude 2^-e .. 2^e *)
Definition ap (k : nat) (e : Z) (x : f64) (y : R) : Prop :=
  is_finite x = true /\ rel k (B2R x) y /\ bpow radix2 (- e) <= y <= bpow radix2 e.

Lemma k_uu k : (k <= 1000)%nat -> 0 <= INR k * uu <= / 100.
Proof.
  intros H. assert (INR k <= 1000). { apply le_INR in H. replace 1000 with (INR 1000) by (rewrite INR_IZR_INZ; reflexivity). exact H. }
  pose proof (pos_INR k). unfold uu. split; nra.
Qed.
Lemma lo_1000 k : (k <= 1000)%nat -> / 2 <= (1 - uu) ^ k.
Proof. intros H. pose proof (bernoulli_lo k). pose proof (k_uu k H). lra. Qed.
Lemma hi_1000 k : (k <= 1000)%nat -> (1 + uu) ^ k <= 2.
Proof. intros H. pose proof (k_uu k H). pose proof (bernoulli_hi k ltac:(lra)). lra. Qed.
Lemma inv_lo k : / (1 - uu) ^ k <= (1 + uu) ^ (2 * k).
Proof.
  pose proof uu_pos. rewrite pow_mult. rewrite <- pow_inv by lra || idtac.
  apply pow_incr. split; [left; apply Rinv_0_lt_compat; lra|].
  apply Rmult_le_reg_r with (1 - uu); [lra|]. rewrite Rinv_l by lra. cbn [pow]. nra.
Qed.
Lemma inv_hi k : (1 - uu) ^ k <= / (1 + uu) ^ k.
Proof.
  pose proof uu_pos. rewrite <- pow_inv by lra || idtac. apply pow_incr. split; [lra|].
  apply Rmult_le_reg_r with (1 + uu); [lra|]. rewrite Rinv_l by lra. nra.
Qed.
Lemma rel_mult j k x y x' y' : 0 <= y -> 0 <= y' -> rel j x y -> rel k x' y' -> rel (j + k) (x * x') (y * y').
Proof.
  intros Hy Hy' [A1 A2] [B1 B2]. pose proof (pow_lo j). pose proof (pow_lo k). unfold rel. rewrite !pow_add.
  assert (0 <= x) by nra. assert (0 <= x') by nra. assert (0 <= y * (1 - uu) ^ j) by nra. assert (0 <= y' * (1 - uu) ^ k) by nra. split.
  - replace (y * y' * ((1 - uu) ^ j * (1 - uu) ^ k)) with ((y * (1 - uu) ^ j) * (y' * (1 - uu) ^ k)) by ring. apply Rmult_le_compat; assumption.
  - replace (y * y' * ((1 + uu) ^ j * (1 + uu) ^ k)) with ((y * (1 + uu) ^ j) * (y' * (1 + uu) ^ k)) by ring. apply Rmult_le_compat; assumption.
Qed.
Lemma rel_inv k x y : 0 < y -> rel k x y -> rel (2 * k) (/ x) (/ y).
Proof.
  intros Hy [A1 A2]. pose proof (pow_lo k). pose proof (pow_hi k). assert (P : 0 < y * (1 - uu) ^ k) by nra. assert (0 < x) by lra.
  unfold rel. split.
  - apply Rle_trans with (/ (y * (1 + uu) ^ k)); [|apply Rinv_le_contravar; assumption].
    rewrite Rinv_mult. apply Rmult_le_compat_l; [left; apply Rinv_0_lt_compat; lra|].
    apply Rle_trans with (2 := inv_hi k). rewrite pow_mult. apply pow_incr. pose proof uu_pos. cbn [pow]. split; nra.
  - apply Rle_trans with (/ (y * (1 - uu) ^ k)); [apply Rinv_le_contravar; assumption|].
    rewrite Rinv_mult. apply Rmult_le_compat_l; [left; apply Rinv_0_lt_compat; lra|]. apply inv_lo.
Qed.
Lemma rel_div j k x y x' y' : 0 <= y -> 0 < y' -> rel j x y -> rel k x' y' -> rel (j + 2 * k) (x / x') (y / y').
Proof. intros. unfold Rdiv. apply rel_mult; auto; [left; apply Rinv_0_lt_compat; assumption|apply rel_inv; assumption]. Qed.

Lemma bp n : 0 < bpow radix2 n. Proof. apply bpow_gt_0. Qed.
Lemma bp_half n : bpow radix2 (n - 1) = / 2 * bpow radix2 n.
Proof. replace (n - 1)%Z with (-1 + n)%Z by lia. rewrite bpow_plus. reflexivity. Qed.
Lemma bp_double n : bpow radix2 (n + 1) = 2 * bpow radix2 n.
Proof. replace (n + 1)%Z with (1 + n)%Z by lia. rewrite bpow_plus. reflexivity. Qed.

(** rounding a positive real of moderate magnitude *)
Lemma round_ap k e v y : (k < 1000)%nat -> (0 <= e <= 500)%Z -> rel k v y -> bpow radix2 (- e) <= y <= bpow radix2 e ->
  rel (k + 1) (rnd64 v) y /\ Rabs (rnd64 v) < M64.
Proof.
  intros Hk He R [Y1 Y2]. pose proof (bp (- e)) as P.
  assert (V1 : bpow radix2 (- e - 1) <= v). { destruct R as [R _]. rewrite bp_half. pose proof (lo_1000 k ltac:(lia)). nra. }
  assert (V2 : v <= bpow radix2 (e + 1)). { destruct R as [_ R]. rewrite bp_double. pose proof (hi_1000 k ltac:(lia)). nra. }
  assert (B : big v) by (right; apply Rle_trans with (2 := V1); apply bpow_le; lia).
  split.
  - replace (k + 1)%nat with (1 + k)%nat by lia. apply (rel_trans 1 k) with (y := v); [lra|apply rel_rnd; exact B|exact R].
  - apply Rle_lt_trans with (bpow radix2 (e + 1)); [|apply bpow_lt; lia].
    apply abs_round_le_generic; try exact _; [apply generic_format_bpow; unfold SpecFloat.fexp, SpecFloat.emin; lia|].
    rewrite Rabs_pos_eq; [exact V2|]. apply big_nonneg; exact B.
Qed.
Lemma ap_pos k e x y : ap k e x y -> 0 < y.
Proof. intros (_ & _ & H & _). pose proof (bp (- e)). lra. Qed.
Lemma ap_val_pos k e x y : ap k e x y -> 0 < B2R x.
Proof. intros A. pose proof (ap_pos _ _ _ _ A). destruct A as (_ & [R _] & _). pose proof (pow_lo k). nra. Qed.
Lemma ap_div j k e f x y x' y' : ap j e x y -> ap k f x' y' -> (j + 2 * k < 1000)%nat -> (0 <= e)%Z -> (0 <= f)%Z -> (e + f <= 500)%Z ->
  ap (j + 2 * k + 1) (e + f) (f64_div x x') (y / y').
Proof.
  intros A B Hk He Hf Hef. pose proof (ap_pos _ _ _ _ A) as Py. pose proof (ap_pos _ _ _ _ B) as Py'. pose proof (ap_val_pos _ _ _ _ B) as Px'.
  destruct A as (Fx & Rx & Y1 & Y2). destruct B as (Fx' & Rx' & Y1' & Y2').
  assert (Rg : bpow radix2 (- (e + f)) <= y / y' <= bpow radix2 (e + f)).
  { replace (- (e + f))%Z with (- e + - f)%Z by lia. rewrite !bpow_plus. pose proof (bp (- e)). pose proof (bp (- f)). pose proof (bp e). pose proof (bp f).
    assert (I : bpow radix2 (- f) * bpow radix2 f = 1) by (rewrite <- bpow_plus; replace (- f + f)%Z with 0%Z by lia; reflexivity).
    split; apply Rmult_le_reg_r with y'; try assumption; unfold Rdiv; rewrite (Rmult_assoc y), Rinv_l, Rmult_1_r by lra.
    - apply Rle_trans with (bpow radix2 (- e) * bpow radix2 (- f) * bpow radix2 f); [apply Rmult_le_compat_l; nra|]. rewrite Rmult_assoc, I. lra.
    - apply Rle_trans with (bpow radix2 e * bpow radix2 f * bpow radix2 (- f)); [|apply Rmult_le_compat_l; nra]. rewrite Rmult_assoc, (Rmult_comm (bpow radix2 f)), I. lra. }
  pose proof (rel_div j k _ _ _ _ (Rlt_le _ _ Py) Py' Rx Rx') as Rq.
  destruct (round_ap _ (e + f) _ _ Hk ltac:(lia) Rq Rg) as [R1 Bd].
  pose proof (Bdiv_correct 53 1024 _ _ mode_NE x x' ltac:(lra)) as C. change (round_mode mode_NE) with ZnearestE in C.
  rewrite Rlt_bool_true in C by exact Bd. destruct C as (C1 & C2 & _). unfold ap, f64_div. rewrite C1, C2. auto.
Qed.
Lemma ap_mul j k e f x y x' y' : ap j e x y -> ap k f x' y' -> (j + k < 1000)%nat -> (0 <= e)%Z -> (0 <= f)%Z -> (e + f <= 500)%Z ->
  ap (j + k + 1) (e + f) (f64_mul x x') (y * y').
Proof.
  intros A B Hk He Hf Hef. pose proof (ap_pos _ _ _ _ A) as Py. pose proof (ap_pos _ _ _ _ B) as Py'.
  destruct A as (Fx & Rx & Y1 & Y2). destruct B as (Fx' & Rx' & Y1' & Y2').
  assert (Rg : bpow radix2 (- (e + f)) <= y * y' <= bpow radix2 (e + f)).
  { replace (- (e + f))%Z with (- e + - f)%Z by lia. rewrite !bpow_plus. pose proof (bp (- e)). pose proof (bp (- f)).
    split; apply Rmult_le_compat; lra. }
  pose proof (rel_mult j k _ _ _ _ (Rlt_le _ _ Py) (Rlt_le _ _ Py') Rx Rx') as Rq.
  destruct (round_ap _ (e + f) _ _ Hk ltac:(lia) Rq Rg) as [R1 Bd].
  pose proof (Bmult_correct 53 1024 _ _ mode_NE x x') as C. change (round_mode mode_NE) with ZnearestE in C.
  rewrite Rlt_bool_true in C by exact Bd. destruct C as (C1 & C2 & _). rewrite Fx, Fx' in C2. unfold ap, f64_mul. rewrite C1, C2. auto.
Qed.
Lemma ap_weaken j k e f x y : (j <= k)%nat -> (e <= f)%Z -> ap j e x y -> ap k f x y.
Proof.
  intros H1 H2 A. pose proof (ap_pos _ _ _ _ A). destruct A as (F & R & Y1 & Y2). split; [exact F|]. split; [apply rel_weaken with j; auto; lra|].
  split; [apply Rle_trans with (2 := Y1)|apply Rle_trans with (1 := Y2)]; apply bpow_le; lia.
Qed.

(** a relative error of 2^-49 is at most 17 roundings *)
Lemma rel_49 x y : 0 <= y -> Rabs (x - y) <= bpow radix2 (-49) * y -> rel 17 x y.
Proof.
  intros Hy H. apply Rabs_le_inv in H. assert (E : bpow radix2 (-49) = 16 * uu).
  { unfold uu. change (bpow radix2 (-49)) with (/ 562949953421312). lra. }
  rewrite E in H. unfold rel.
  assert (L : (1 - uu) ^ 17 <= 1 - 16 * uu) by (unfold uu; cbn [pow]; lra).
  assert (U : 1 + 16 * uu <= (1 + uu) ^ 17) by (unfold uu; cbn [pow]; lra).
  split; nra.
Qed.

(** ** The two tests of a level *)
Definition mg : R := / 1099511627776.  (* 2^-40 *)
Lemma mg_bpow : mg = bpow radix2 (-40). Proof. reflexivity. Qed.

Lemma sub_one_fin (Q : f64) : is_finite Q = true -> Rabs (B2R Q) <= 4 -> toR64 (f64_sub Q one64) = rnd64 (B2R Q - 1).
Proof.
  intros F H. unfold f64_sub. pose proof (Bminus_correct 53 1024 _ _ mode_NE Q one64 F one_fin) as C.
  change (round_mode mode_NE) with ZnearestE in C. rewrite one_R in C.
  rewrite Rlt_bool_true in C.
  - destruct C as (C1 & C2 & _). rewrite toR_fin by exact C2. exact C1.
  - apply Rle_lt_trans with (bpow radix2 3); [|apply bpow_lt; lia].
    apply abs_round_le_generic; try exact _; [apply generic_format_bpow; unfold SpecFloat.fexp, SpecFloat.emin; lia|].
    change (bpow radix2 3) with 8. apply Rabs_le. apply Rabs_le_inv in H. lra.
Qed.
Lemma test_low t (Q : f64) : is_finite Q = true -> 0 <= B2R Q <= 1 + tolR t -> below t Q = true \/ within t Q = true.
Proof.
  intros F [H0 H]. pose proof (tolR_bounds t) as TB. assert (N : is_nan Q = false) by (apply fin_not_nan; exact F).
  destruct (Rlt_or_le (B2R Q) (B2R (lo64 t))) as [L|L].
  - left. apply below_iff. rewrite toR_fin by exact F. auto.
  - right. apply within_iff. split; [exact N|]. split.
    + apply Rle_trans with (1 := lo_minus_one t). apply sub_one_mono. apply leb_intro; auto; try exact _; [apply fin_not_nan, lo_fin|].
      rewrite !toR_fin; auto. apply lo_fin.
    + rewrite sub_one_fin by (auto; rewrite Rabs_pos_eq; lra).
      apply round_le_generic; try exact _; [apply generic_format_B2R|]. rewrite tol_R. destruct t; unfold tolR in *; lra.
Qed.
Lemma test_high t (Q : f64) : is_finite Q = true -> 1 + tolR t + bpow radix2 (-50) <= B2R Q -> below t Q = false /\ within t Q = false.
Proof.
  intros F H. pose proof (tolR_bounds t) as TB. change (bpow radix2 (-50)) with (/ 1125899906842624) in H.
  split.
  - destruct (below t Q) eqn:E; [|reflexivity]. apply below_iff in E. destruct E as [_ E]. rewrite toR_fin in E by exact F.
    pose proof (lo_bounds t). lra.
  - destruct (within t Q) eqn:E; [|reflexivity]. apply within_iff in E. destruct E as [N [_ E]].
    destruct (Rle_or_lt (B2R Q) 4) as [L|L].
    + rewrite sub_one_fin in E by (auto; rewrite Rabs_pos_eq; lra).
      assert (B : big (B2R Q - 1)). { right. apply Rle_trans with (bpow radix2 (-4)); [apply bpow_le; lia|]. change (bpow radix2 (-4)) with (/ 16). lra. }
      pose proof (rel_rnd _ B) as [R _]. cbn [pow] in R. rewrite tol_R in E. unfold uu in R. destruct t; unfold tolR in *; lra.
    + assert (C : toR64 (f64_sub (f64_of_int 4) one64) <= toR64 (f64_sub Q one64)).
      { apply sub_one_mono. apply leb_intro; auto; try exact _. rewrite (toR_fin _ _ Q) by exact F.
        rewrite toR_fin by reflexivity. rewrite of_int_exact by lia. lra. }
      assert (D : toR64 (f64_sub (f64_of_int 4) one64) = 3).
      { rewrite sub_one_fin by (try reflexivity; rewrite of_int_exact by lia; rewrite Rabs_pos_eq; lra).
        rewrite of_int_exact by lia. replace (4 - 1) with 3 by lra. apply round_generic; [exact _|]. rewrite <- three_R. apply generic_format_B2R. }
      pose proof (tol_bounds t). lra.
Qed.
Lemma test_in t (Q : f64) : is_finite Q = true -> 1 - tolR t + bpow radix2 (-50) <= B2R Q <= 1 + tolR t -> below t Q = false /\ within t Q = true.
Proof.
  intros F [H1 H2]. pose proof (tolR_bounds t) as TB. change (bpow radix2 (-50)) with (/ 1125899906842624) in H1.
  assert (B : below t Q = false).
  { destruct (below t Q) eqn:E; [|reflexivity]. apply below_iff in E. destruct E as [_ E]. rewrite toR_fin in E by exact F.
    rewrite lo_R in E. destruct t; unfold tolR in *; lra. }
  split; [exact B|]. destruct (test_low t Q F ltac:(lra)); congruence.
Qed.

(** a quotient with at most 200 roundings *)
Definition near (Q : f64) (q : R) : Prop := is_finite Q = true /\ rel 200 (B2R Q) q /\ 0 < q.
Lemma near_bounds Q q : near Q q -> q * (1 - bpow radix2 (-44)) <= B2R Q <= q * (1 + bpow radix2 (-44)).
Proof.
  intros (_ & [R1 R2] & P). pose proof (bernoulli_lo 200) as L. pose proof (bernoulli_hi 200) as U.
  assert (E : INR 200 * uu = 200 / 9007199254740992) by (unfold uu; rewrite INR_IZR_INZ; simpl; lra).
  rewrite E in *. specialize (U ltac:(lra)). change (bpow radix2 (-44)) with (/ 17592186044416).
  revert L U R1 R2. generalize ((1 - uu) ^ 200) as a. generalize ((1 + uu) ^ 200) as b. intros b a L U R1 R2. clear E. split; nra.
Qed.
Lemma near_low t Q q : near Q q -> q <= (1 + tolR t) * (1 - mg) -> below t Q = true \/ within t Q = true.
Proof.
  intros N H. pose proof (near_bounds _ _ N) as B. destruct N as (F & _ & P). pose proof (tolR_bounds t).
  change (bpow radix2 (-44)) with (/ 17592186044416) in B. unfold mg in H. apply test_low; [exact F|]. split; nra.
Qed.
Lemma near_high t Q q : near Q q -> (1 + tolR t) * (1 + mg) <= q -> below t Q = false /\ within t Q = false.
Proof.
  intros N H. pose proof (near_bounds _ _ N) as B. destruct N as (F & _ & P). pose proof (tolR_bounds t).
  change (bpow radix2 (-44)) with (/ 17592186044416) in B. unfold mg in H. apply test_high; [exact F|].
  change (bpow radix2 (-50)) with (/ 1125899906842624). nra.
Qed.
Lemma near_in t Q q : near Q q -> (1 - tolR t) * (1 + mg) <= q <= (1 + tolR t) * (1 - mg) -> below t Q = false /\ within t Q = true.
Proof.
  intros N H. pose proof (near_bounds _ _ N) as B. destruct N as (F & _ & P). pose proof (tolR_bounds t).
  change (bpow radix2 (-44)) with (/ 17592186044416) in B. unfold mg in H. apply test_in; [exact F|].
  change (bpow radix2 (-50)) with (/ 1125899906842624). nra.
Qed.
Lemma near_under t Q q : near Q q -> q <= (1 - tolR t) * (1 - mg) -> below t Q = true.
Proof.
  intros N H. pose proof (near_bounds _ _ N) as B. destruct N as (F & _ & P). pose proof (tolR_bounds t).
  change (bpow radix2 (-44)) with (/ 17592186044416) in B. unfold mg in H. apply below_iff.
  split; [apply fin_not_nan; exact F|]. rewrite toR_fin by exact F. rewrite lo_R. destruct t; unfold tolR in *; nra.
Qed.

(** ** The quotients the code computes *)
Lemma ap_int n : (1 <= n < two32)%Z -> ap 0 32 (f64_of_int n) (IZR n).
Proof.
  unfold two32. intros H. split; [apply of_int_fin; lia|]. split.
  - rewrite of_int_exact by lia. apply rel_refl.
  - split.
    + apply Rle_trans with 1; [change 1 with (bpow radix2 0); apply bpow_le; lia|apply IZR_le; lia].
    + change (bpow radix2 32) with (IZR 4294967296). apply IZR_le. lia.
Qed.
Lemma log2R_ge_1 n : 2 <= n -> 1 <= log2R n.
Proof. intros H. unfold log2R. pose proof ln2_pos. pose proof (ln_mono 2 n ltac:(lra) H). apply Rmult_le_reg_r with (ln 2); [lra|]. unfold Rdiv. rewrite Rmult_assoc, Rinv_l by lra. lra. Qed.
Lemma log2R_le n k : 0 < n -> n <= 2 ^ k -> log2R n <= INR k.
Proof.
  intros H L. unfold log2R. pose proof ln2_pos. apply Rmult_le_reg_r with (ln 2); [lra|]. unfold Rdiv. rewrite Rmult_assoc, Rinv_l by lra.
  rewrite Rmult_1_r. rewrite <- ln_pow by lra. apply ln_mono; assumption.
Qed.

Section Quotients.
Variable l : libm.
Hypothesis Hl : libm_accurate l.

Lemma ap_log2 n : (2 <= n < two32)%Z -> ap 17 6 (lm_log2 l (f64_of_int n)) (log2R (IZR n)).
Proof.
  intros H. assert (H' : (2 <= n < 4294967296)%Z) by exact H. pose proof (IZR_le 2 n ltac:(lia)) as L2.
  assert (L3 : IZR n <= 2 ^ 32) by (rewrite pow_IZR; apply IZR_le; cbn; lia).
  destruct Hl as [A _]. destruct (A (f64_of_int n)) as [F E].
  - apply of_int_fin; lia.
  - rewrite of_int_exact by lia. split; [exact L2|]. apply Rle_trans with (1 := L3). change (bpow radix2 34) with (IZR 17179869184). rewrite pow_IZR. apply IZR_le. cbn. lia.
  - rewrite of_int_exact in E by lia. pose proof (log2R_ge_1 _ L2). pose proof (log2R_le (IZR n) 32 ltac:(lra) L3) as U. rewrite INR_IZR_INZ in U. cbn in U.
    split; [exact F|]. split; [apply rel_49; [lra|exact E]|].
    change (bpow radix2 6) with 64. split; [|lra]. apply Rle_trans with 1; [|lra]. change 1 with (bpow radix2 0). apply bpow_le; lia.
Qed.
Variables n1 n2 : Z.
Hypothesis H1 : (2 <= n1 < two32)%Z.
Hypothesis H2 : (2 <= n2 < two32)%Z.
Let m1 := f64_of_int n1. Let m2 := f64_of_int n2. Let r := IZR n2 / IZR n1.

Lemma r_range : bpow radix2 (-31) <= r <= bpow radix2 31.
Proof.
  assert (A : (2 <= n1 < 4294967296)%Z) by exact H1. assert (B : (2 <= n2 < 4294967296)%Z) by exact H2.
  assert (2 <= IZR n1 <= 4294967296) by (split; apply IZR_le; lia). assert (2 <= IZR n2 <= 4294967296) by (split; apply IZR_le; lia).
  change (bpow radix2 (-31)) with (/ 2147483648). change (bpow radix2 31) with 2147483648. unfold r.
  split; apply Rmult_le_reg_r with (IZR n1); try lra; unfold Rdiv; rewrite ?(Rmult_assoc (IZR n2)), ?Rinv_l by lra; nra.
Qed.
Lemma ap_dn : ap 1 31 (f64_div m2 m1) r.
Proof.
  assert (A : (1 <= n1 < two32)%Z) by lia. assert (B : (1 <= n2 < two32)%Z) by lia.
  pose proof (ap_div _ _ _ _ _ _ _ _ (ap_int n2 B) (ap_int n1 A) ltac:(lia) ltac:(lia) ltac:(lia) ltac:(lia)) as (F & R & _).
  split; [exact F|]. split; [exact R|]. exact r_range.
Qed.
Lemma ap_dlog : ap 52 12 (d_log l m1 m2) (log2R (IZR n2) / log2R (IZR n1)).
Proof. exact (ap_div _ _ _ _ _ _ _ _ (ap_log2 n2 H2) (ap_log2 n1 H1) ltac:(lia) ltac:(lia) ltac:(lia) ltac:(lia)). Qed.
Lemma ap_dnlog : ap 55 76 (d_nlog l m1 m2) (IZR n2 * log2R (IZR n2) / (IZR n1 * log2R (IZR n1))).
Proof.
  assert (A : (1 <= n1 < two32)%Z) by lia. assert (B : (1 <= n2 < two32)%Z) by lia.
  pose proof (ap_mul _ _ _ _ _ _ _ _ (ap_int n2 B) (ap_log2 n2 H2) ltac:(lia) ltac:(lia) ltac:(lia) ltac:(lia)) as M2.
  pose proof (ap_mul _ _ _ _ _ _ _ _ (ap_int n1 A) (ap_log2 n1 H1) ltac:(lia) ltac:(lia) ltac:(lia) ltac:(lia)) as M1.
  exact (ap_div _ _ _ _ _ _ _ _ M2 M1 ltac:(lia) ltac:(lia) ltac:(lia) ltac:(lia)).
Qed.
Lemma rel_pow k j x y : 0 <= y -> rel j x y -> rel (k * j) (x ^ k) (y ^ k).
Proof.
  intros Hy R. induction k as [|k IH]; [apply rel_refl|]. cbn [pow Nat.mul]. apply rel_mult; auto. apply pow_le; exact Hy.
Qed.
Lemma ap_dpow k : (2 <= k <= 4)%nat -> ap 21 124 (d_pow l m1 m2 (Z.of_nat k)) (r ^ k).
Proof.
  intros Hk. pose proof ap_dn as (F & R & G1 & G2). cbn [Z.opp] in G1. pose proof (bp (-31)) as P. assert (Pr : 0 < r) by lra.
  assert (V : bpow radix2 (-33) <= B2R (f64_div m2 m1) <= bpow radix2 33).
  { destruct R as [R1 R2]. cbn [pow] in *. change (bpow radix2 (-33)) with (/ 8589934592). change (bpow radix2 33) with 8589934592.
    change (bpow radix2 (-31)) with (/ 2147483648) in *. change (bpow radix2 31) with 2147483648 in *. pose proof uu_pos. split; nra. }
  destruct Hl as [_ A]. destruct (A (f64_div m2 m1) (Z.of_nat k) F V ltac:(lia)) as [F' E]. rewrite <- pow_powerRZ in E.
  assert (Px : 0 < B2R (f64_div m2 m1)) by (pose proof (bp (-33)); lra).
  split; [exact F'|]. split.
  - apply rel_weaken with (17 + k * 1)%nat; [apply pow_le; lra|lia|]. apply rel_trans with (B2R (f64_div m2 m1) ^ k); [apply pow_le; lra| |apply rel_pow; [lra|exact R]].
    apply rel_49; [apply pow_le; lra|exact E].
  - assert (L : bpow radix2 (-31) ^ k <= r ^ k <= bpow radix2 31 ^ k) by (split; apply pow_incr; lra).
    assert (EL : forall e, bpow radix2 e ^ k = bpow radix2 (e * Z.of_nat k)).
    { intros e. clear. induction k as [|k IH]; [rewrite Z.mul_0_r; reflexivity|]. cbn [pow]. rewrite IH, <- bpow_plus. f_equal. lia. }
    rewrite !EL in L. destruct L as [L1 L2]. split; [apply Rle_trans with (2 := L1)|apply Rle_trans with (1 := L2)]; apply bpow_le; lia.
Qed.

Variables (u1 u2 : f64) (U1 U2 : R).
Hypothesis A1 : ap 2 70 u1 U1.
Hypothesis A2 : ap 2 70 u2 U2.
Let x := f64_div u2 u1. Let X := U2 / U1.
Lemma ap_x : ap 7 140 x X.
Proof. exact (ap_div _ _ _ _ _ _ _ _ A2 A1 ltac:(lia) ltac:(lia) ltac:(lia) ltac:(lia)). Qed.
Lemma near_x k e d D : ap k e d D -> (k <= 90)%nat -> (0 <= e <= 200)%Z -> near (f64_div x d) (X / D).
Proof.
  intros A Hk He. pose proof (ap_div _ _ _ _ _ _ _ _ ap_x A ltac:(lia) ltac:(lia) ltac:(lia) ltac:(lia)) as Q.
  pose proof (ap_pos _ _ _ _ Q). destruct Q as (F & R & _). split; [exact F|]. split; [|assumption]. apply rel_weaken with (7 + 2 * k + 1)%nat; [lra|lia|exact R].
Qed.
Lemma near_x0 : near x (X / 1).
Proof. pose proof (ap_pos _ _ _ _ ap_x). destruct ap_x as (F & R & _). unfold Rdiv at 1. rewrite Rinv_1, Rmult_1_r. split; [exact F|]. split; [|assumption]. apply rel_weaken with 7%nat; [lra|lia|exact R]. Qed.

Definition quotients : list f64 :=
  [ x; f64_div x (d_log l m1 m2); f64_div x (d_n m1 m2); f64_div x (d_nlog l m1 m2);
    f64_div x (d_pow l m1 m2 2); f64_div x (d_pow l m1 m2 3); f64_div x (d_pow l m1 m2 4) ].

Lemma quotients_near : Forall2 near quotients (map (fun d => X / d) (divisors (IZR n1) (IZR n2))).
Proof.
  unfold quotients, divisors. cbn [map]. fold (log2R (IZR n1)). fold (log2R (IZR n2)).
  constructor; [exact near_x0|]. constructor; [apply (near_x _ _ _ _ ap_dlog); lia|]. constructor; [apply (near_x _ _ _ _ ap_dn); lia|].
  constructor; [apply (near_x _ _ _ _ ap_dnlog); lia|].
  change (powerRZ (IZR n2 / IZR n1) 2) with (powerRZ r (Z.of_nat 2)). change (powerRZ (IZR n2 / IZR n1) 3) with (powerRZ r (Z.of_nat 3)). change (powerRZ (IZR n2 / IZR n1) 4) with (powerRZ r (Z.of_nat 4)).
  rewrite <- !pow_powerRZ.
  constructor; [apply (near_x _ _ _ _ (ap_dpow 2 ltac:(lia))); lia|]. constructor; [apply (near_x _ _ _ _ (ap_dpow 3 ltac:(lia))); lia|].
  constructor; [apply (near_x _ _ _ _ (ap_dpow 4 ltac:(lia))); lia|]. constructor.
Qed.
End Quotients.
