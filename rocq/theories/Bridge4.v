(** * An accurate math library exists; logarithmic costs under set resizing; noisy measurements. *)
From Coq Require Import ZArith Reals Lra Lia Bool List Psatz.
From Flocq Require Import Core.Core IEEE754.BinarySingleNaN Relative.
From Verif Require Import Machine Complexity Floats Analysis GrowthSpec AnalysisF64 AnalysisF64b AnalysisF64c AnalysisF64d AnalysisR DurationProofs Bridge Bridge2 Bridge3.
Import ListNotations.
Open Scope R_scope.

(** ** [libm_accurate] is met by the correctly rounded library *)
Notation fexp64 := (SpecFloat.fexp 53 1024).
Definition of_real (v : R) : f64 :=
  let r := rnd64 v in
  binary_normalize 53 1024 (eq_refl _) (eq_refl _) mode_NE (Ztrunc (scaled_mantissa radix2 fexp64 r)) (cexp radix2 fexp64 r) false.
Definition good_libm : libm :=
  Libm (fun x => of_real (log2R (B2R x))) (fun x k => of_real (powerRZ (B2R x) k)) (fun x y => of_real (Rpower (B2R x) (B2R y))).

Lemma of_real_correct v : Rabs (rnd64 v) < M64 -> is_finite (of_real v) = true /\ B2R (of_real v) = rnd64 v.
Proof.
  intros H. unfold of_real. cbv zeta.
  pose proof (binary_normalize_correct 53 1024 (eq_refl _) (eq_refl _) mode_NE (Ztrunc (scaled_mantissa radix2 fexp64 (rnd64 v))) (cexp radix2 fexp64 (rnd64 v)) false) as C.
  change (round_mode mode_NE) with ZnearestE in C.
  assert (G : generic_format radix2 fexp64 (rnd64 v)) by (apply generic_format_round; exact _).
  assert (E : F2R (Float radix2 (Ztrunc (scaled_mantissa radix2 fexp64 (rnd64 v))) (cexp radix2 fexp64 (rnd64 v))) = rnd64 v) by (symmetry; exact G).
  cbv zeta in C. rewrite E in C. rewrite (round_generic radix2 fexp64 ZnearestE (rnd64 v) G) in C.
  rewrite Rlt_bool_true in C by exact H. destruct C as (C1 & C2 & _). auto.
Qed.
Lemma of_real_close v : bpow radix2 (-200) <= v <= bpow radix2 200 ->
  is_finite (of_real v) = true /\ Rabs (B2R (of_real v) - v) <= bpow radix2 (-49) * v.
Proof.
  intros [H H']. pose proof (bp (-200)) as P.
  assert (Bd : Rabs (rnd64 v) < M64).
  { apply Rle_lt_trans with (bpow radix2 200); [|apply bpow_lt; lia].
    apply abs_round_le_generic; try exact _; [apply generic_format_bpow; unfold SpecFloat.fexp, SpecFloat.emin; lia|]. rewrite Rabs_pos_eq; lra. }
  destruct (of_real_correct v Bd) as [F E]. split; [exact F|]. rewrite E.
  assert (B : big v) by (right; apply Rle_trans with (2 := H); apply bpow_le; lia).
  destruct (rel_rnd v B) as [R1 R2]. cbn [pow] in *. change (bpow radix2 (-49)) with (/ 562949953421312). unfold uu in *. apply Rabs_le. lra.
Qed.
Lemma good_libm_accurate : libm_accurate good_libm.
Proof.
  split.
  - intros x F [H1 H2]. cbn [lm_log2 good_libm]. apply of_real_close.
    pose proof (log2R_ge_1 _ H1) as L. assert (U : log2R (B2R x) <= INR 34).
    { apply log2R_le; [lra|]. replace (2 ^ 34) with (bpow radix2 34); [exact H2|]. rewrite pow_IZR. reflexivity. }
    rewrite INR_IZR_INZ in U. cbn in U. split.
    + apply Rle_trans with (bpow radix2 0); [apply bpow_le; lia|]. cbn. lra.
    + apply Rle_trans with (bpow radix2 6); [change (bpow radix2 6) with 64; lra|apply bpow_le; lia].
  - intros x k F [H1 H2] Hk. cbn [lm_powi good_libm]. apply of_real_close.
    rewrite <- (Z2Nat.id k) by lia. rewrite <- pow_powerRZ. set (m := Z.to_nat k). assert (Hm : (2 <= m <= 4)%nat) by lia.
    pose proof (bp (-33)) as P.
    assert (L : bpow radix2 (-33) ^ m <= B2R x ^ m <= bpow radix2 33 ^ m) by (split; apply pow_incr; lra).
    assert (EL : forall e, bpow radix2 e ^ m = bpow radix2 (e * Z.of_nat m)).
    { intros e. clear. induction m as [|m IH]; [rewrite Z.mul_0_r; reflexivity|]. cbn [pow]. rewrite IH, <- bpow_plus. f_equal. lia. }
    rewrite !EL in L. destruct L as [L1 L2]. split; [apply Rle_trans with (2 := L1)|apply Rle_trans with (1 := L2)]; apply bpow_le; lia.
Qed.

(** ** Logarithmic operations on a growing set *)
Definition log_cost (c : R) (i : nat) : R := c * ln (INR (S i)).
Lemma total_scale c f from count : total_cost (fun i => c * f i) from count = c * total_cost f from count.
Proof. revert from. induction count as [|k IH]; intros from; cbn [total_cost]; [ring|]. rewrite IH. ring. Qed.
Lemma total_snoc f from k : total_cost f from (S k) = total_cost f from k + f (from + k)%nat.
Proof.
  revert from. induction k as [|k IH]; intros from; [cbn; rewrite Nat.add_0_r; ring|].
  change (total_cost f from (S (S k))) with (f from + total_cost f (S from) (S k)). rewrite IH. cbn [total_cost].
  replace (S from + k)%nat with (from + S k)%nat by lia. ring.
Qed.
Lemma S_pos k : 1 <= INR (S k). Proof. rewrite S_INR. pose proof (pos_INR k). lra. Qed.
(** sum of ln i, i = 1..n, is at least n ln n - n and at most n ln n *)
Lemma sum_ln_lo n : (1 <= n)%nat -> INR n * ln (INR n) - INR n <= total_cost (fun i => ln (INR (S i))) 0 n.
Proof.
  induction n as [|n IH]; [lia|]. intros _. rewrite total_snoc. cbn [Nat.add]. destruct n as [|n].
  - cbn [total_cost]. change (INR 1) with 1. rewrite ln_1. lra.
  - specialize (IH ltac:(lia)). set (N := INR (S n)) in *. assert (HN : 1 <= N) by apply S_pos.
    assert (EN : INR (S (S n)) = N + 1) by (unfold N; rewrite (S_INR (S n)); reflexivity). rewrite EN.
    assert (D : ln (N + 1) - ln N <= / N).
    { replace (N + 1) with (N * (1 + / N)) by (field; lra). assert (0 < / N) by (apply Rinv_0_lt_compat; lra). rewrite ln_mult by lra.
      pose proof (ln_le_sub1 (1 + / N) ltac:(lra)). lra. }
    assert (N * (ln (N + 1) - ln N) <= 1). { apply Rle_trans with (N * / N); [apply Rmult_le_compat_l; lra|]. right. field. lra. }
    lra.
Qed.
Lemma sum_ln_hi from n m : (from + n <= m)%nat -> total_cost (fun i => ln (INR (S i))) from n <= INR n * ln (INR m).
Proof.
  revert from. induction n as [|n IH]; intros from H; cbn [total_cost]; [cbn; lra|]. rewrite (S_INR n).
  assert (ln (INR (S from)) <= ln (INR m)) by (apply ln_mono; [pose proof (S_pos from); lra|apply le_INR; lia]).
  specialize (IH (S from) ltac:(lia)). lra.
Qed.
Lemma sum_ln_from from n : (1 <= from)%nat -> INR n * ln (INR from) <= total_cost (fun i => ln (INR (S i))) from n.
Proof.
  intros H. assert (K : forall m, (from <= m)%nat -> INR n * ln (INR from) <= total_cost (fun i => ln (INR (S i))) m n); [|apply K; lia].
  induction n as [|n IH]; intros m Hm; cbn [total_cost]; [cbn; lra|]. rewrite (S_INR n).
  assert (P : 0 < INR from) by (apply lt_0_INR; lia).
  assert (ln (INR from) <= ln (INR (S m))) by (apply ln_mono; [exact P|apply le_INR; lia]).
  specialize (IH (S m) ltac:(lia)). lra.
Qed.
Lemma ln2_58 : 5 / 8 < ln 2. Proof. pose proof ln3_ln2. pose proof (ln_ge_1 3 ltac:(lra)). lra. Qed.
Lemma ln2_076 : ln 2 <= 76 / 100.
Proof.
  assert (E : ln 2 = ln (5/4) + ln (6/5) + ln (7/6) + ln (8/7)) by (rewrite <- !ln_mult by lra; f_equal; field).
  pose proof (ln_le_sub1 (5/4) ltac:(lra)). pose proof (ln_le_sub1 (6/5) ltac:(lra)). pose proof (ln_le_sub1 (7/6) ltac:(lra)). pose proof (ln_le_sub1 (8/7) ltac:(lra)). lra.
Qed.
Lemma resizingR_log t c n : 0 < c -> (32768 <= INR n) ->
  cle O1 (resizingR t (total_cost (log_cost c) 0 n) (total_cost (log_cost c) n n) (INR n)) /\
  cle (resizingR t (total_cost (log_cost c) 0 n) (total_cost (log_cost c) n n) (INR n)) OLogN.
Proof.
  intros Hc HN. unfold log_cost. rewrite !total_scale.
  set (A := total_cost (fun i => ln (INR (S i))) 0 n). set (B := total_cost (fun i => ln (INR (S i))) n n). set (N := INR n) in *.
  assert (Hn : (1 <= n)%nat) by (apply INR_le; change (INR 1) with 1; fold N; lra).
  set (y := ln N). assert (Hy : 9 <= y).
  { assert (15 * ln 2 <= y); [|pose proof ln2_58; lra]. replace (15 * ln 2) with (ln 32768); [apply ln_mono; lra|].
    replace 32768 with (2 ^ 15) by (simpl; ring). rewrite ln_pow by lra. simpl INR. ring. }
  assert (LA : N * y - N <= A) by (apply sum_ln_lo; exact Hn).
  assert (UA : A <= N * y) by (apply sum_ln_hi; lia).
  assert (LB : N * y <= B) by (apply sum_ln_from; exact Hn).
  assert (UB : B <= N * (y + ln 2)).
  { assert (E : ln (INR (n + n)) = y + ln 2). { rewrite plus_INR. fold N. replace (N + N) with (N * 2) by ring. apply ln_mult; lra. }
    rewrite <- E. apply sum_ln_hi. lia. }
  assert (PA : 0 < A) by nra. assert (PB : 0 < B) by nra.
  assert (EX : c * B / (c * A) = B / A) by (field; lra).
  set (X := B / A) in *. assert (EBA : X * A = B) by (unfold X; field; lra).
  assert (X1 : 1 <= X) by nra.
  assert (XU : X * (y - 1) <= y + ln 2).
  { assert (X * (N * (y - 1)) <= N * (y + ln 2)) by (apply Rle_trans with B; [rewrite <- EBA; apply Rmult_le_compat_l; lra|exact UB]).
    apply Rmult_le_reg_l with N; [lra|]. lra. }
  assert (EL : log_growth N * y = y + ln 3). { unfold log_growth. fold y. rewrite ln_mult by lra. fold y. field. lra. }
  set (L := log_growth N) in *. pose proof (log_growth_gt_1 N ltac:(lra)) as PL. fold L in PL.
  pose proof ln2_076 as L2. pose proof (ln_ge_1 3 ltac:(lra)) as L3. pose proof (tolR_bounds t) as TB.
  assert (XL : X < (1 + tolR t) * L).
  { apply Rmult_lt_reg_r with (y * (y - 1)); [nra|].
    apply Rle_lt_trans with (y * (y + ln 2)); [replace (X * (y * (y - 1))) with (y * (X * (y - 1))) by ring; apply Rmult_le_compat_l; lra|].
    replace ((1 + tolR t) * L * (y * (y - 1))) with ((1 + tolR t) * ((L * y) * (y - 1))) by ring. rewrite EL.
    apply Rlt_le_trans with (11 / 10 * ((y + 1) * (y - 1))); [nra|]. apply Rmult_le_compat; nra. }
  pose proof (resizingR_table t (c * A) (c * B) N ltac:(nra) ltac:(nra) ltac:(lra)) as (T1 & T2 & T3 & T4 & _). rewrite EX in *. fold X L in T1, T2, T3, T4.
  destruct (Rle_or_lt X (1 + tolR t)) as [C1|C1].
  - rewrite (T2 ltac:(nra) C1). unfold cle. cbn. lia.
  - destruct (Rlt_or_le X L) as [C2|C2].
    + rewrite (T3 C1 C2). unfold cle. cbn. lia.
    + rewrite (T4 C1 (conj C2 XL)). unfold cle. cbn. lia.
Qed.

(** ** Noisy constant and linear costs under set resizing, in binary64 *)
Section Noise.
Variables (t : tolerance) (l : libm) (n : Z) (u1 u2 : f64) (U1 U2 : R).
Hypothesis Hl : libm_accurate l.
Hypothesis A1 : ap 2 70 u1 U1.
Hypothesis A2 : ap 2 70 u2 U2.
Lemma resizing64_const_noise : (2 <= n < two32)%Z -> 95 / 100 <= U2 / U1 <= 105 / 100 -> resizing64 t l u1 u2 (f64_of_int n) = O1.
Proof.
  intros Hn H. destruct (resizing64_table t l n u1 u2 U1 U2 Hl Hn A1 A2) as (_ & T2 & _). pose proof (tolR_bounds t). unfold mg in *. apply T2; nra.
Qed.
Lemma resizing64_linear_noise : (12 <= n < two32)%Z ->
  95 / 100 * ((3 * IZR n + 1) / (IZR n + 1)) <= U2 / U1 <= 105 / 100 * ((3 * IZR n + 1) / (IZR n + 1)) -> resizing64 t l u1 u2 (f64_of_int n) = ON.
Proof.
  intros Hn H. destruct (resizing64_table t l n u1 u2 U1 U2 Hl ltac:(lia) A1 A2) as (_ & _ & _ & _ & T5 & _). pose proof (tolR_bounds t) as TB.
  assert (N12 : 12 <= IZR n) by (apply IZR_le; lia).
  assert (E : (3 * IZR n + 1) / (IZR n + 1) = 3 - 2 / (IZR n + 1)) by (field; lra). rewrite E in H.
  assert (Q : 0 < 2 / (IZR n + 1) <= 2 / 13). { split; [apply Rdiv_lt_0_compat; lra|]. apply Rmult_le_compat_l; [lra|]. apply Rinv_le; lra. }
  assert (DL : log_growth (IZR n) <= 7 / 4).
  { assert (LN : 2 * ln 2 + ln 3 <= ln (IZR n)). { replace (2 * ln 2 + ln 3) with (ln 12); [apply ln_mono; lra|]. replace 12 with (2 * 2 * 3) by ring. rewrite !ln_mult by lra. ring. }
    pose proof ln3_ln2. pose proof ln2_pos. pose proof (ln_ge_1 3 ltac:(lra)).
    unfold log_growth. apply Rmult_le_reg_r with (ln (IZR n)); [lra|]. unfold Rdiv at 1. rewrite Rmult_assoc, Rinv_l by lra. rewrite ln_mult by lra. lra. }
  pose proof (log_growth_gt_1 (IZR n) ltac:(lra)).
  assert (TL : (1 + tolR t) * log_growth (IZR n) <= 5 / 4 * (7 / 4)) by (apply Rmult_le_compat; lra).
  set (Z := (1 + tolR t) * log_growth (IZR n)) in *. unfold mg in *. apply T5; [lra|]. destruct t; unfold tolR in *; lra.
Qed.
End Noise.
