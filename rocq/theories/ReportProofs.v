(** * Proofs about the reports. *)
From Coq Require Import ZArith Reals Lra Lia Bool List Psatz String.
From Flocq Require Import Core.Core IEEE754.BinarySingleNaN Mult_error Plus_error.
From Verif Require Import Machine Complexity Floats Analysis AnalysisF64 AnalysisF64b AnalysisF64d AllocSpec Report.
Open Scope R_scope.

Notation toR32 := (toR 24 128).
Notation rnd32 := (round radix2 (SpecFloat.fexp 24 128) ZnearestE).
Notation M32 := (bpow radix2 128).

Lemma bpow65 : bpow radix2 65 = 36893488147419103232. Proof. simpl; lra. Qed.
Lemma M32_big : bpow radix2 65 < M32. Proof. apply bpow_lt. lia. Qed.

(** ** Integers as f32 *)
Lemma of_int32_spec z : (Z.abs z <= 2 ^ 65)%Z ->
  is_finite (f32_of_int z) = true /\ B2R (f32_of_int z) = rnd32 (IZR z).
Proof.
  intros Hz.
  pose proof (binary_normalize_correct 24 128 _ _ mode_NE z 0 false) as H. cbv zeta in H.
  change (round_mode mode_NE) with ZnearestE in H.
  assert (E : F2R (Float radix2 z 0) = IZR z) by (unfold F2R; simpl; ring).
  rewrite E in H. unfold f32_of_int.
  assert (B : Rabs (rnd32 (IZR z)) < M32).
  { apply Rle_lt_trans with (bpow radix2 65); [|apply M32_big].
    apply abs_round_le_generic; try exact _.
    - apply generic_format_bpow. unfold SpecFloat.fexp, SpecFloat.emin. lia.
    - rewrite <- abs_IZR. rewrite bpow65. apply IZR_le. lia. }
  rewrite Rlt_bool_true in H by exact B. destruct H as (H1 & H2 & _). auto.
Qed.

Lemma of_int32_exact z : (Z.abs z <= 2 ^ 24)%Z -> B2R (f32_of_int z) = IZR z.
Proof.
  intros H. destruct (of_int32_spec z) as [_ ->]; [lia|].
  apply round_generic; [exact _|].
  destruct (Z.eq_dec (Z.abs z) (2 ^ 24)) as [E|E].
  - assert (Hz : IZR z = bpow radix2 24 \/ IZR z = - bpow radix2 24).
    { assert (z = 2^24 \/ z = - 2^24)%Z as [-> | ->] by lia; [left|right]; simpl; lra. }
    destruct Hz as [-> | ->].
    + apply generic_format_bpow. unfold SpecFloat.fexp, SpecFloat.emin. lia.
    + apply generic_format_opp, generic_format_bpow. unfold SpecFloat.fexp, SpecFloat.emin. lia.
  - apply generic_format_FLT. apply (FLT_spec _ _ _ _ (Float radix2 z 0)).
    + unfold F2R; simpl; ring.
    + simpl. lia.
    + simpl. unfold SpecFloat.emin. lia.
Qed.

Lemma of_int32_mono a b : (Z.abs a <= 2 ^ 65)%Z -> (Z.abs b <= 2 ^ 65)%Z -> (a <= b)%Z ->
  B2R (f32_of_int a) <= B2R (f32_of_int b).
Proof.
  intros Ha Hb L. destruct (of_int32_spec a Ha) as [Fa ->]. destruct (of_int32_spec b Hb) as [Fb ->].
  apply rnd_mono; try exact _. apply IZR_le; exact L.
Qed.

Lemma f32_zero_eq : f32_zero = B754_zero false. Proof. reflexivity. Qed.

(** the difference of two integers as f32 is positive exactly when their roundings differ *)
Lemma diff32 a b : (0 <= a < two64)%Z -> (0 <= b < two64)%Z ->
  let d := f32_sub (f32_of_int a) (f32_of_int b) in
  is_finite d = true /\ B2R d = rnd32 (B2R (f32_of_int a) - B2R (f32_of_int b)).
Proof.
  intros Ha Hb d. rewrite two64_val in *.
  destruct (of_int32_spec a) as [Fa Ea]; [lia|]. destruct (of_int32_spec b) as [Fb Eb]; [lia|].
  pose proof (Bminus_correct 24 128 _ _ mode_NE (f32_of_int a) (f32_of_int b) Fa Fb) as H.
  change (round_mode mode_NE) with ZnearestE in H.
  assert (B : forall z, (0 <= z < 18446744073709551616)%Z -> 0 <= B2R (f32_of_int z) <= bpow radix2 65).
  { intros z Hz. destruct (of_int32_spec z) as [_ ->]; [lia|]. split.
    - apply rnd_ge_0; try exact _. apply IZR_le; lia.
    - apply round_le_generic; try exact _.
      + apply generic_format_bpow. unfold SpecFloat.fexp, SpecFloat.emin. lia.
      + rewrite bpow65. apply IZR_le. lia. }
  rewrite Rlt_bool_true in H.
  - destruct H as (H1 & H2 & _). split; assumption.
  - apply Rle_lt_trans with (bpow radix2 65); [|apply M32_big].
    apply abs_round_le_generic; try exact _.
    + apply generic_format_bpow. unfold SpecFloat.fexp, SpecFloat.emin. lia.
    + pose proof (B a Ha). pose proof (B b Hb). apply Rabs_le. lra.
Qed.

(** rounding a non-zero difference of floats does not give zero *)
Lemma rnd32_diff_pos (x y : f32) : is_finite x = true -> is_finite y = true ->
  B2R y < B2R x -> 0 < rnd32 (B2R x - B2R y).
Proof.
  intros Fx Fy L.
  assert (NZ : rnd32 (B2R x - B2R y) <> 0).
  { apply (Plus_error.round_plus_neq_0 radix2 (SpecFloat.fexp 24 128) ZnearestE (B2R x) (- B2R y)).
    - apply generic_format_B2R.
    - apply generic_format_opp, generic_format_B2R.
    - lra. }
  assert (P : 0 <= rnd32 (B2R x - B2R y)) by (apply rnd_ge_0; try exact _; lra).
  lra.
Qed.

Definition delta32 (m : space_pass) (n : Z) : f32 :=
  f32_div (f32_sub (f32_of_int (used_memory_after m)) (f32_of_int (used_memory_before m))) (f32_of_int n).

Lemma div32_zero_r (d : f32) : is_finite d = true -> 0 < B2R d -> f32_div d (f32_of_int 0) = B754_infinity false.
Proof.
  intros F P. change (f32_of_int 0) with (@B754_zero 24 128 false).
  assert (S : Bsign d = false) by (apply Bsign_pos; assumption).
  destruct d as [s|s| |s m e Hm]; try discriminate; [simpl in P; lra|]. cbn in S. subst s. reflexivity.
Qed.
Lemma div32_zero_l (d : f32) : is_finite d = true -> B2R d < 0 -> f32_div d (f32_of_int 0) = B754_infinity true.
Proof.
  intros F P. change (f32_of_int 0) with (@B754_zero 24 128 false).
  assert (S : Bsign d = true) by (apply Bsign_neg; assumption).
  destruct d as [s|s| |s m e Hm]; try discriminate; [simpl in P; lra|]. cbn in S. subst s. reflexivity.
Qed.
Lemma div32_zero_zero (d : f32) : is_finite d = true -> B2R d = 0 -> is_nan (f32_div d (f32_of_int 0)) = true.
Proof.
  intros F P. change (f32_of_int 0) with (@B754_zero 24 128 false).
  destruct d as [s|s| |s m e Hm]; try discriminate; [reflexivity|].
  exfalso. apply (F2R_neq_0 radix2 (Float radix2 (cond_Zopp s (Zpos m)) e)); [|exact P].
  destruct s; simpl; discriminate.
Qed.

Lemma n32_pos n : (1 <= n < two32)%Z -> is_finite (f32_of_int n) = true /\ 1 <= B2R (f32_of_int n) <= bpow radix2 32.
Proof.
  intros H. rewrite two32_val in H. destruct (of_int32_spec n) as [F E]; [lia|]. split; [exact F|]. rewrite E. split.
  - apply round_ge_generic; try exact _.
    + change 1 with (bpow radix2 0). apply generic_format_bpow. unfold SpecFloat.fexp, SpecFloat.emin. lia.
    + apply IZR_le; lia.
  - apply round_le_generic; try exact _.
    + apply generic_format_bpow. unfold SpecFloat.fexp, SpecFloat.emin. lia.
    + change (bpow radix2 32) with (IZR (2 ^ 32)). apply IZR_le. lia.
Qed.

(** quotient sign *)
Lemma div32_sign (d : f32) n : is_finite d = true -> (1 <= n < two32)%Z ->
  is_nan (f32_div d (f32_of_int n)) = false /\ toR32 (f32_div d (f32_of_int n)) = clamp 128 (rnd32 (B2R d / B2R (f32_of_int n))).
Proof.
  intros F H. destruct (n32_pos n H) as [Fn [N1 N2]]. apply div_toR; try exact _; try assumption. lra.
Qed.

Lemma clamp_pos_iff r : 0 < clamp 128 r <-> 0 < r.
Proof.
  unfold clamp. pose proof (bpow_gt_0 radix2 128). split; intros P.
  - destruct (Rle_or_lt r 0); [|assumption]. exfalso.
    assert (Rmin M32 r <= 0) by (apply Rle_trans with r; [apply Rmin_r|assumption]).
    assert (Rmax (- M32) (Rmin M32 r) <= 0) by (apply Rmax_lub; lra). lra.
  - apply Rlt_le_trans with (Rmin M32 r); [apply Rmin_glb_lt; assumption|apply Rmax_r].
Qed.
Lemma clamp_neg_iff r : clamp 128 r < 0 <-> r < 0.
Proof.
  unfold clamp. pose proof (bpow_gt_0 radix2 128). split; intros P.
  - destruct (Rle_or_lt 0 r); [|assumption]. exfalso.
    assert (0 <= Rmin M32 r) by (apply Rmin_glb; lra).
    assert (0 <= Rmax (- M32) (Rmin M32 r)) by (apply Rle_trans with (Rmin M32 r); [assumption|apply Rmax_r]). lra.
  - apply Rmax_lub_lt; [lra|]. apply Rle_lt_trans with r; [apply Rmin_r|assumption].
Qed.

(** a float of at least 2^-100 divided by at most 2^32 does not round to zero *)
Lemma rnd32_quot_pos d q : bpow radix2 (-100) <= d -> 1 <= q <= bpow radix2 32 -> 0 < rnd32 (d / q).
Proof.
  intros D Q. apply Rlt_le_trans with (bpow radix2 (-132)); [apply bpow_gt_0|].
  apply round_ge_generic; try exact _.
  - apply generic_format_bpow. unfold SpecFloat.fexp, SpecFloat.emin. lia.
  - apply Rmult_le_reg_r with q; [lra|]. unfold Rdiv. rewrite Rmult_assoc, Rinv_l, Rmult_1_r by lra.
    apply Rle_trans with (bpow radix2 (-132) * bpow radix2 32).
    + apply Rmult_le_compat_l; [apply bpow_ge_0|lra].
    + rewrite <- bpow_plus. exact D.
Qed.

(** the rounded integers are integers, so their difference is at least 1 *)
Lemma rnd32_int z : (0 <= z < two64)%Z -> exists k, B2R (f32_of_int z) = IZR k.
Proof.
  intros H. rewrite two64_val in H. destruct (of_int32_spec z) as [_ ->]; [lia|].
  destruct (Z.leb_spec (Z.abs z) (2 ^ 24)) as [S|S].
  - exists z. destruct (of_int32_spec z) as [_ <-]; [lia|]. apply of_int32_exact. exact S.
  - unfold round. 
    assert (E : (0 <= cexp radix2 (SpecFloat.fexp 24 128) (IZR z))%Z).
    { unfold cexp, SpecFloat.fexp, SpecFloat.emin.
      assert (24 < mag radix2 (IZR z))%Z.
      { apply (mag_gt_bpow radix2 (IZR z) 24). rewrite <- abs_IZR. change (bpow radix2 24) with (IZR (2 ^ 24)). apply IZR_le. lia. }
      lia. }
    set (c := cexp radix2 (SpecFloat.fexp 24 128) (IZR z)) in *.
    exists (ZnearestE (scaled_mantissa radix2 (SpecFloat.fexp 24 128) (IZR z)) * 2 ^ c)%Z.
    unfold F2R. cbn [Fnum Fexp]. rewrite mult_IZR. f_equal. rewrite <- (IZR_Zpower radix2) by exact E. reflexivity.
Qed.

Lemma rnd32_diff_ge1 a b : (0 <= a < two64)%Z -> (0 <= b < two64)%Z ->
  B2R (f32_of_int b) < B2R (f32_of_int a) -> 1 <= rnd32 (B2R (f32_of_int a) - B2R (f32_of_int b)).
Proof.
  intros Ha Hb L. destruct (rnd32_int a Ha) as [x X]. destruct (rnd32_int b Hb) as [y Y]. rewrite X, Y in *.
  apply lt_IZR in L. rewrite <- minus_IZR. apply round_ge_generic; try exact _.
  - change 1 with (bpow radix2 0). apply generic_format_bpow. unfold SpecFloat.fexp, SpecFloat.emin. lia.
  - apply IZR_le. lia.
Qed.

Lemma rnd_opp32 x : rnd32 (- x) = - rnd32 x.
Proof. apply round_NE_opp. Qed.

(** the sign of the rendered difference, for every n *)
Lemma delta32_sign m n :
  (0 <= used_memory_after m < two64)%Z -> (0 <= used_memory_before m < two64)%Z -> (0 <= n < two32)%Z ->
  (f32_ltb f32_zero (delta32 m n) = true <-> B2R (f32_of_int (used_memory_before m)) < B2R (f32_of_int (used_memory_after m)))
  /\ (f32_ltb (delta32 m n) f32_zero = true <-> B2R (f32_of_int (used_memory_after m)) < B2R (f32_of_int (used_memory_before m))).
Proof.
  intros Ha Hb Hn. set (A := B2R (f32_of_int (used_memory_after m))). set (B := B2R (f32_of_int (used_memory_before m))).
  destruct (diff32 _ _ Ha Hb) as [Fd Ed]. cbv zeta in Fd, Ed. fold A B in Ed.
  assert (Zt : toR32 f32_zero = 0) by reflexivity.
  assert (Cases : B < A \/ A < B \/ A = B) by lra.
  assert (DP : B < A -> 1 <= rnd32 (A - B)) by (apply rnd32_diff_ge1; assumption).
  assert (DN : A < B -> rnd32 (A - B) <= -1).
  { intros L. replace (A - B) with (- (B - A)) by ring. rewrite rnd_opp32.
    assert (1 <= rnd32 (B - A)) by (apply rnd32_diff_ge1; assumption). lra. }
  unfold delta32, f32_ltb.
  destruct (Z.eq_dec n 0) as [->|Nz].
  - destruct Cases as [C|[C|C]].
    + rewrite div32_zero_r; [|exact Fd|rewrite Ed; specialize (DP C); lra].
      split; split; intros X; try reflexivity; try lra; try (exfalso; lra); discriminate.
    + rewrite div32_zero_l; [|exact Fd|rewrite Ed; specialize (DN C); lra].
      split; split; intros X; try reflexivity; try lra; try (exfalso; lra); discriminate.
    + pose proof (div32_zero_zero _ Fd) as NN. rewrite Ed in NN. rewrite C, Rminus_diag_eq, round_0 in NN by (reflexivity || exact _).
      specialize (NN eq_refl).
      rewrite ltb_nan_r, ltb_nan_l by (try exact _; exact NN). split; split; try discriminate; lra.
  - destruct (div32_sign _ n Fd ltac:(lia)) as [Nn Et]. destruct (n32_pos n ltac:(lia)) as [Fn Bn].
    rewrite Ed in Et. set (q := f32_div _ _) in *.
    assert (Q : (0 < toR32 q <-> B < A) /\ (toR32 q < 0 <-> A < B)).
    { rewrite Et, clamp_pos_iff, clamp_neg_iff. set (N := B2R (f32_of_int n)) in *.
      assert (I : 0 < / N) by (apply Rinv_0_lt_compat; lra).
      destruct Cases as [C|[C|C]].
      - specialize (DP C). assert (0 < rnd32 (rnd32 (A - B) / N)).
        { apply rnd32_quot_pos; [|exact Bn]. apply Rle_trans with 1; [|exact DP]. change 1 with (bpow radix2 0). apply bpow_le. lia. }
        split; split; intros; lra.
      - specialize (DN C). assert (rnd32 (rnd32 (A - B) / N) < 0).
        { replace (rnd32 (A - B) / N) with (- (- rnd32 (A - B) / N)) by (unfold Rdiv; ring). rewrite rnd_opp32.
          assert (0 < rnd32 (- rnd32 (A - B) / N)); [|lra].
          apply rnd32_quot_pos; [|exact Bn]. apply Rle_trans with 1; [|lra]. change 1 with (bpow radix2 0). apply bpow_le. lia. }
        split; split; intros; lra.
      - rewrite C, Rminus_diag_eq, round_0 by (reflexivity || exact _). unfold Rdiv. rewrite Rmult_0_l, round_0 by exact _.
        split; split; intros; lra. }
    destruct Q as [Q1 Q2]. rewrite <- Q1, <- Q2. split; split; intros X.
    + apply ltb_true in X; try exact _. destruct X as (_ & _ & X). rewrite Zt in X. exact X.
    + apply ltb_intro; try exact _; try assumption; try reflexivity.
    + apply ltb_true in X; try exact _. destruct X as (_ & _ & X). rewrite Zt in X. exact X.
    + apply ltb_intro; try exact _; try assumption; try reflexivity.
Qed.

Lemma val_inj {A} (x y : A) : Val x = Val y -> x = y.
Proof. congruence. Qed.

Lemma fmt_sign b m n s : fmt_over_n b m n = Val s ->
  sh_sign s = if f32_ltb f32_zero (delta32 m n) then "+"%string else if f32_ltb (delta32 m n) f32_zero then "-"%string else ""%string.
Proof.
  unfold fmt_over_n. cbv zeta. intros H. apply bind_val in H. destruct H as (up & _ & H).
  apply bind_val in H. destruct H as (down & _ & H). apply val_inj in H. rewrite <- H. reflexivity.
Qed.

(** ** Memory units: division by a power of two is exact *)
Lemma pow2_32 k : (0 <= k <= 64)%Z -> is_finite (f32_of_int (2 ^ k)) = true /\ B2R (f32_of_int (2 ^ k)) = bpow radix2 k.
Proof.
  intros H. assert (P : (2 ^ k <= 2 ^ 64)%Z) by (apply Z.pow_le_mono_r; lia).
  assert (P0 : (0 < 2 ^ k)%Z) by (apply Z.pow_pos_nonneg; lia).
  destruct (of_int32_spec (2 ^ k)) as [F E]; [lia|]. split; [exact F|]. rewrite E.
  rewrite (IZR_Zpower radix2) by lia. apply round_generic; try exact _.
  apply generic_format_bpow. unfold SpecFloat.fexp, SpecFloat.emin. lia.
Qed.

Lemma div_pow2_exact (x : f32) k : is_finite x = true -> (0 <= k <= 64)%Z -> bpow radix2 k < Rabs (B2R x) ->
  is_finite (f32_div x (f32_of_int (2 ^ k))) = true /\ B2R (f32_div x (f32_of_int (2 ^ k))) = B2R x / bpow radix2 k.
Proof.
  intros F Hk L. destruct (pow2_32 k Hk) as [Fk Ek].
  pose proof (bpow_gt_0 radix2 k) as Pk.
  pose proof (Bdiv_correct 24 128 _ _ mode_NE x (f32_of_int (2 ^ k))) as D.
  change (round_mode mode_NE) with ZnearestE in D. rewrite Ek in D. specialize (D ltac:(lra)).
  assert (G : generic_format radix2 (SpecFloat.fexp 24 128) (B2R x / bpow radix2 k)).
  { unfold Rdiv. rewrite <- bpow_opp.
    apply (mult_bpow_exact_FLT radix2 (SpecFloat.emin 24 128) 24 (B2R x) (- k)).
    - apply (generic_format_B2R 24 128 x).
    - assert (mag radix2 (B2R x) > k)%Z.
      { apply Z.lt_gt. apply mag_gt_bpow. lra. }
      unfold SpecFloat.emin. lia. }
  rewrite (round_generic radix2 _ _ _ G) in D.
  assert (B : Rabs (B2R x / bpow radix2 k) < M32).
  { apply Rle_lt_trans with (Rabs (B2R x)).
    - unfold Rdiv. rewrite Rabs_mult. rewrite <- (Rmult_1_r (Rabs (B2R x))) at 2.
      apply Rmult_le_compat_l; [apply Rabs_pos|]. rewrite Rabs_pos_eq by (left; apply Rinv_0_lt_compat; lra).
      rewrite <- Rinv_1. apply Rinv_le; [lra|]. change 1 with (bpow radix2 0). apply bpow_le. lia.
    - apply abs_B2R_lt_emax. }
  rewrite Rlt_bool_true in D by exact B. destruct D as (D1 & D2 & _). rewrite F in D2. split; assumption.
Qed.

(** ** Time per element *)
Lemma round_half_even_bound a d : (0 <= a)%Z -> (0 < d)%Z -> (0 <= round_half_even a d <= a / d + 1)%Z.
Proof.
  intros Ha Hd. unfold round_half_even. cbv zeta. pose proof (Z.div_pos a d Ha Hd).
  destruct (2 * (a mod d) <? d)%Z; [lia|]. destruct (d <? 2 * (a mod d))%Z; [lia|]. destruct (Z.even (a / d)); lia.
Qed.

Lemma from_secs_ok (x : f64) : is_finite x = true -> 0 <= B2R x <= bpow radix2 63 ->
  exists v, from_secs_f64 x = Val v /\ duration_ok v.
Proof.
  intros F [P L]. destruct x as [s|s| |s m e Hm]; try discriminate.
  - exists 0%Z. split; [reflexivity|]. unfold duration_ok. rewrite two64_val. unfold nanos_per_sec. lia.
  - destruct s.
    { exfalso. unfold B2R, F2R in P. cbn [Fnum Fexp cond_Zopp Z.opp] in P. pose proof (bpow_gt_0 radix2 e).
      assert (IZR (Zneg m) < 0) by (apply IZR_lt; lia). nra. }
    cbn [from_secs_f64]. unfold B2R, F2R in L. cbn [Fnum Fexp cond_Zopp] in L. clear P F Hm.
    assert (X : (0 <= (if (0 <=? e)%Z then Z.pos m * 2 ^ e * nanos_per_sec else round_half_even (Z.pos m * nanos_per_sec) (2 ^ (- e))) < two64 * nanos_per_sec)%Z).
    { rewrite two64_val. unfold nanos_per_sec. destruct (Z.leb_spec 0 e) as [E|E].
      - rewrite <- (IZR_Zpower radix2 e E), <- mult_IZR in L. change (bpow radix2 63) with (IZR 9223372036854775808) in L.
        apply le_IZR in L. change (radix_val radix2 ^ e)%Z with (2 ^ e)%Z in L. pose proof (Z.pow_pos_nonneg 2 e ltac:(lia) E). nia.
      - assert (Pe : (0 < 2 ^ (- e))%Z) by (apply Z.pow_pos_nonneg; lia).
        assert (Lm : (Z.pos m <= 9223372036854775808 * 2 ^ (- e))%Z).
        { apply le_IZR. rewrite mult_IZR. change (2 ^ (- e))%Z with (radix_val radix2 ^ (- e))%Z. rewrite (IZR_Zpower radix2 (- e)) by lia.
          apply Rmult_le_reg_r with (bpow radix2 e); [apply bpow_gt_0|]. rewrite Rmult_assoc, <- bpow_plus.
          replace (- e + e)%Z with 0%Z by lia. rewrite Rmult_1_r. exact L. }
        pose proof (round_half_even_bound (Z.pos m * 1000000000) (2 ^ (- e)) ltac:(lia) Pe) as RB.
        assert (Z.pos m * 1000000000 / 2 ^ (- e) <= 9223372036854775808 * 1000000000)%Z.
        { apply Z.div_le_upper_bound; [exact Pe|nia]. }
        lia. }
    destruct (Z.ltb_spec (if (0 <=? e)%Z then Z.pos m * 2 ^ e * nanos_per_sec else round_half_even (Z.pos m * nanos_per_sec) (2 ^ (- e))) (two64 * nanos_per_sec)) as [Y|Y]; [|lia].
    eexists. split; [reflexivity|exact X].
Qed.

Lemma time_per_zero t : duration_sane t -> exists p, time_per t 0 = Panic p.
Proof.
  intros H. unfold time_per. change (f64_of_int 0) with (@B754_zero 53 1024 false).
  destruct (as_secs_pos_sign t H) as [[N S] P]. destruct (as_secs_f64 t) as [s|s| |s m e Hm]; cbn in N, S; try discriminate; subst;
    exists PDuration; reflexivity.
Qed.

(** the per-element time of a positive count never panics and is finite *)
Lemma time_per_ok t n : duration_sane t -> (1 <= n < two32)%Z -> exists v, time_per t n = Val v /\ duration_ok v.
Proof.
  intros H Hn. rewrite two32_val in Hn. unfold time_per.
  destruct (as_secs_spec t H) as [F E]. destruct (as_secs_pos_sign t H) as [_ P]. rewrite toR_fin in P by exact F.
  assert (U : B2R (as_secs_f64 t) <= bpow radix2 54).
  { rewrite E. destruct H as [H0 H1]. 
    assert (Hs : (0 <= t / nanos_per_sec < 2 ^ 53)%Z).
    { split; [apply Z.div_pos; [exact H0|reflexivity]|apply Z.div_lt_upper_bound; [reflexivity|lia]]. }
    assert (Hr : (0 <= t mod nanos_per_sec < nanos_per_sec)%Z) by (apply Z.mod_pos_bound; reflexivity).
    destruct (frac_part _ Hr) as (Fq & Eq & Bq).
    apply round_le_generic; try exact _.
    - apply generic_format_bpow. unfold SpecFloat.fexp, SpecFloat.emin. lia.
    - assert (IZR (t / nanos_per_sec) <= 9007199254740992) by (apply IZR_le; lia).
      change (bpow radix2 54) with 18014398509481984. lra. }
  pose proof (of_int_fin n ltac:(lia)) as Fn. pose proof (of_int_exact n ltac:(lia)) as En.
  assert (N1 : 1 <= IZR n) by (apply IZR_le; lia).
  pose proof (Bdiv_correct 53 1024 _ _ mode_NE (as_secs_f64 t) (f64_of_int n)) as D.
  change (round_mode mode_NE) with ZnearestE in D. rewrite En in D. specialize (D ltac:(lra)).
  assert (Q : 0 <= B2R (as_secs_f64 t) / IZR n <= bpow radix2 54).
  { assert (I : 0 < / IZR n <= 1).
    { split; [apply Rinv_0_lt_compat; lra|]. rewrite <- Rinv_1. apply Rinv_le; lra. }
    unfold Rdiv. split; [nra|]. apply Rle_trans with (B2R (as_secs_f64 t) * 1); [apply Rmult_le_compat_l; lra|lra]. }
  assert (R : 0 <= rnd64 (B2R (as_secs_f64 t) / IZR n) <= bpow radix2 54).
  { split; [apply rnd_ge_0; try exact _; lra|]. apply round_le_generic; try exact _; [|lra].
    apply generic_format_bpow. unfold SpecFloat.fexp, SpecFloat.emin. lia. }
  rewrite Rlt_bool_true in D.
  - destruct D as (D1 & D2 & _). rewrite F in D2. apply from_secs_ok; [exact D2|]. unfold f64_div. rewrite D1.
    split; [lra|]. apply Rle_trans with (bpow radix2 54); [lra|]. apply bpow_le. lia.
  - rewrite Rabs_pos_eq by lra. apply Rle_lt_trans with (bpow radix2 54); [lra|]. apply bpow_lt. lia.
Qed.

(** ** Integer totals *)
Lemma as_isize_small z : (0 <= z < two63)%Z -> usize_as_isize z = z.
Proof. apply to_i64_in. Qed.

Definition small (m : space_pass) : Prop := (max_used_memory m < 2 ^ 62)%Z.

Lemma delta_ok b m1 m2 : well_formed m1 -> well_formed m2 -> small m1 -> small m2 ->
  used_memory_delta b m1 m2 =
  Val ((used_memory_after m1 - used_memory_before m1) + (used_memory_after m2 - used_memory_before m2))%Z.
Proof.
  unfold well_formed, small, used_memory_delta. intros H1 H2 S1 S2. rewrite two64_val in *.
  rewrite !as_isize_small by (rewrite two63_val; lia).
  rewrite checked_i64_in by (rewrite two63_val; lia). cbn [bind].
  rewrite checked_i64_in by (rewrite two63_val; lia). cbn [bind].
  rewrite checked_i64_in by (rewrite two63_val; lia). f_equal. lia.
Qed.

Lemma aux_ok b m1 m2 : well_formed m1 -> well_formed m2 -> small m1 -> small m2 ->
  used_auxiliary_space b m1 m2 =
  Val ((max_used_memory m1 - Z.max (used_memory_before m1) (used_memory_after m1))
       + (max_used_memory m2 - Z.max (used_memory_before m2) (used_memory_after m2)))%Z.
Proof.
  unfold well_formed, small, used_auxiliary_space, usize_sub, usize_add. intros H1 H2 S1 S2. rewrite two64_val in *.
  rewrite checked_in by lia. cbn [bind]. rewrite checked_in by lia. cbn [bind].
  rewrite checked_in by lia. f_equal. lia.
Qed.

Lemma fmt_ok b m n : well_formed m -> exists s, fmt_over_n b m n = Val s.
Proof.
  unfold well_formed, fmt_over_n, usize_sub. cbv zeta. intros H. rewrite two64_val in *.
  rewrite checked_in by lia. cbn [bind]. rewrite checked_in by lia. cbn [bind]. eexists; reflexivity.
Qed.

Lemma space_display_ok b m1 m2 : well_formed m1 -> well_formed m2 -> small m1 -> small m2 ->
  exists s, space_display b m1 m2 = Val s.
Proof.
  intros H1 H2 S1 S2. unfold space_display. rewrite delta_ok by assumption. cbn [bind].
  rewrite aux_ok by assumption. cbn [bind].
  unfold well_formed, small in *. rewrite checked_i64_in by (rewrite two63_val; lia). cbn [bind]. eexists; reflexivity.
Qed.

Lemma regular_rows_ok b n1 n2 t1 t2 m1 m2 : well_formed m1 -> well_formed m2 -> duration_sane t1 -> duration_sane t2 ->
  (1 <= n1 < two32)%Z -> (1 <= n2 < two32)%Z -> exists rs, regular_rows b n1 n2 t1 t2 m1 m2 = Val rs.
Proof.
  intros W1 W2 T1 T2 N1 N2. unfold regular_rows.
  destruct (fmt_ok b m1 1 W1) as [s1 ->]. destruct (fmt_ok b m2 1 W2) as [s2 ->].
  destruct (fmt_ok b m1 n1 W1) as [s3 ->]. destruct (fmt_ok b m2 n2 W2) as [s4 ->].
  destruct (time_per_ok t1 n1 T1 N1) as (d1 & -> & _). destruct (time_per_ok t2 n2 T2 N2) as (d2 & -> & _).
  cbn [bind]. eexists; reflexivity.
Qed.
Lemma constant_set_rows_ok b n1 n2 rep t1 t2 m1 m2 : well_formed m1 -> well_formed m2 -> duration_sane t1 -> duration_sane t2 ->
  (1 <= rep < two32)%Z -> exists rs, constant_set_rows b n1 n2 rep t1 t2 m1 m2 = Val rs.
Proof.
  intros W1 W2 T1 T2 N1. unfold constant_set_rows.
  destruct (fmt_ok b m1 1 W1) as [s1 ->]. destruct (fmt_ok b m2 1 W2) as [s2 ->].
  destruct (time_per_ok t1 rep T1 N1) as (d1 & -> & _). destruct (time_per_ok t2 rep T2 N1) as (d2 & -> & _).
  cbn [bind]. eexists; reflexivity.
Qed.
Lemma set_resizing_rows_ok b n t1 t2 m1 m2 : well_formed m1 -> well_formed m2 -> duration_sane t1 -> duration_sane t2 ->
  (1 <= n < two31)%Z -> exists rs, set_resizing_rows b n t1 t2 m1 m2 = Val rs.
Proof.
  intros W1 W2 T1 T2 N1. unfold set_resizing_rows. rewrite two31_val in N1.
  destruct (fmt_ok b m1 1 W1) as [s1 ->]. destruct (fmt_ok b m2 1 W2) as [s2 ->].
  destruct (time_per_ok t1 n T1 ltac:(rewrite two32_val; lia)) as (d1 & -> & _).
  destruct (time_per_ok t2 n T2 ltac:(rewrite two32_val; lia)) as (d2 & -> & _).
  unfold u32_mul. rewrite checked_in by (rewrite two32_val; lia).
  cbn [bind]. eexists; reflexivity.
Qed.

Lemma bind_panic {A B} (m : res A) (k : A -> res B) p : m = Panic p -> bind m k = Panic p.
Proof. intros ->. reflexivity. Qed.
Lemma not_spin_checked b m z : checked b m z <> Spin.
Proof. unfold checked. destruct (_ && _); [discriminate|destruct b; discriminate]. Qed.

(** a computation that panics or returns, whatever it returns, followed by one that panics *)
Lemma fmt_not_spin b m n : fmt_over_n b m n <> Spin.
Proof.
  unfold fmt_over_n, usize_sub. cbv zeta.
  destruct (checked b two64 (max_used_memory m - used_memory_before m)) eqn:E1; cbn [bind]; [|discriminate|].
  - destruct (checked b two64 (used_memory_before m - min_used_memory m)) eqn:E2; cbn [bind]; try discriminate.
    exact (fun _ => not_spin_checked _ _ _ E2).
  - exact (fun _ => not_spin_checked _ _ _ E1).
Qed.

Lemma regular_rows_zero b n1 n2 t1 t2 m1 m2 : duration_sane t1 -> duration_sane t2 -> (n1 = 0 \/ n2 = 0)%Z ->
  exists p, regular_rows b n1 n2 t1 t2 m1 m2 = Panic p.
Proof.
  intros T1 T2 H. unfold regular_rows.
  destruct (fmt_over_n b m1 1) eqn:E1; cbn [bind]; [|eauto|destruct (fmt_not_spin _ _ _ E1)].
  destruct (fmt_over_n b m2 1) eqn:E2; cbn [bind]; [|eauto|destruct (fmt_not_spin _ _ _ E2)].
  destruct (fmt_over_n b m1 n1) eqn:E3; cbn [bind]; [|eauto|destruct (fmt_not_spin _ _ _ E3)].
  destruct (fmt_over_n b m2 n2) eqn:E4; cbn [bind]; [|eauto|destruct (fmt_not_spin _ _ _ E4)].
  destruct H as [-> | ->].
  - destruct (time_per_zero t1 T1) as [p ->]. cbn [bind]. eauto.
  - destruct (time_per t1 n1) eqn:E5; cbn [bind].
    + destruct (time_per_zero t2 T2) as [p ->]. cbn [bind]. eauto.
    + eauto.
    + exfalso. unfold time_per, from_secs_f64 in E5.
      destruct (f64_div _ _) as [s|s| |[] m e Hm]; try discriminate. cbv zeta in E5. destruct (_ <? _)%Z in E5; discriminate.
Qed.
