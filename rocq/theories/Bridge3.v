(** * The set-resizing analysis: interval tables, over the reals and in binary64. *)
From Coq Require Import ZArith Reals Lra Lia Bool List Psatz.
From Flocq Require Import Core.Core IEEE754.BinarySingleNaN Relative.
From Verif Require Import Machine Complexity Floats Analysis GrowthSpec AnalysisF64 AnalysisF64b AnalysisF64c AnalysisF64d AnalysisR DurationProofs Bridge Bridge2.
Import ListNotations.
Open Scope R_scope.

(** ** Over the reals *)
Definition log_growth (n : R) : R := ln (3 * n) / ln n.
Lemma log_growth_gt_1 n : 2 <= n -> 1 < log_growth n.
Proof.
  intros H. unfold log_growth. pose proof (ln_pos n ltac:(lra)) as P. rewrite ln_mult by lra. pose proof (ln_pos 3 ltac:(lra)).
  apply Rmult_lt_reg_r with (ln n); [exact P|]. unfold Rdiv. rewrite Rmult_assoc, Rinv_l by lra. lra.
Qed.
Lemma dres_eq n : 2 <= n -> ln (n * 3) / ln 2 / (ln n / ln 2) = log_growth n.
Proof. intros H. pose proof ln2_pos. pose proof (ln_pos n ltac:(lra)). unfold log_growth. rewrite (Rmult_comm n 3). field. split; lra. Qed.

Section R.
Variables (t : tolerance) (u1 u2 n : R).
Hypothesis (P1 : 0 < u1) (P2 : 0 < u2) (Hn : 2 <= n).
Let X := u2 / u1. Let L := log_growth n. Let T := tolR t.
Lemma X_pos : 0 < X. Proof. apply Rdiv_lt_0_compat; assumption. Qed.
Lemma inv_X : u1 / u2 = / X. Proof. unfold X. field. lra. Qed.
Lemma resizingR_table :
  (X * (1 + T) < 1 -> resizingR t u1 u2 n = BetterThanO1) /\
  (1 <= X * (1 + T) -> X <= 1 + T -> resizingR t u1 u2 n = O1) /\
  (1 + T < X -> X < L -> resizingR t u1 u2 n = BetweenO1AndOLogN) /\
  (1 + T < X -> L <= X < (1 + T) * L -> resizingR t u1 u2 n = OLogN) /\
  ((1 + T) * L <= X -> 3 * (1 - T) <= X <= 3 * (1 + T) -> resizingR t u1 u2 n = ON) /\
  ((1 + T) * L <= X -> X < 3 * (1 - T) -> resizingR t u1 u2 n = BetweenOLogNAndON) /\
  ((1 + T) * L <= X -> 3 * (1 + T) < X -> resizingR t u1 u2 n = BetweenONAndONLogN).
Proof.
  pose proof X_pos as PX. pose proof (log_growth_gt_1 n Hn) as PL. fold L in PL. pose proof (tolR_bounds t) as TB. fold T in TB.
  assert (I1 : / X * X = 1) by (field; lra). assert (PI : 0 < / X) by (apply Rinv_0_lt_compat; exact PX).
  assert (E : forall b1 b2 b3 b4 b5 b6, Rlt_bool T (/ X - 1) = b1 -> Rle_bool (Rabs (X - 1)) T = b2 -> Rlt_bool (X / L) 1 = b3 ->
     Rlt_bool (Rabs (X / L - 1)) T = b4 -> Rle_bool (Rabs (X / 3 - 1)) T = b5 -> Rlt_bool T (X / 3 - 1) = b6 ->
     resizingR t u1 u2 n = if b1 then BetterThanO1 else if b2 then O1 else if b3 then BetweenO1AndOLogN else if b4 then OLogN else if b5 then ON else if b6 then BetweenONAndONLogN else BetweenOLogNAndON).
  { intros. subst. unfold resizingR, analyse_set_resizing, NR.
    cbn [num n_div n_mul n_sub n_abs n_ltb n_leb n_log2 n_powi n_powf n_one n_three n_tol].
    rewrite dres_eq by exact Hn. rewrite inv_X. reflexivity. }
  assert (G : X <= X / L * L <= X) by (assert (X / L * L = X) by (field; lra); lra).
  assert (N1 : 1 <= X * (1 + T) -> Rlt_bool T (/ X - 1) = false) by (intros; apply Rlt_bool_false; nra).
  assert (N2 : 1 + T < X -> Rle_bool (Rabs (X - 1)) T = false) by (intros; apply Rle_bool_false; rewrite Rabs_pos_eq; lra).
  assert (N3 : L <= X -> Rlt_bool (X / L) 1 = false) by (intros; apply Rlt_bool_false; apply Rmult_le_reg_r with L; lra).
  assert (N4 : (1 + T) * L <= X -> Rlt_bool (Rabs (X / L - 1)) T = false).
  { intros HH. apply Rlt_bool_false. assert (1 + T <= X / L) by (apply Rmult_le_reg_r with L; lra). rewrite Rabs_pos_eq; lra. }
  assert (Big : (1 + T) * L <= X -> 1 + T < X /\ L <= X /\ 1 <= X * (1 + T)) by (intros; repeat split; nra).
  repeat split.
  - intros H. rewrite (E true _ _ _ _ _ ltac:(apply Rlt_bool_true; nra) eq_refl eq_refl eq_refl eq_refl eq_refl). reflexivity.
  - intros H H'. rewrite (E false true _ _ _ _ (N1 H) ltac:(apply Rle_bool_true, Rabs_le; nra) eq_refl eq_refl eq_refl eq_refl). reflexivity.
  - intros H H'. rewrite (E false false true _ _ _ (N1 ltac:(nra)) (N2 H) ltac:(apply Rlt_bool_true; apply Rmult_lt_reg_r with L; lra) eq_refl eq_refl eq_refl). reflexivity.
  - intros H H'. assert (K : Rlt_bool (Rabs (X / L - 1)) T = true); [|rewrite (E false false false true _ _ (N1 ltac:(nra)) (N2 H) (N3 (proj1 H')) K eq_refl eq_refl); reflexivity].
    apply Rlt_bool_true. assert (1 <= X / L) by (apply Rmult_le_reg_r with L; lra). assert (X / L < 1 + T) by (apply Rmult_lt_reg_r with L; lra). rewrite Rabs_pos_eq; lra.
  - intros H H'. destruct (Big H) as (B1 & B2 & B3). assert (K : Rle_bool (Rabs (X / 3 - 1)) T = true); [|rewrite (E false false false false true _ (N1 B3) (N2 B1) (N3 B2) (N4 H) K eq_refl); reflexivity].
    apply Rle_bool_true, Rabs_le. lra.
  - intros H H'. destruct (Big H) as (B1 & B2 & B3). rewrite (E false false false false false false (N1 B3) (N2 B1) (N3 B2) (N4 H)); [reflexivity| |].
    + apply Rle_bool_false. rewrite Rabs_left; lra.
    + apply Rlt_bool_false. lra.
  - intros H H'. destruct (Big H) as (B1 & B2 & B3). rewrite (E false false false false false true (N1 B3) (N2 B1) (N3 B2) (N4 H)); [reflexivity| |].
    + apply Rle_bool_false. rewrite Rabs_pos_eq; lra.
    + apply Rlt_bool_true. lra.
Qed.
End R.

(** ** In binary64 *)
Lemma r6_true t Q q : near Q q -> (1 + tolR t) * (1 + mg) <= q -> r6 t Q = true.
Proof.
  intros N H. destruct (near_high t Q q N H) as [B W]. pose proof (near_bounds _ _ N) as NB. pose proof (tolR_bounds t) as TB.
  destruct N as (F & _ & P). assert (NN : is_nan Q = false) by (apply fin_not_nan; exact F).
  assert (C1 : 1 <= B2R Q) by (change (bpow radix2 (-44)) with (/ 17592186044416) in NB; unfold mg in H; nra).
  apply r6_iff. split; [exact NN|]. destruct (Rlt_or_le (B2R (tol64 t)) (toR64 (f64_sub Q one64))) as [K|K]; [exact K|].
  exfalso. assert (W' : within t Q = true); [|congruence]. apply within_iff. split; [exact NN|]. split; [|exact K].
  pose proof (sub_one_ge_0 Q NN) as S. rewrite toR_fin in S by exact F. specialize (S C1). pose proof (tol_bounds t). lra.
Qed.
Lemma r6_false t Q q : near Q q -> q <= (1 + tolR t) * (1 - mg / 2) -> r6 t Q = false.
Proof.
  intros N H. pose proof (near_bounds _ _ N) as NB. pose proof (tolR_bounds t) as TB. destruct N as (F & _ & P).
  change (bpow radix2 (-44)) with (/ 17592186044416) in NB. unfold mg in H.
  destruct (r6 t Q) eqn:E; [|reflexivity]. apply r6_iff in E. destruct E as [_ E].
  rewrite sub_one_fin in E; [|exact F|rewrite Rabs_pos_eq; nra].
  assert (K : rnd64 (B2R Q - 1) <= B2R (tol64 t)); [|lra].
  apply round_le_generic; try exact _; [apply generic_format_B2R|]. rewrite tol_R. destruct t; unfold tolR in *; nra.
Qed.
Lemma r3_true Q q : near Q q -> q <= 1 - mg -> r3 Q = true.
Proof.
  intros N H. pose proof (near_bounds _ _ N) as NB. destruct N as (F & _ & P). change (bpow radix2 (-44)) with (/ 17592186044416) in NB. unfold mg in H.
  apply r3_iff. split; [apply fin_not_nan; exact F|]. rewrite toR_fin by exact F. nra.
Qed.
Lemma r3_false Q q : near Q q -> 1 + mg <= q -> r3 Q = false.
Proof.
  intros N H. pose proof (near_bounds _ _ N) as NB. destruct N as (F & _ & P). change (bpow radix2 (-44)) with (/ 17592186044416) in NB. unfold mg in H.
  destruct (r3 Q) eqn:E; [|reflexivity]. apply r3_iff in E. destruct E as [_ E]. rewrite toR_fin in E by exact F. nra.
Qed.
Lemma r4_false t Q q : near Q q -> (1 + tolR t) * (1 + mg) <= q -> r4 t Q = false.
Proof.
  intros N H. destruct (near_high t Q q N H) as [_ W]. destruct (r4 t Q) eqn:E; [|reflexivity]. apply r4_iff in E. destruct E as [NN E].
  assert (W' : within t Q = true); [|congruence]. apply within_iff. split; [exact NN|lra].
Qed.
Lemma r4_true t Q q : near Q q -> 1 + mg <= q <= (1 + tolR t) * (1 - mg) -> r4 t Q = true.
Proof.
  intros N [H H']. pose proof (near_bounds _ _ N) as NB. pose proof (tolR_bounds t) as TB. destruct N as (F & _ & P).
  change (bpow radix2 (-44)) with (/ 17592186044416) in NB. unfold mg in *.
  assert (C1 : 1 + / 1125899906842624 <= B2R Q) by nra. assert (C2 : B2R Q <= 1 + tolR t - / 1125899906842624) by nra.
  apply r4_iff. split; [apply fin_not_nan; exact F|]. rewrite sub_one_fin; [|exact F|rewrite Rabs_pos_eq; lra].
  assert (B : big (B2R Q - 1)). { right. apply Rle_trans with (bpow radix2 (-50)); [apply bpow_le; lia|]. change (bpow radix2 (-50)) with (/ 1125899906842624). lra. }
  pose proof (rel_rnd _ B) as [Ra Rb]. cbn [pow] in *. pose proof (tol_bounds t). unfold uu in *. split; [nra|].
  rewrite tol_R. destruct t; unfold tolR in *; lra.
Qed.

Lemma near_inv Q Q' q : near Q q -> True -> near Q' (/ q) -> 0 < / q.
Proof. intros _ _ (_ & _ & P). exact P. Qed.

Section F.
Variables (t : tolerance) (l : libm) (n : Z) (u1 u2 : f64) (U1 U2 : R).
Hypothesis Hl : libm_accurate l.
Hypothesis Hn : (2 <= n < two32)%Z.
Hypothesis A1 : ap 2 70 u1 U1.
Hypothesis A2 : ap 2 70 u2 U2.
Let X := U2 / U1. Let L := log_growth (IZR n). Let T := tolR t.
Let cls := resizing64 t l u1 u2 (f64_of_int n).

Lemma n_ge_2 : 2 <= IZR n. Proof. apply IZR_le. lia. Qed.
Lemma ap_log2_3n : ap 17 6 (lm_log2 l (f64_mul (f64_of_int n) three64)) (log2R (3 * IZR n)).
Proof.
  assert (Hn' : (2 <= n < 4294967296)%Z) by exact Hn.
  assert (F3 : is_finite (f64_mul (f64_of_int n) three64) = true /\ B2R (f64_mul (f64_of_int n) three64) = 3 * IZR n).
  { pose proof (Bmult_correct 53 1024 _ _ mode_NE (f64_of_int n) three64) as C. change (round_mode mode_NE) with ZnearestE in C.
    rewrite of_int_exact, three_R in C by lia.
    assert (G : rnd64 (IZR n * 3) = IZR (n * 3)).
    { rewrite <- mult_IZR. rewrite <- (of_int_exact (n * 3)) by lia. apply round_generic; [exact _|]. apply generic_format_B2R. }
    rewrite G in C. rewrite Rlt_bool_true in C.
    - destruct C as (C1 & C2 & _). unfold f64_mul. rewrite C1, C2. split; [rewrite of_int_fin by lia; reflexivity|]. rewrite mult_IZR. ring.
    - apply Rle_lt_trans with (bpow radix2 40); [|apply bpow_lt; lia]. rewrite Rabs_pos_eq by (apply IZR_le; lia).
      change (bpow radix2 40) with (IZR 1099511627776). apply IZR_le. lia. }
  destruct F3 as [F3 E3]. pose proof n_ge_2 as N2.
  assert (L3 : 3 * IZR n <= 2 ^ 34). { rewrite <- mult_IZR. rewrite pow_IZR. apply IZR_le. change (2 ^ Z.of_nat 34)%Z with 17179869184%Z. lia. }
  destruct Hl as [A _]. destruct (A (f64_mul (f64_of_int n) three64) F3) as [F E].
  - rewrite E3. split; [lra|]. apply Rle_trans with (1 := L3). change (bpow radix2 34) with (IZR 17179869184). rewrite pow_IZR. apply IZR_le. cbn. lia.
  - rewrite E3 in E. pose proof (log2R_ge_1 (3 * IZR n) ltac:(lra)). pose proof (log2R_le (3 * IZR n) 34 ltac:(lra) L3) as U. rewrite INR_IZR_INZ in U. cbn in U.
    split; [exact F|]. split; [apply rel_49; [lra|exact E]|].
    change (bpow radix2 6) with 64. split; [|lra]. apply Rle_trans with 1; [|lra]. change 1 with (bpow radix2 0). apply bpow_le; lia.
Qed.
Lemma ap_dres : ap 52 12 (d_res l (f64_of_int n)) L.
Proof.
  pose proof (ap_div _ _ _ _ _ _ _ _ ap_log2_3n (ap_log2 l Hl n Hn) ltac:(lia) ltac:(lia) ltac:(lia) ltac:(lia)) as A.
  assert (E : log2R (3 * IZR n) / log2R (IZR n) = L).
  { unfold log2R, L, log_growth. pose proof n_ge_2. pose proof ln2_pos. pose proof (ln_pos (IZR n) ltac:(lra)). field. split; lra. }
  rewrite E in A. exact A.
Qed.
Lemma near_X : near (f64_div u2 u1) X.
Proof. pose proof (near_x0 u1 u2 U1 U2 A1 A2) as N. unfold Rdiv at 1 in N. rewrite Rinv_1, Rmult_1_r in N. exact N. Qed.
Lemma near_invX : near (f64_div u1 u2) (/ X).
Proof.
  pose proof (near_x0 u2 u1 U2 U1 A2 A1) as N. unfold Rdiv at 1 in N. rewrite Rinv_1, Rmult_1_r in N.
  pose proof (ap_pos _ _ _ _ A1). pose proof (ap_pos _ _ _ _ A2). replace (/ X) with (U1 / U2) by (unfold X; field; lra). exact N.
Qed.
Lemma near_XL : near (f64_div (f64_div u2 u1) (d_res l (f64_of_int n))) (X / L).
Proof. apply (near_x u1 u2 U1 U2 A1 A2 _ _ _ _ ap_dres); lia. Qed.
Lemma near_X3 : near (f64_div (f64_div u2 u1) three64) (X / 3).
Proof. apply (near_x u1 u2 U1 U2 A1 A2 _ _ _ _ (ap_int 3 ltac:(unfold two32; lia))); lia. Qed.

Lemma resizing64_table :
  (X * (1 + T) <= 1 - mg -> cls = BetterThanO1) /\
  (1 + mg <= X * (1 + T) -> X <= (1 + T) * (1 - mg) -> cls = O1) /\
  ((1 + T) * (1 + mg) <= X -> X <= L * (1 - mg) -> cls = BetweenO1AndOLogN) /\
  ((1 + T) * (1 + mg) <= X -> L * (1 + mg) <= X <= (1 + T) * L * (1 - mg) -> cls = OLogN) /\
  ((1 + T) * L * (1 + mg) <= X -> 3 * (1 - T) * (1 + mg) <= X <= 3 * (1 + T) * (1 - mg) -> cls = ON) /\
  ((1 + T) * L * (1 + mg) <= X -> X <= 3 * (1 - T) * (1 - mg) -> cls = BetweenOLogNAndON) /\
  ((1 + T) * L * (1 + mg) <= X -> 3 * (1 + T) * (1 + mg) <= X -> cls = BetweenONAndONLogN).
Proof.
  pose proof (log_growth_gt_1 _ n_ge_2) as PL. fold L in PL. pose proof (tolR_bounds t) as TB. fold T in TB.
  pose proof near_X as NX. pose proof near_invX as NI. pose proof near_XL as NL. pose proof near_X3 as N3.
  assert (PX : 0 < X) by (destruct NX as (_ & _ & P); exact P). assert (PI : 0 < / X) by (apply Rinv_0_lt_compat; exact PX).
  assert (I1 : / X * X = 1) by (field; lra). assert (GL : X / L * L = X) by (field; lra).
  assert (M : 0 < mg < / 1000) by (unfold mg; lra).
  unfold cls. rewrite resizing64_unfold. cbv zeta. rewrite r1_iff.
  assert (B1 : 1 + mg <= X * (1 + T) -> r6 t (f64_div u1 u2) = false).
  { intros H. apply (r6_false t _ _ NI). apply Rmult_le_reg_r with X; [exact PX|]. rewrite I1. fold T.
    assert ((1 + mg) * (1 - mg / 2) <= X * (1 + T) * (1 - mg / 2)) by (apply Rmult_le_compat_r; lra).
    assert (K : (1 + mg) * (1 - mg / 2) >= 1) by nra. lra. }
  assert (B2 : (1 + T) * (1 + mg) <= X -> within t (f64_div u2 u1) = false) by (intros H; apply (near_high t _ _ NX H)).
  assert (B3 : L * (1 + mg) <= X -> r3 (f64_div (f64_div u2 u1) (d_res l (f64_of_int n))) = false).
  { intros H. apply (r3_false _ _ NL). apply Rmult_le_reg_r with L; lra. }
  assert (B4 : (1 + T) * L * (1 + mg) <= X -> r4 t (f64_div (f64_div u2 u1) (d_res l (f64_of_int n))) = false).
  { intros H. apply (r4_false t _ _ NL). apply Rmult_le_reg_r with L; [lra|]. fold T. lra. }
  assert (Big : (1 + T) * L * (1 + mg) <= X -> (1 + T) * (1 + mg) <= X /\ L * (1 + mg) <= X) by (intros; split; nra).
  assert (Bg : (1 + T) * (1 + mg) <= X -> 1 + mg <= X * (1 + T)) by (intros; nra).
  repeat split.
  - intros H. rewrite (r6_true t _ _ NI); [reflexivity|]. fold T. apply Rmult_le_reg_r with X; [exact PX|]. rewrite I1. nra.
  - intros H H'. rewrite (B1 H). destruct (near_in t _ _ NX) as [_ ->]; [|reflexivity]. fold T. split; [nra|exact H'].
  - intros H H'. rewrite (B1 (Bg H)), (B2 H). rewrite (r3_true _ _ NL); [reflexivity|]. apply Rmult_le_reg_r with L; lra.
  - intros H H'. rewrite (B1 (Bg H)), (B2 H), (B3 (proj1 H')). rewrite (r4_true t _ _ NL); [reflexivity|]. fold T. split; apply Rmult_le_reg_r with L; lra.
  - intros H H'. destruct (Big H) as [K1 K2]. rewrite (B1 (Bg K1)), (B2 K1), (B3 K2), (B4 H). destruct (near_in t _ _ N3) as [_ ->]; [|reflexivity]. fold T. lra.
  - intros H H'. destruct (Big H) as [K1 K2]. rewrite (B1 (Bg K1)), (B2 K1), (B3 K2), (B4 H).
    assert (LOW : X / 3 <= (1 - T) * (1 - mg)) by lra. pose proof (near_under t _ _ N3 LOW) as BL.
    assert (W : within t (f64_div (f64_div u2 u1) three64) = false).
    { destruct (within t (f64_div (f64_div u2 u1) three64)) eqn:W; [|reflexivity]. exfalso. apply within_iff in W. destruct W as [NN [W _]].
      pose proof (near_bounds _ _ N3) as NB. destruct N3 as (F3 & _ & P3). change (bpow radix2 (-44)) with (/ 17592186044416) in NB.
      assert (X1 : X / 3 <= 1) by nra.
      rewrite sub_one_fin in W; [|exact F3|rewrite Rabs_pos_eq; lra].
      assert (C : B2R (f64_div (f64_div u2 u1) three64) - 1 <= - T - / 1125899906842624) by (unfold mg in *; nra).
      assert (B : big (1 - B2R (f64_div (f64_div u2 u1) three64))).
      { right. apply Rle_trans with (bpow radix2 (-50)); [apply bpow_le; lia|]. change (bpow radix2 (-50)) with (/ 1125899906842624). lra. }
      pose proof (rel_rnd _ B) as [Ra _]. cbn [pow] in Ra.
      replace (1 - B2R (f64_div (f64_div u2 u1) three64)) with (- (B2R (f64_div (f64_div u2 u1) three64) - 1)) in Ra by ring.
      rewrite round_NE_opp in Ra. unfold T, uu in *. rewrite tol_R in W. destruct t; unfold tolR in *; lra. }
    rewrite W. rewrite (r6_false t _ _ N3) by (fold T; nra). reflexivity.
  - intros H H'. destruct (Big H) as [K1 K2]. rewrite (B1 (Bg K1)), (B2 K1), (B3 K2), (B4 H).
    assert (HI : (1 + tolR t) * (1 + mg) <= X / 3) by (fold T; lra).
    destruct (near_high t _ _ N3 HI) as [_ ->]. rewrite (r6_true t _ _ N3 HI). reflexivity.
Qed.
End F.
