(** * More proofs about the binary64 analyses: equality, zeros, degenerate sizes,
    the set-resizing analysis, and the lifting to durations and byte counts. *)
From Coq Require Import ZArith Reals Lra Lia Bool List Psatz.
From Flocq Require Import Core.Core IEEE754.BinarySingleNaN.
From Verif Require Import Machine Complexity Floats Analysis AnalysisF64.
Open Scope R_scope.

Lemma M64_big : bpow radix2 70 < M64.
Proof. apply bpow_lt. lia. Qed.
Lemma bpow70 : bpow radix2 70 = 1180591620717411303424. Proof. simpl; lra. Qed.

(** ** Integers as f64 *)
Lemma of_int_spec z : (Z.abs z <= 2 ^ 69)%Z ->
  is_finite (f64_of_int z) = true /\ B2R (f64_of_int z) = rnd64 (IZR z).
Proof.
  intros Hz.
  pose proof (binary_normalize_correct 53 1024 _ _ mode_NE z 0 false) as H. cbv zeta in H.
  change (round_mode mode_NE) with ZnearestE in H.
  assert (E : F2R (Float radix2 z 0) = IZR z) by (unfold F2R; simpl; ring).
  rewrite E in H. unfold f64_of_int.
  assert (B : Rabs (rnd64 (IZR z)) < M64).
  { apply Rle_lt_trans with (bpow radix2 70); [|apply M64_big].
    apply abs_round_le_generic; try exact _.
    - apply generic_format_bpow. unfold SpecFloat.fexp, SpecFloat.emin. lia.
    - rewrite <- abs_IZR. rewrite bpow70. apply IZR_le. lia. }
  rewrite Rlt_bool_true in H by exact B. destruct H as (H1 & H2 & _). auto.
Qed.

Lemma of_int_fin z : (Z.abs z <= 2 ^ 69)%Z -> is_finite (f64_of_int z) = true.
Proof. intros H. apply of_int_spec; exact H. Qed.

Lemma of_int_exact z : (Z.abs z <= 2 ^ 53)%Z -> B2R (f64_of_int z) = IZR z.
Proof.
  intros H. destruct (of_int_spec z) as [_ ->]; [lia|].
  apply round_generic; [exact _|].
  destruct (Z.eq_dec (Z.abs z) (2 ^ 53)) as [E|E].
  - assert (Hz : IZR z = bpow radix2 53 \/ IZR z = - bpow radix2 53).
    { assert (z = 2^53 \/ z = - 2^53)%Z as [-> | ->] by lia; [left|right]; simpl; lra. }
    destruct Hz as [-> | ->].
    + apply generic_format_bpow. unfold SpecFloat.fexp, SpecFloat.emin. lia.
    + apply generic_format_opp, generic_format_bpow. unfold SpecFloat.fexp, SpecFloat.emin. lia.
  - apply generic_format_FLT. apply (FLT_spec _ _ _ _ (Float radix2 z 0)).
    + unfold F2R; simpl; ring.
    + simpl. lia.
    + simpl. unfold SpecFloat.emin. lia.
Qed.

Lemma of_int_mono a b : (Z.abs a <= 2 ^ 69)%Z -> (Z.abs b <= 2 ^ 69)%Z -> (a <= b)%Z ->
  f64_leb (f64_of_int a) (f64_of_int b) = true.
Proof.
  intros Ha Hb L. destruct (of_int_spec a Ha) as [Fa Ea]. destruct (of_int_spec b Hb) as [Fb Eb].
  apply leb_intro; try exact _; try (apply fin_not_nan; assumption).
  rewrite !toR_fin by assumption. rewrite Ea, Eb. apply rnd_mono; try exact _. apply IZR_le; exact L.
Qed.

Lemma rnd_1 : rnd64 1 = 1.
Proof.
  rewrite <- one_R. apply rnd_B2R.
Qed.

Lemma of_int_ge_1 z : (1 <= z <= 2 ^ 69)%Z -> 1 <= B2R (f64_of_int z).
Proof.
  intros H. destruct (of_int_spec z) as [_ ->]; [lia|]. rewrite <- rnd_1.
  apply rnd_mono; try exact _. apply IZR_le; lia.
Qed.

Lemma of_int_nonneg z : (0 <= z <= 2 ^ 69)%Z -> 0 <= toR64 (f64_of_int z).
Proof.
  intros H. destruct (of_int_spec z) as [F E]; [lia|]. rewrite toR_fin by exact F. rewrite E.
  apply rnd_ge_0; try exact _. apply IZR_le; lia.
Qed.

Lemma of_int_sign z : (0 <= z <= 2 ^ 69)%Z -> Bsign (f64_of_int z) = false.
Proof.
  intros H. destruct (Z.eq_dec z 0) as [->|Hz]; [reflexivity|].
  apply Bsign_pos; [apply of_int_fin; lia|]. assert (1 <= B2R (f64_of_int z)) by (apply of_int_ge_1; lia). lra.
Qed.

Lemma of_int_zero : f64_of_int 0 = B754_zero false. Proof. reflexivity. Qed.

(** ** C02: equal usage *)
Lemma div_self u : is_finite u = true -> B2R u <> 0 ->
  is_finite (f64_div u u) = true /\ B2R (f64_div u u) = 1.
Proof.
  intros F H. pose proof (Bdiv_correct 53 1024 _ _ mode_NE u u H) as D.
  change (round_mode mode_NE) with ZnearestE in D.
  assert (E : B2R u / B2R u = 1) by (field; exact H).
  rewrite E, rnd_1 in D. rewrite Rlt_bool_true in D.
  - destruct D as (D1 & D2 & _). rewrite F in D2. auto.
  - rewrite Rabs_R1. apply Rlt_trans with (2 := M64_big). rewrite bpow70. lra.
Qed.

Lemma level_of_one t c : is_finite c = true -> B2R c = 1 -> below t c = false /\ within t c = true.
Proof.
  intros F E. split.
  - destruct (below t c) eqn:B; [|reflexivity]. apply below_iff in B. destruct B as [_ B].
    rewrite toR_fin in B by exact F. pose proof (lo_bounds t). lra.
  - apply within_iff. split; [apply fin_not_nan; exact F|].
    destruct (minus_toR 53 1024 _ _ c one64 F one_fin) as [_ E1].
    unfold f64_sub. rewrite E1, E, one_R.
    replace (1 - 1) with 0 by ring. rewrite round_0 by exact _.
    rewrite clamp_in by (rewrite Rabs_R0; apply M_pos). pose proof (tol_bounds t). lra.
Qed.

Lemma analyse64_equal t l u n1 n2 : is_finite u = true -> B2R u <> 0 ->
  analyse64 t l u u n1 n2 = O1.
Proof.
  intros F H. rewrite analyse64_chain. unfold chain, lvl. cbv zeta. cbn [first_match].
  destruct (div_self u F H) as [F1 E1]. destruct (level_of_one t _ F1 E1) as [-> ->]. reflexivity.
Qed.

(** ** Floats of positive sign *)
Definition pos_sign (x : f64) : Prop := is_nan x = false /\ Bsign x = false.

Lemma level_pinf t : below t (B754_infinity false) = false /\ within t (B754_infinity false) = false.
Proof.
  pose proof (M_pos 1024) as HM. pose proof (tol_bounds t). pose proof M64_big as MB. rewrite bpow70 in MB.
  split.
  - destruct (below _ _) eqn:B; [|reflexivity]. apply below_iff in B. destruct B as [_ B].
    simpl in B. pose proof (lo_bounds t). lra.
  - destruct (within _ _) eqn:B; [|reflexivity]. apply within_iff in B. destruct B as [_ B].
    unfold f64_sub in B.
    assert (E : Bminus mode_NE (B754_infinity false) one64 = B754_infinity false).
    { pose proof one_fin as F. destruct one64; try discriminate; reflexivity. }
    rewrite E in B. simpl in B. lra.
Qed.

Lemma pinf_div d : (pos_sign d \/ is_nan d = true) ->
  f64_div (B754_infinity false) d = B754_infinity false \/ is_nan (f64_div (B754_infinity false) d) = true.
Proof.
  intros H. destruct d as [s|s| |s m e H']; simpl.
  - destruct H as [[_ H]|H]; [|discriminate]. simpl in H; subst s. left; reflexivity.
  - right; reflexivity.
  - right; reflexivity.
  - destruct H as [[_ H]|H]; [|discriminate]. simpl in H; subst s. left; reflexivity.
Qed.

Lemma level_pinf_div t d : (pos_sign d \/ is_nan d = true) ->
  below t (f64_div (B754_infinity false) d) = false /\ within t (f64_div (B754_infinity false) d) = false.
Proof.
  intros H. destruct (pinf_div d H) as [-> | N]; [apply level_pinf|apply level_nan; exact N].
Qed.

Lemma div_pos_sign a b : (pos_sign a \/ is_nan a = true) -> (pos_sign b \/ is_nan b = true) ->
  pos_sign (f64_div a b) \/ is_nan (f64_div a b) = true.
Proof.
  intros Ha Hb. destruct (is_nan (f64_div a b)) eqn:N; [right; reflexivity|left].
  assert (Na : is_nan a = false). { destruct a; try reflexivity. destruct b; discriminate N. }
  assert (Nb : is_nan b = false). { destruct b; try reflexivity. destruct a as [|[]| |]; discriminate N. }
  destruct Ha as [[_ Sa]|]; [|congruence]. destruct Hb as [[_ Sb]|]; [|congruence].
  split; [reflexivity || exact N|].
  destruct a as [s|s| |s m e H]; try discriminate; destruct b as [s'|s'| |s' m' e' H']; try discriminate;
    simpl in Sa, Sb; subst; try reflexivity.
  set (u := B754_finite false m e H : f64) in *. set (v := B754_finite false m' e' H' : f64) in *.
  assert (Hv : B2R v <> 0).
  { pose proof (F2R_gt_0 radix2 (Float radix2 (Zpos m') e') eq_refl). unfold v; simpl in *; lra. }
  pose proof (Bdiv_correct 53 1024 _ _ mode_NE u v Hv) as D.
  revert D. case Rlt_bool; intros D.
  - destruct D as (_ & _ & D). apply D. exact N.
  - rewrite overflow_NE in D. apply B2SF_inf in D. unfold f64_div. rewrite D. reflexivity.
Qed.

Lemma mul_pos_sign a b : (pos_sign a \/ is_nan a = true) -> (pos_sign b \/ is_nan b = true) ->
  pos_sign (f64_mul a b) \/ is_nan (f64_mul a b) = true.
Proof.
  intros Ha Hb. destruct (is_nan (f64_mul a b)) eqn:N; [right; reflexivity|left].
  assert (Na : is_nan a = false). { destruct a; try reflexivity. destruct b; discriminate N. }
  assert (Nb : is_nan b = false). { destruct b; try reflexivity. destruct a as [|[]| |]; discriminate N. }
  destruct Ha as [[_ Sa]|]; [|congruence]. destruct Hb as [[_ Sb]|]; [|congruence].
  split; [reflexivity || exact N|].
  destruct a as [s|s| |s m e H]; try discriminate; destruct b as [s'|s'| |s' m' e' H']; try discriminate;
    simpl in Sa, Sb; subst; try reflexivity.
  set (u := B754_finite false m e H : f64) in *. set (v := B754_finite false m' e' H' : f64) in *.
  pose proof (Bmult_correct 53 1024 _ _ mode_NE u v) as D.
  revert D. case Rlt_bool; intros D.
  - destruct D as (_ & _ & D). apply D. exact N.
  - rewrite overflow_NE in D. apply B2SF_inf in D. unfold f64_mul. rewrite D. reflexivity.
Qed.

Lemma nan_div_l d x : is_nan x = true -> is_nan (f64_div x d) = true.
Proof. destruct x; try discriminate; intros _; destruct d; reflexivity. Qed.
Lemma nan_div_r d x : is_nan d = true -> is_nan (f64_div x d) = true.
Proof. destruct d; try discriminate; intros _; destruct x; reflexivity. Qed.

(** ** C07: zero usage *)
(** What any IEEE-conforming powf does with a zero base. *)
Definition powf_zero_ok (l : libm) : Prop :=
  forall y, pos_sign y -> Bltb (B754_zero false) y = true ->
    lm_powf l (B754_zero false) y = B754_zero false.
(** What any reasonable log2 does on [1, +inf): a non-negative number. *)
Definition log2_sign_ok (l : libm) : Prop :=
  forall x, 1 <= toR64 x -> pos_sign (lm_log2 l x).
(** powi of a number of positive sign keeps it (or overflows to NaN, which never happens). *)
Definition powi_sign_ok (l : libm) : Prop :=
  forall x k, pos_sign x -> pos_sign (lm_powi l x k).

Lemma size_ratio n1 n2 : (1 <= n1 < two32)%Z -> (1 <= n2 < two32)%Z ->
  let d := f64_div (f64_of_int n2) (f64_of_int n1) in
  pos_sign d /\ is_finite d = true /\ 0 < B2R d.
Proof.
  intros H1 H2. rewrite two32_val in *. cbv zeta.
  assert (F1 := of_int_fin n1 ltac:(lia)). assert (F2 := of_int_fin n2 ltac:(lia)).
  assert (E1 := of_int_exact n1 ltac:(lia)). assert (E2 := of_int_exact n2 ltac:(lia)).
  assert (P1 : 1 <= IZR n1 <= 4294967296) by (split; apply IZR_le; lia).
  assert (P2 : 1 <= IZR n2 <= 4294967296) by (split; apply IZR_le; lia).
  pose proof (Bdiv_correct 53 1024 _ _ mode_NE (f64_of_int n2) (f64_of_int n1)) as D.
  rewrite E1, E2 in D. specialize (D ltac:(lra)).
  change (round_mode mode_NE) with ZnearestE in D.
  assert (Q : bpow radix2 (-32) <= IZR n2 / IZR n1 <= bpow radix2 70).
  { rewrite bpow70. simpl bpow. split.
    - apply Rmult_le_reg_r with (IZR n1); [lra|]. unfold Rdiv. rewrite Rmult_assoc, Rinv_l by lra. lra.
    - apply Rmult_le_reg_r with (IZR n1); [lra|]. unfold Rdiv. rewrite Rmult_assoc, Rinv_l by lra. lra. }
  assert (QR : bpow radix2 (-32) <= rnd64 (IZR n2 / IZR n1) <= bpow radix2 70).
  { split; [apply round_ge_generic|apply round_le_generic]; try exact _; try apply Q;
    apply generic_format_bpow; unfold SpecFloat.fexp, SpecFloat.emin; lia. }
  assert (PP : 0 < bpow radix2 (-32)) by apply bpow_gt_0.
  rewrite Rlt_bool_true in D.
  - destruct D as (D1 & D2 & D3). rewrite F2 in D2. unfold f64_div.
    assert (0 < B2R (Bdiv mode_NE (f64_of_int n2) (f64_of_int n1))) by (rewrite D1; lra).
    split; [|split; assumption]. split; [apply fin_not_nan; exact D2|].
    apply Bsign_pos; assumption.
  - rewrite Rabs_pos_eq by lra. apply Rle_lt_trans with (1 := proj2 QR). apply M64_big.
Qed.

Lemma analyse64_zero_both t l n1 n2 : powf_zero_ok l ->
  (1 <= n1 < two32)%Z -> (1 <= n2 < two32)%Z ->
  analyse64 t l (f64_of_int 0) (f64_of_int 0) (f64_of_int n1) (f64_of_int n2) = WorseThanExponential.
Proof.
  intros HP H1 H2. rewrite analyse64_chain. unfold chain, lvl. cbv zeta. cbn [first_match].
  rewrite of_int_zero. change (f64_div (B754_zero false) (B754_zero false)) with (@B754_nan 53 1024).
  pose proof (fun d => level_nan t (f64_div B754_nan d) (nan_div_l d (B754_nan : f64) eq_refl)) as LN.
  destruct (level_nan t (@B754_nan 53 1024) eq_refl) as [-> ->].
  repeat match goal with |- context [below t (f64_div B754_nan ?d)] => destruct (LN d) as [-> ->] end.
  unfold d_exp, d_n. destruct (size_ratio n1 n2 H1 H2) as (S & F & P).
  rewrite HP; [|exact S|].
  - destruct (level_nan t (f64_div (B754_zero false) (B754_zero false)) eq_refl) as [-> ->]. reflexivity.
  - apply ltb_intro; try exact _; [reflexivity|apply S|]. rewrite (toR_fin _ _ (f64_div _ _)) by exact F.
    simpl. exact P.
Qed.

(** u1 = 0 < u2 *)
Lemma pos_div_zero u : is_nan u = false -> 0 < toR64 u -> f64_div u (B754_zero false) = B754_infinity false.
Proof.
  intros N H. pose proof (M_pos 1024). destruct u as [s|[]| |s m e H']; try discriminate.
  - simpl in H; lra.
  - simpl in H; lra.
  - reflexivity.
  - assert (s = false) by (apply (Bsign_pos 53 1024 (B754_finite s m e H')); [reflexivity|exact H]).
    subst s; reflexivity.
Qed.

Lemma int_pos_sign n : (0 <= n < two32)%Z -> pos_sign (f64_of_int n).
Proof.
  intros H. rewrite two32_val in H. split.
  - apply fin_not_nan, of_int_fin; lia.
  - apply of_int_sign; lia.
Qed.

Lemma int_ge_1_toR n : (1 <= n < two32)%Z -> 1 <= toR64 (f64_of_int n).
Proof.
  intros H. rewrite two32_val in H. rewrite toR_fin by (apply of_int_fin; lia). apply of_int_ge_1; lia.
Qed.

Lemma analyse64_zero_first t l u2 n1 n2 : powf_zero_ok l -> log2_sign_ok l -> powi_sign_ok l ->
  is_nan u2 = false -> 0 < toR64 u2 ->
  (1 <= n1 < two32)%Z -> (1 <= n2 < two32)%Z ->
  analyse64 t l (f64_of_int 0) u2 (f64_of_int n1) (f64_of_int n2) = WorseThanExponential.
Proof.
  intros HP HL HI N2 U2 H1 H2. rewrite analyse64_chain. unfold chain, lvl. cbv zeta. cbn [first_match].
  rewrite of_int_zero. rewrite pos_div_zero by assumption.
  destruct (level_pinf t) as [-> ->].
  destruct (size_ratio n1 n2 H1 H2) as (S & F & P).
  assert (L1 := HL _ (int_ge_1_toR n1 H1)). assert (L2 := HL _ (int_ge_1_toR n2 H2)).
  assert (P1 := int_pos_sign n1 ltac:(lia)). assert (P2 := int_pos_sign n2 ltac:(lia)).
  destruct (level_pinf_div t (d_log l (f64_of_int n1) (f64_of_int n2))) as [-> ->].
  { apply div_pos_sign; auto. }
  destruct (level_pinf_div t (d_n (f64_of_int n1) (f64_of_int n2))) as [-> ->]. { auto. }
  destruct (level_pinf_div t (d_nlog l (f64_of_int n1) (f64_of_int n2))) as [-> ->].
  { apply div_pos_sign; apply mul_pos_sign; auto. }
  destruct (level_pinf_div t (d_pow l (f64_of_int n1) (f64_of_int n2) 2)) as [-> ->].
  { left; apply HI; exact S. }
  destruct (level_pinf_div t (d_pow l (f64_of_int n1) (f64_of_int n2) 3)) as [-> ->].
  { left; apply HI; exact S. }
  destruct (level_pinf_div t (d_pow l (f64_of_int n1) (f64_of_int n2) 4)) as [-> ->].
  { left; apply HI; exact S. }
  unfold d_exp, d_n. rewrite HP; [|exact S|].
  - rewrite pos_div_zero by assumption. destruct (level_pinf t) as [-> ->]. reflexivity.
  - apply ltb_intro; try exact _; [reflexivity|apply S|]. rewrite (toR_fin _ _ (f64_div _ _)) by exact F.
    simpl. exact P.
Qed.

(** ** C08: first pass of size 1 *)
Definition log2_one_ok (l : libm) : Prop := lm_log2 l one64 = B754_zero false.
Definition log2_pos_ok (l : libm) : Prop :=
  forall x, is_finite x = true -> 1 < B2R x -> is_finite (lm_log2 l x) = true /\ 0 < B2R (lm_log2 l x).

Lemma div_by_inf_below t x : is_finite x = true -> below t (f64_div x (B754_infinity false)) = true.
Proof.
  intros F. assert (E : exists b, f64_div x (B754_infinity false) = B754_zero b).
  { destruct x; try discriminate; simpl; eauto. }
  destruct E as [b ->]. apply below_iff. split; [reflexivity|]. pose proof (lo_bounds t). simpl; lra.
Qed.

(** [grows t u1 u2]: the usage growth is above the tolerance and the quotient
    does not overflow *)
Definition above_tolerance t (u1 u2 : f64) : Prop :=
  let x := f64_div u2 u1 in
  is_finite x = true /\ below t x = false /\ within t x = false.

Lemma analyse64_n1_one t l u1 u2 n2 : log2_one_ok l -> log2_pos_ok l ->
  above_tolerance t u1 u2 -> (2 <= n2 < two32)%Z ->
  analyse64 t l u1 u2 (f64_of_int 1) (f64_of_int n2) = BetweenO1AndOLogN.
Proof.
  intros L1 LP (F & B & W) H2. rewrite analyse64_chain. unfold chain, lvl. cbv zeta. cbn [first_match].
  rewrite B, W. unfold d_log. change (f64_of_int 1) with one64. rewrite L1.
  rewrite two32_val in H2.
  destruct (LP (f64_of_int n2)) as [FL PL].
  - apply of_int_fin; lia.
  - rewrite of_int_exact by lia. apply IZR_lt; lia.
  - rewrite pos_div_zero; [|apply fin_not_nan; exact FL|rewrite toR_fin by exact FL; exact PL].
    rewrite div_by_inf_below by exact F. reflexivity.
Qed.

(** ** C44: both set sizes zero *)
Definition powf_nan_ok (l : libm) : Prop :=
  forall u, lm_powf l u B754_nan = (if Beqb u one64 then one64 else B754_nan).
Definition log2_zero_ok (l : libm) : Prop := lm_log2 l (f64_of_int 0) = B754_infinity true.
Definition powi_nan_ok (l : libm) : Prop := forall k, (k <> 0)%Z -> lm_powi l B754_nan k = B754_nan.

Lemma one_shape : exists m e H, one64 = B754_finite false m e H.
Proof.
  pose proof one_fin as F. pose proof one_R as R1. pose proof (eq_refl : Bsign one64 = false) as S.
  destruct one64 as [s|s| |s m e H]; try discriminate.
  - exfalso. cbn in R1. lra.
  - cbn in S. subst s. eauto.
Qed.

Lemma div_one (u : f64) : is_nan u = false -> f64_div u one64 = u.
Proof.
  intros N. destruct (is_finite u) eqn:F.
  - pose proof (Bdiv_correct 53 1024 _ _ mode_NE u one64) as D.
    change (round_mode mode_NE) with ZnearestE in D.
    rewrite one_R in D. specialize (D ltac:(lra)).
    replace (B2R u / 1) with (B2R u) in D by field. rewrite rnd_B2R in D by exact _.
    rewrite Rlt_bool_true in D by apply abs_B2R_lt_emax.
    destruct D as (D1 & D2 & D3). rewrite F in D2.
    assert (N' := fin_not_nan _ _ _ D2). specialize (D3 N').
    apply B2R_Bsign_inj; auto. unfold f64_div. rewrite D3.
    change (Bsign one64) with false. destruct (Bsign u); reflexivity.
  - destruct u; try discriminate. unfold f64_div.
    destruct one_shape as (m & e & H & ->). simpl. rewrite xorb_false_r. reflexivity.
Qed.

Lemma beqb_one u : is_nan u = false -> Beqb u one64 = true -> toR64 u = 1.
Proof.
  intros N H. destruct (is_finite u) eqn:F.
  - rewrite Beqb_correct in H; auto using one_fin. rewrite toR_fin by exact F.
    revert H. case Req_bool_spec; intros E H; [|discriminate]. rewrite E. apply one_R.
  - destruct one_shape as (m & e & H' & E). rewrite E in H.
    destruct u as [|[]| |]; discriminate.
Qed.

Lemma beqb_one_eq u : Beqb u one64 = true -> is_nan u = false -> u = one64.
Proof.
  intros H N. assert (F : is_finite u = true).
  { destruct (is_finite u) eqn:F; [reflexivity|]. pose proof (beqb_one u N H) as E.
    pose proof M64_big as MB. rewrite bpow70 in MB. pose proof (M_pos 1024).
    destruct u as [|[]| |]; try discriminate; simpl in E; lra. }
  pose proof (beqb_one u N H) as E. rewrite toR_fin in E by exact F.
  apply B2R_Bsign_inj; auto using one_fin.
  - rewrite E, one_R. reflexivity.
  - rewrite (Bsign_pos _ _ u F) by lra. reflexivity.
Qed.

Lemma analyse64_zero_sizes t l u1 u2 :
  powf_nan_ok l -> log2_zero_ok l -> powi_nan_ok l ->
  is_finite u1 = true -> 0 < B2R u1 -> is_nan u2 = false ->
  analyse64 t l u1 u2 (f64_of_int 0) (f64_of_int 0) =
    if below t (f64_div u2 u1) then BetterThanO1
    else if within t (f64_div u2 u1) then O1 else WorseThanExponential.
Proof.
  intros HP HL HI F1 P1 N2. rewrite analyse64_chain. unfold chain, lvl. cbv zeta. cbn [first_match].
  destruct (below t (f64_div u2 u1)) eqn:B; [reflexivity|].
  destruct (within t (f64_div u2 u1)) eqn:W; [reflexivity|].
  assert (LN : forall x d, is_nan d = true -> below t (f64_div x d) = false /\ within t (f64_div x d) = false).
  { intros x d Hd. apply level_nan, nan_div_r, Hd. }
  set (x := f64_div u2 u1) in *.
  assert (E1 : d_n (f64_of_int 0) (f64_of_int 0) = B754_nan) by reflexivity.
  destruct (LN x (d_log l (f64_of_int 0) (f64_of_int 0))) as [-> ->].
  { unfold d_log. rewrite HL. reflexivity. }
  rewrite E1. destruct (LN x B754_nan eq_refl) as [-> ->].
  destruct (LN x (d_nlog l (f64_of_int 0) (f64_of_int 0))) as [-> ->].
  { unfold d_nlog. rewrite HL. reflexivity. }
  unfold d_pow, d_exp. rewrite E1, !HI by lia. destruct (LN x B754_nan eq_refl) as [-> ->].
  rewrite HP. destruct (Beqb u1 one64) eqn:Q.
  - apply beqb_one_eq in Q; [|apply fin_not_nan; exact F1]. subst u1. unfold x in *.
    rewrite div_one in * by exact N2. rewrite B, W. reflexivity.
  - destruct (LN u2 B754_nan eq_refl) as [-> ->]. reflexivity.
Qed.
