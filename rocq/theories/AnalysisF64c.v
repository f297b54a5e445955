(** * The set-resizing analysis in binary64; durations and byte counts. *)
From Coq Require Import ZArith Reals Lra Lia Bool List Psatz.
From Flocq Require Import Core.Core IEEE754.BinarySingleNaN.
From Verif Require Import Machine Complexity Floats Analysis AnalysisF64 AnalysisF64b.
Open Scope R_scope.

Ltac ifs :=
  repeat match goal with
  | |- context [if ?b then _ else _] => generalize b; intros []
  end; cbn [discr]; clear; lia.

(** ** C10 *)
Lemma resizing64_saturates t l u1 u2 n : cle (resizing64 t l u1 u2 n) BetweenONAndONLogN.
Proof.
  unfold resizing64, analyse_set_resizing, cle.
  ifs.
Qed.

(** ** C09 *)
Section Resizing.
Variables (t : tolerance) (l : libm) (n : f64).

Definition d_res : f64 := f64_div (lm_log2 l (f64_mul n three64)) (lm_log2 l n).
Definition r1 (u1 u2 : f64) : bool := f64_ltb (tol64 t) (f64_sub (f64_div u1 u2) one64).
Definition r3 (c : f64) : bool := f64_ltb c one64.
Definition r4 (c : f64) : bool := f64_ltb (f64_abs (f64_sub c one64)) (tol64 t).
Definition r6 (y : f64) : bool := f64_ltb (tol64 t) (f64_sub y one64).

Lemma resizing64_unfold u1 u2 :
  resizing64 t l u1 u2 n =
    let x := f64_div u2 u1 in
    if r1 u1 u2 then BetterThanO1
    else if within t x then O1
    else if r3 (f64_div x d_res) then BetweenO1AndOLogN
    else if r4 (f64_div x d_res) then OLogN
    else if within t (f64_div x three64) then ON
    else if r6 (f64_div x three64) then BetweenONAndONLogN
    else BetweenOLogNAndON.
Proof. reflexivity. Qed.

Lemma r6_iff y : r6 y = true <-> is_nan y = false /\ B2R (tol64 t) < toR64 (f64_sub y one64).
Proof.
  unfold r6, f64_ltb. split.
  - intros H. apply ltb_true in H; try exact _. destruct H as (_ & H1 & H2).
    rewrite (toR_fin _ _ (tol64 t)) in H2 by apply tol_fin. split; [|exact H2].
    destruct (is_nan y) eqn:N; [|reflexivity]. unfold f64_sub in H1. rewrite minus_nan in H1 by exact N. discriminate.
  - intros [N H]. apply ltb_intro; try exact _.
    + apply fin_not_nan, tol_fin.
    + apply minus_not_nan; [exact N|apply one_fin].
    + rewrite (toR_fin _ _ (tol64 t)) by apply tol_fin. exact H.
Qed.

Lemma r1_iff u1 u2 : r1 u1 u2 = r6 (f64_div u1 u2). Proof. reflexivity. Qed.

Lemma r3_iff c : r3 c = true <-> is_nan c = false /\ toR64 c < 1.
Proof.
  unfold r3, f64_ltb. split.
  - intros H. apply ltb_true in H; try exact _. destruct H as (H1 & _ & H2).
    rewrite (toR_fin _ _ one64) in H2 by apply one_fin. rewrite one_R in H2. auto.
  - intros [N H]. apply ltb_intro; auto; try exact _.
    rewrite (toR_fin _ _ one64) by apply one_fin. rewrite one_R. exact H.
Qed.

Lemma r4_iff c : r4 c = true <->
  is_nan c = false /\ - B2R (tol64 t) < toR64 (f64_sub c one64) < B2R (tol64 t).
Proof.
  unfold r4, f64_ltb. split.
  - intros H. apply ltb_true in H; try exact _. destruct H as (H1 & _ & H2).
    rewrite (toR_fin _ _ (tol64 t)) in H2 by apply tol_fin.
    unfold f64_abs in *. rewrite abs_nan in H1. rewrite abs_toR in H2.
    apply Rabs_def2 in H2. split; [|lra].
    destruct (is_nan c) eqn:N; [|reflexivity].
    unfold f64_sub in H1. rewrite minus_nan in H1 by exact N. discriminate.
  - intros [N H]. apply ltb_intro; try exact _.
    + unfold f64_abs; rewrite abs_nan. apply minus_not_nan; [exact N|apply one_fin].
    + apply fin_not_nan, tol_fin.
    + rewrite (toR_fin _ _ (tol64 t)) by apply tol_fin. unfold f64_abs; rewrite abs_toR.
      apply Rabs_def1; lra.
Qed.

Lemma sub_one_ge_0 c : is_nan c = false -> 1 <= toR64 c -> 0 <= toR64 (f64_sub c one64).
Proof.
  intros N H. assert (L : f64_leb one64 c = true).
  { apply leb_intro; auto; try exact _. rewrite (toR_fin _ _ one64) by apply one_fin. rewrite one_R. exact H. }
  apply sub_one_mono in L.
  destruct (minus_toR 53 1024 _ _ one64 one64 one_fin one_fin) as [_ E].
  unfold f64_sub in L at 1. rewrite E, one_R in L. replace (1 - 1) with 0 in L by ring.
  rewrite round_0 in L by exact _. rewrite clamp_in in L by (rewrite Rabs_R0; apply M_pos). exact L.
Qed.

(** *** the float thresholds separating "better" from "within" *)
Definition q64 : f64 := match t with Tol10 => f64_scaled 29 (-5) | Tol25 => f64_scaled 25 (-5) end.
Definition p64 : f64 := match t with Tol10 => f64_scaled 141 (-7) | Tol25 => f64_scaled 81 (-6) end.
Lemma q_fin : is_finite q64 = true. Proof. unfold q64; destruct t; vm_compute; reflexivity. Qed.
Lemma p_fin : is_finite p64 = true. Proof. unfold p64; destruct t; vm_compute; reflexivity. Qed.
Lemma q_R : B2R q64 = match t with Tol10 => 29/32 | Tol25 => 25/32 end.
Proof. unfold q64; destruct t; compute_B2R; lra. Qed.
Lemma p_R : B2R p64 = match t with Tol10 => 141/128 | Tol25 => 81/64 end.
Proof. unfold p64; destruct t; compute_B2R; lra. Qed.
Lemma q_minus : - B2R (tol64 t) <= toR64 (f64_sub q64 one64).
Proof.
  rewrite toR_fin by (unfold q64; destruct t; vm_compute; reflexivity).
  unfold q64. rewrite tol_R. destruct t; compute_B2R; lra.
Qed.
Lemma p_minus : B2R (tol64 t) < toR64 (f64_sub p64 one64).
Proof.
  rewrite toR_fin by (unfold p64; destruct t; vm_compute; reflexivity).
  unfold p64. rewrite tol_R. destruct t; compute_B2R; lra.
Qed.

Lemma clamp_lt_inv r q : clamp64 r < q -> q < M64 -> r < q.
Proof.
  intros H Hq. destruct (Rlt_or_le r q) as [L|L]; [exact L|]. exfalso.
  assert (clamp64 q <= clamp64 r) by (apply clamp_mono; exact L).
  assert (q <= clamp64 q).
  { unfold clamp. rewrite Rmin_right by lra. apply Rmax_r. }
  lra.
Qed.

Lemma not_better_gap u1 u2 : is_finite u1 = true -> 0 < B2R u1 -> pos_sign u2 ->
  r1 u1 u2 = false -> - B2R (tol64 t) <= toR64 (f64_sub (f64_div u2 u1) one64).
Proof.
  intros F1 P1 [N2 S2] HR.
  destruct (Rle_or_lt (- B2R (tol64 t)) (toR64 (f64_sub (f64_div u2 u1) one64))) as [G|G]; [exact G|].
  exfalso. revert HR. apply not_false_iff_true. rewrite r1_iff. apply r6_iff.
  pose proof (tol_bounds t) as TB. pose proof (M_pos 1024) as HM.
  pose proof M64_big as MB. rewrite bpow70 in MB.
  destruct (is_finite u2) eqn:F2.
  2:{ destruct u2 as [s|s| |]; try discriminate. simpl in S2. subst s. exfalso.
      assert (E : f64_sub (f64_div (B754_infinity false) u1) one64 = B754_infinity false).
      { assert (S1 : Bsign u1 = false) by (apply Bsign_pos; assumption).
        destruct u1 as [s1|s1| |s1 m1 e1 H1]; try discriminate; [simpl in P1; lra|].
        simpl in S1; subst s1. destruct one_shape as (m & e & H & ->). reflexivity. }
      rewrite E in G. simpl in G. lra. }
  destruct (Req_dec (B2R u2) 0) as [Z2|Z2].
  { assert (E : u2 = B754_zero false).
    { destruct u2 as [s|s| |s m e H]; try discriminate; [simpl in S2; subst s; reflexivity|].
      exfalso. simpl in S2; subst s. pose proof (F2R_gt_0 radix2 (Float radix2 (Zpos m) e) eq_refl).
      simpl in *; lra. }
    rewrite E, pos_div_zero; [|apply fin_not_nan; exact F1|rewrite toR_fin by exact F1; exact P1].
    split; [reflexivity|]. destruct one_shape as (m & e & H & ->). simpl. lra. }
  assert (P2 : 0 < B2R u2).
  { destruct (Rtotal_order (B2R u2) 0) as [H|[H|H]]; [|contradiction|exact H].
    rewrite (Bsign_neg _ _ u2 F2 H) in S2. discriminate. }
  destruct (div_toR 53 1024 _ _ u2 u1 F2 F1) as [Nx Ex]; [lra|].
  destruct (div_toR 53 1024 _ _ u1 u2 F1 F2) as [Nw Ew]; [lra|].
  split; [exact Nw|].
  assert (Hx : toR64 (f64_div u2 u1) < B2R q64).
  { destruct (Rlt_or_le (toR64 (f64_div u2 u1)) (B2R q64)) as [H|H]; [exact H|]. exfalso.
    assert (L : f64_leb q64 (f64_div u2 u1) = true).
    { apply leb_intro; try exact _; [apply fin_not_nan, q_fin|exact Nx|].
      rewrite (toR_fin _ _ q64) by apply q_fin. exact H. }
    apply sub_one_mono in L. pose proof q_minus. lra. }
  assert (Hq : B2R u2 / B2R u1 < B2R q64).
  { unfold f64_div in Hx. rewrite Ex in Hx. apply clamp_lt_inv in Hx; [|rewrite q_R; destruct t; lra].
    destruct (Rlt_or_le (B2R u2 / B2R u1) (B2R q64)) as [H|H]; [exact H|]. exfalso.
    apply (rnd_mono 53 1024) in H; try exact _. rewrite rnd_B2R in H by exact _. lra. }
  assert (Hw : B2R p64 <= B2R u1 / B2R u2).
  { assert (Hm : B2R u2 < B2R q64 * B2R u1).
    { apply Rmult_lt_reg_r with (/ B2R u1); [apply Rinv_0_lt_compat; exact P1|].
      rewrite Rmult_assoc, Rinv_r by lra. rewrite Rmult_1_r. exact Hq. }
    apply Rmult_le_reg_r with (B2R u2); [exact P2|]. unfold Rdiv. rewrite Rmult_assoc, Rinv_l by lra.
    rewrite Rmult_1_r. rewrite q_R in Hm. rewrite p_R. destruct t; nra. }
  assert (Lw : f64_leb p64 (f64_div u1 u2) = true).
  { apply leb_intro; try exact _; [apply fin_not_nan, p_fin|exact Nw|].
    rewrite (toR_fin _ _ p64) by apply p_fin. unfold f64_div. rewrite Ew.
    apply (rnd_mono 53 1024) in Hw; try exact _. rewrite rnd_B2R in Hw by exact _.
    apply Rle_trans with (clamp64 (B2R p64)); [|apply clamp_mono; exact Hw].
    rewrite clamp_in; [lra|]. rewrite Rabs_pos_eq; rewrite p_R; destruct t; lra. }
  apply sub_one_mono in Lw. pose proof p_minus. lra.
Qed.

Lemma div_anti u1 u2 u2' : is_finite u1 = true -> 0 < B2R u1 -> pos_sign u2 -> pos_sign u2' ->
  f64_leb u2 u2' = true -> f64_leb (f64_div u1 u2') (f64_div u1 u2) = true.
Proof.
  intros F1 P1 [N2 S2] [N2' S2'] L. pose proof (M_pos 1024) as HM.
  pose proof L as L'. unfold f64_leb in L'. apply leb_true in L'; try exact _. destruct L' as (_ & _ & LR).
  assert (POS : forall z : f64, is_nan z = false -> Bsign z = false ->
            z = B754_zero false \/ z = B754_infinity false \/ (is_finite z = true /\ 0 < B2R z)).
  { intros z Nz Sz. destruct z as [s|s| |s m e H]; try discriminate; simpl in Sz; subst s; auto.
    right; right. split; [reflexivity|].
    pose proof (F2R_gt_0 radix2 (Float radix2 (Zpos m) e) eq_refl). simpl in *; lra. }
  assert (T1 : 0 < toR64 u1) by (rewrite toR_fin by exact F1; exact P1).
  assert (N1 : is_nan u1 = false) by (apply fin_not_nan; exact F1).
  assert (NOTNAN : forall z, is_nan z = false -> Bsign z = false -> is_nan (f64_div u1 z) = false).
  { intros z Nz Sz. destruct (POS z Nz Sz) as [->|[->|[Fz Pz]]].
    - rewrite pos_div_zero by assumption. reflexivity.
    - destruct u1; try discriminate; reflexivity.
    - apply div_toR; auto; lra. }
  assert (A := NOTNAN u2 N2 S2). assert (A' := NOTNAN u2' N2' S2').
  destruct (POS u2 N2 S2) as [E|[E|[F2 P2]]].
  - subst u2. rewrite (pos_div_zero u1) by assumption.
    apply leb_intro; auto; try exact _. pose proof (toR_bound 53 1024 (f64_div u1 u2')) as B.
    apply Rabs_le_inv in B. change (toR64 (B754_infinity false)) with M64. lra.
  - assert (u2' = B754_infinity false) by (apply (inf_ge 53 1024 u2); auto; exact L).
    subst. apply Bleb_refl. exact A.
  - destruct (POS u2' N2' S2') as [E|[E|[F2' P2']]].
    + subst u2'. exfalso. rewrite (toR_fin _ _ u2) in LR by exact F2. simpl in LR. lra.
    + subst u2'. apply leb_intro; auto; try exact _.
      assert (toR64 (f64_div u1 (B754_infinity false)) = 0) as ->
        by (destruct u1; try discriminate; reflexivity).
      destruct (div_toR 53 1024 _ _ u1 u2 F1 F2) as [_ E]; [lra|]. unfold f64_div; rewrite E.
      rewrite <- (clamp_in 1024 0) by (rewrite Rabs_R0; exact HM).
      apply clamp_mono, rnd_ge_0; try exact _. apply Rlt_le, Rdiv_lt_0_compat; assumption.
    + apply leb_intro; auto; try exact _.
      destruct (div_toR 53 1024 _ _ u1 u2 F1 F2) as [_ E]; [lra|].
      destruct (div_toR 53 1024 _ _ u1 u2' F1 F2') as [_ E']; [lra|].
      unfold f64_div; rewrite E, E'. apply clamp_mono, rnd_mono; try exact _.
      rewrite !toR_fin in LR by assumption.
      apply Rmult_le_compat_l; [lra|]. apply Rinv_le; lra.
Qed.

Lemma resizing64_mono u1 u2 u2' :
  is_finite u1 = true -> 0 < B2R u1 -> pos_sign u2 -> pos_sign u2' -> f64_leb u2 u2' = true ->
  cle (resizing64 t l u1 u2 n) (resizing64 t l u1 u2' n).
Proof.
  intros F1 P1 S2 S2' L. rewrite !resizing64_unfold. cbv zeta.
  set (x := f64_div u2 u1). set (y := f64_div u2' u1).
  pose proof (M_pos 1024) as HM.
  assert (NN : 0 <= toR64 u2).
  { destruct S2 as [N2 S2]. destruct u2 as [s|s| |s m e H]; try discriminate; simpl in S2; subst s; simpl; try lra.
    pose proof (F2R_gt_0 radix2 (Float radix2 (Zpos m) e) eq_refl). simpl in *; lra. }
  assert (Lxy : f64_leb x y = true) by (apply div_mono; auto).
  assert (Nx : is_nan x = false) by (apply div_pos_cases; auto; apply S2).
  assert (Ny : is_nan y = false) by (apply div_pos_cases; auto; apply S2').
  pose proof (sub_one_mono _ _ Lxy) as SM.
  pose proof (tol_bounds t) as TB.
  destruct (r1 u1 u2) eqn:R1. { apply discr_bounds. }
  pose proof (not_better_gap u1 u2 F1 P1 S2 R1) as G. fold x in G.
  (* x is positive *)
  assert (Hx : 0 < toR64 x).
  { destruct (Rlt_or_le 0 (toR64 x)) as [H|H]; [exact H|]. exfalso.
    assert (LH : f64_leb x (f64_scaled 1 (-1)) = true).
    { apply leb_intro; try exact _; [exact Nx|reflexivity|].
      rewrite (toR_fin _ _ (f64_scaled _ _)) by reflexivity.
      assert (B2R (f64_scaled 1 (-1)) = /2) as -> by (compute_B2R; lra). lra. }
    apply sub_one_mono in LH.
    assert (toR64 (f64_sub (f64_scaled 1 (-1)) one64) = - /2) as E.
    { rewrite toR_fin by reflexivity. compute_B2R. lra. }
    rewrite E in LH. lra. }
  assert (R1' : r1 u1 u2' = false).
  { destruct (r1 u1 u2') eqn:E; [|reflexivity]. rewrite r1_iff in E. apply r6_iff in E.
    pose proof (div_anti u1 u2 u2' F1 P1 S2 S2' L) as A.
    assert (B : r6 (f64_div u1 u2) = true).
    { apply r6_iff. pose proof A as A'. unfold f64_leb in A'. apply leb_true in A'; try exact _.
      split; [apply A'|]. apply sub_one_mono in A. lra. }
    rewrite r1_iff in R1. congruence. }
  rewrite R1'.
  destruct (within t x) eqn:W.
  { unfold cle. ifs. }
  assert (W' : within t y = false).
  { destruct (within t y) eqn:E; [|reflexivity]. apply within_iff in E.
    assert (within t x = true) by (apply within_iff; split; [exact Nx|lra]). congruence. }
  rewrite W'.
  assert (R34 : (r3 (f64_div y d_res) = true -> r3 (f64_div x d_res) = true) /\
                (r4 (f64_div y d_res) = true -> r3 (f64_div x d_res) = true \/ r4 (f64_div x d_res) = true)).
  { destruct (div_any_mono x y d_res Lxy Hx) as [[N H]|[E|[N|H]]].
    - assert (r3 (f64_div x d_res) = true) as -> by (apply r3_iff; split; [exact N|lra]). auto.
    - rewrite E; auto.
    - split; intros E; [apply r3_iff in E|apply r4_iff in E]; destruct E; congruence.
    - pose proof H as H'. unfold f64_leb in H'. apply leb_true in H'; try exact _.
      destruct H' as (A1 & A2 & A3). pose proof (sub_one_mono _ _ H) as A4.
      rewrite !r3_iff, !r4_iff. split.
      + intros [_ E]. split; [exact A1|lra].
      + intros [_ E]. destruct (Rlt_or_le (toR64 (f64_div x d_res)) 1) as [Q|Q]; [left; auto|right].
        split; [exact A1|]. pose proof (sub_one_ge_0 _ A1 Q). lra. }
  destruct R34 as [R3 R4].
  assert (L3 : f64_leb (f64_div x three64) (f64_div y three64) = true).
  { apply div_mono; [exact Lxy|lra|apply three_fin|rewrite three_R; lra]. }
  pose proof (sub_one_mono _ _ L3) as S3. pose proof L3 as L3'. unfold f64_leb in L3'.
  apply leb_true in L3'; try exact _. destruct L3' as (N3 & N3' & _).
  assert (W5 : within t (f64_div y three64) = true -> r6 (f64_div x three64) = false).
  { intros E. apply within_iff in E. destruct (r6 (f64_div x three64)) eqn:Q; [|reflexivity].
    apply r6_iff in Q. lra. }
  assert (W6 : within t (f64_div y three64) = false -> r6 (f64_div y three64) = false ->
               within t (f64_div x three64) = false /\ r6 (f64_div x three64) = false).
  { intros E1 E2.
    assert (Q : toR64 (f64_sub (f64_div y three64) one64) < - B2R (tol64 t)).
    { destruct (Rlt_or_le (toR64 (f64_sub (f64_div y three64) one64)) (- B2R (tol64 t))) as [Q|Q]; [exact Q|].
      destruct (Rlt_or_le (B2R (tol64 t)) (toR64 (f64_sub (f64_div y three64) one64))) as [Q2|Q2].
      - assert (r6 (f64_div y three64) = true) by (apply r6_iff; auto). congruence.
      - assert (within t (f64_div y three64) = true) by (apply within_iff; auto). congruence. }
    split.
    - destruct (within t (f64_div x three64)) eqn:E; [|reflexivity]. apply within_iff in E. lra.
    - destruct (r6 (f64_div x three64)) eqn:E; [|reflexivity]. apply r6_iff in E. lra. }
  unfold cle.
  destruct (r3 (f64_div x d_res)).
  { ifs. }
  destruct (r3 (f64_div y d_res)); [specialize (R3 eq_refl); discriminate|].
  destruct (r4 (f64_div x d_res)).
  { ifs. }
  destruct (r4 (f64_div y d_res)); [destruct (R4 eq_refl); discriminate|].
  destruct (within t (f64_div y three64)).
  { rewrite W5 by reflexivity. destruct (within t (f64_div x three64)); cbn [discr]; clear; lia. }
  destruct (r6 (f64_div y three64)).
  { ifs. }
  destruct W6 as [-> ->]; [reflexivity|reflexivity|]. apply Z.le_refl.
Qed.

Lemma resizing64_equal u : is_finite u = true -> 0 < B2R u -> resizing64 t l u u n = O1.
Proof.
  intros F P. rewrite resizing64_unfold. cbv zeta.
  destruct (div_self u F ltac:(lra)) as [F1 E1]. destruct (level_of_one t _ F1 E1) as [_ W].
  rewrite W. rewrite r1_iff. destruct (r6 (f64_div u u)) eqn:R; [|reflexivity].
  apply r6_iff in R. apply within_iff in W. lra.
Qed.
End Resizing.

(** ** C07, C08 for the set-resizing analysis *)
Lemma r6_nan t y : is_nan y = true -> r6 t y = false.
Proof. intros N. destruct (r6 t y) eqn:E; [|reflexivity]. apply r6_iff in E. destruct E; congruence. Qed.

Lemma resizing64_zero_both t l n :
  resizing64 t l (f64_of_int 0) (f64_of_int 0) n = BetweenOLogNAndON.
Proof.
  rewrite resizing64_unfold. cbv zeta. rewrite of_int_zero, r1_iff.
  change (f64_div (B754_zero false) (B754_zero false)) with (B754_nan : f64).
  rewrite r6_nan by reflexivity. destruct (level_nan t (B754_nan : f64) eq_refl) as [_ ->].
  assert (ND := nan_div_l (d_res l n) (B754_nan : f64) eq_refl).
  assert (r3 (f64_div B754_nan (d_res l n)) = false) as ->.
  { destruct (r3 _) eqn:E; [|reflexivity]. apply r3_iff in E. destruct E; congruence. }
  assert (r4 t (f64_div B754_nan (d_res l n)) = false) as ->.
  { destruct (r4 t _) eqn:E; [|reflexivity]. apply r4_iff in E. destruct E; congruence. }
  assert (ND3 := nan_div_l three64 (B754_nan : f64) eq_refl).
  destruct (level_nan t _ ND3) as [_ ->]. rewrite r6_nan by exact ND3. reflexivity.
Qed.

Lemma three_shape : exists m e H, three64 = B754_finite false m e H.
Proof.
  pose proof three_fin as F. pose proof three_R as R1. pose proof (eq_refl : Bsign three64 = false) as S.
  destruct three64 as [s|s| |s m e H]; try discriminate.
  - exfalso. cbn in R1. lra.
  - cbn in S. subst s. eauto.
Qed.

Lemma r6_pinf t : r6 t (B754_infinity false) = true.
Proof.
  apply r6_iff. split; [reflexivity|]. destruct one_shape as (m & e & H & ->). simpl.
  pose proof (tol_bounds t). pose proof M64_big as MB. rewrite bpow70 in MB. lra.
Qed.

Lemma resizing64_zero_first t l u2 n : log2_sign_ok l ->
  is_nan u2 = false -> 0 < toR64 u2 -> (1 <= n < two32)%Z ->
  resizing64 t l (f64_of_int 0) u2 (f64_of_int n) = BetweenONAndONLogN.
Proof.
  intros HL N2 U2 Hn. rewrite resizing64_unfold. cbv zeta. rewrite of_int_zero, r1_iff.
  rewrite (pos_div_zero u2) by assumption.
  assert (Z : r6 t (f64_div (B754_zero false) u2) = false).
  { destruct (r6 t _) eqn:E; [|reflexivity]. apply r6_iff in E. exfalso. destruct E as [N E].
    assert (Hz : toR64 (f64_div (B754_zero false) u2) = 0)
      by (destruct u2 as [s|[]| |s m e H]; try discriminate; try reflexivity; simpl in U2; lra).
    assert (LE : f64_leb (f64_div (B754_zero false) u2) one64 = true).
    { apply leb_intro; auto; try exact _. rewrite Hz, (toR_fin _ _ one64), one_R by apply one_fin. lra. }
    apply sub_one_mono in LE. assert (toR64 (f64_sub one64 one64) = 0) as EE.
    { rewrite toR_fin by reflexivity. compute_B2R. lra. }
    rewrite EE in LE. pose proof (tol_bounds t). lra. }
  rewrite Z. destruct (level_pinf t) as [_ ->].
  assert (L1 := HL _ (int_ge_1_toR n Hn)).
  assert (L3 : pos_sign (lm_log2 l (f64_mul (f64_of_int n) three64))).
  { apply HL. rewrite two32_val in Hn.
    pose proof (Bmult_correct 53 1024 _ _ mode_NE (f64_of_int n) three64) as D.
    change (round_mode mode_NE) with ZnearestE in D.
    rewrite of_int_exact, three_R in D by lia. rewrite <- mult_IZR in D.
    assert (E3 : rnd64 (IZR (n * 3)) = IZR (n * 3)).
    { rewrite <- (of_int_exact (n*3)) by lia. apply rnd_B2R. }
    rewrite E3 in D. assert (B3 : 1 <= IZR (n * 3) <= 12884901888) by (split; apply IZR_le; lia).
    rewrite Rlt_bool_true in D.
    - destruct D as (D1 & D2 & _). rewrite of_int_fin, three_fin in D2 by lia.
      rewrite toR_fin by exact D2. unfold f64_mul. rewrite D1. lra.
    - rewrite Rabs_pos_eq by lra. pose proof M64_big as MB. rewrite bpow70 in MB. lra. }
  assert (DR : pos_sign (d_res l (f64_of_int n)) \/ is_nan (d_res l (f64_of_int n)) = true)
    by (apply div_pos_sign; auto).
  assert (Q : r3 (f64_div (B754_infinity false) (d_res l (f64_of_int n))) = false /\
              r4 t (f64_div (B754_infinity false) (d_res l (f64_of_int n))) = false).
  { pose proof M64_big as MB. rewrite bpow70 in MB. pose proof (tol_bounds t) as TB.
    destruct (pinf_div _ DR) as [-> | N].
    - split.
      + destruct (r3 _) eqn:E; [|reflexivity]. apply r3_iff in E. simpl in E. lra.
      + destruct (r4 t _) eqn:E; [|reflexivity]. apply r4_iff in E. destruct E as [_ E].
        destruct one_shape as (m & e & H & EQ). rewrite EQ in E. simpl in E. lra.
    - split.
      + destruct (r3 _) eqn:E; [|reflexivity]. apply r3_iff in E. destruct E; congruence.
      + destruct (r4 t _) eqn:E; [|reflexivity]. apply r4_iff in E. destruct E; congruence. }
  destruct Q as [-> ->].
  assert (f64_div (B754_infinity false) three64 = B754_infinity false) as ->.
  { destruct three_shape as (m & e & H & ->). reflexivity. }
  destruct (level_pinf t) as [_ ->]. rewrite r6_pinf. reflexivity.
Qed.

Lemma resizing64_n_one t l u1 u2 : log2_one_ok l -> log2_pos_ok l ->
  is_finite (f64_div u2 u1) = true -> r1 t u1 u2 = false -> within t (f64_div u2 u1) = false ->
  resizing64 t l u1 u2 (f64_of_int 1) = BetweenO1AndOLogN.
Proof.
  intros L1 LP F R W. rewrite resizing64_unfold. cbv zeta. rewrite R, W.
  unfold d_res. change (f64_of_int 1) with one64. rewrite L1.
  destruct (LP (f64_mul one64 three64)) as [FL PL].
  - reflexivity.
  - assert (B2R (f64_mul one64 three64) = 3) as -> by (compute_B2R; lra). lra.
  - rewrite pos_div_zero; [|apply fin_not_nan; exact FL|rewrite toR_fin by exact FL; exact PL].
    assert (r3 (f64_div (f64_div u2 u1) (B754_infinity false)) = true) as ->; [|reflexivity].
    assert (E : exists b, f64_div (f64_div u2 u1) (B754_infinity false) = B754_zero b)
      by (destruct (f64_div u2 u1); try discriminate; simpl; eauto).
    destruct E as [b ->]. apply r3_iff. split; [reflexivity|simpl; lra].
Qed.
