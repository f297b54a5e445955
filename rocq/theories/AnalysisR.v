(** * Proofs about the real-number instance of the analyses. *)
From Coq Require Import ZArith Reals Lra Lia Bool List Psatz.
From Flocq Require Import Core.Core.
From Verif Require Import Machine Complexity Floats Analysis GrowthSpec.
Import ListNotations.
Open Scope R_scope.

Lemma tolR_bounds t : / 10 <= tolR t <= / 4.
Proof. destruct t; unfold tolR; lra. Qed.

(** ** The chain of levels, by rank *)
Section Chain.
Variable t : tolerance.

Fixpoint rk (x : R) (ds : list R) (k rest : Z) : Z :=
  match ds with
  | [] => rest
  | d :: ds' => if Rlt_bool (x / d) (1 - tolR t) then k
                else if Rle_bool (Rabs (x / d - 1)) (tolR t) then (k + 1)%Z
                else rk x ds' (k + 2) rest
  end.

Definition divisors (n1 n2 : R) : list R :=
  [ 1; (ln n2 / ln 2) / (ln n1 / ln 2); n2 / n1;
    (n2 * (ln n2 / ln 2)) / (n1 * (ln n1 / ln 2));
    powerRZ (n2 / n1) 2; powerRZ (n2 / n1) 3; powerRZ (n2 / n1) 4 ].

Definition last_level (u1 u2 n1 n2 : R) : Z :=
  let c := u2 / Rpower u1 (n2 / n1) in
  if Rlt_bool c (1 - tolR t) then 14 else if Rle_bool (Rabs (c - 1)) (tolR t) then 15 else 16.

Lemma analyseR_rk u1 u2 n1 n2 :
  discr (analyseR t u1 u2 n1 n2) = rk (u2 / u1) (divisors n1 n2) 0 (last_level u1 u2 n1 n2).
Proof.
  assert (E1 : u2 / u1 / 1 = u2 / u1) by (unfold Rdiv; rewrite Rinv_1; ring).
  unfold divisors, last_level. cbn [rk]. rewrite E1.
  unfold analyseR, analyse_complexity, NR. cbn [num n_div n_mul n_sub n_abs n_ltb n_leb n_log2 n_powi n_powf n_one n_three n_tol].
  repeat match goal with
  | |- discr (if ?b then _ else _) = _ => destruct b; [reflexivity|]
  end. reflexivity.
Qed.

Lemma last_level_ge u1 u2 n1 n2 : (14 <= last_level u1 u2 n1 n2)%Z.
Proof. unfold last_level. cbv zeta. destruct (Rlt_bool _ _); [lia|]. destruct (Rle_bool _ _); lia. Qed.

Lemma rk_lower x ds k rest : (k + 2 * Z.of_nat (length ds) <= rest)%Z -> (k <= rk x ds k rest)%Z.
Proof.
  revert k; induction ds as [|d ds IH]; intros k H; cbn [rk length] in *; [lia|].
  destruct (Rlt_bool _ _); [lia|]. destruct (Rle_bool _ _); [lia|].
  apply Z.le_trans with (k + 2)%Z; [lia|]. apply IH. lia.
Qed.

Lemma level_le x d : 0 < d -> x <= (1 + tolR t) * d ->
  Rlt_bool (x / d) (1 - tolR t) = true \/ Rle_bool (Rabs (x / d - 1)) (tolR t) = true.
Proof.
  intros Hd Hx.
  assert (Hq : x / d <= 1 + tolR t).
  { apply Rmult_le_reg_r with d; [exact Hd|]. unfold Rdiv. rewrite Rmult_assoc, Rinv_l by lra. lra. }
  case Rlt_bool_spec; intros H; [auto|right]. apply Rle_bool_true. apply Rabs_le. lra.
Qed.

Lemma level_gt x d : 0 < d -> (1 + tolR t) * d < x ->
  Rlt_bool (x / d) (1 - tolR t) = false /\ Rle_bool (Rabs (x / d - 1)) (tolR t) = false.
Proof.
  intros Hd Hx. pose proof (tolR_bounds t) as TB.
  assert (Hq : 1 + tolR t < x / d).
  { apply Rmult_lt_reg_r with d; [exact Hd|]. unfold Rdiv. rewrite Rmult_assoc, Rinv_l by lra. lra. }
  split; [apply Rlt_bool_false; lra|apply Rle_bool_false]. rewrite Rabs_pos_eq by lra. lra.
Qed.

Lemma level_in x d : 0 < d -> (1 - tolR t) * d <= x <= (1 + tolR t) * d ->
  Rlt_bool (x / d) (1 - tolR t) = false /\ Rle_bool (Rabs (x / d - 1)) (tolR t) = true.
Proof.
  intros Hd [Hx1 Hx2]. split.
  - apply Rlt_bool_false. apply Rmult_le_reg_r with d; [exact Hd|].
    unfold Rdiv. rewrite Rmult_assoc, Rinv_l by lra. lra.
  - apply Rle_bool_true, Rabs_le. split.
    + apply Rmult_le_reg_r with d; [exact Hd|]. unfold Rdiv.
      rewrite Rmult_minus_distr_r, Rmult_assoc, Rinv_l by lra. lra.
    + apply Rmult_le_reg_r with d; [exact Hd|]. unfold Rdiv.
      rewrite Rmult_minus_distr_r, Rmult_assoc, Rinv_l by lra. lra.
Qed.

Lemma rk_upper x ds k rest i d : nth_error ds i = Some d -> 0 < d -> x <= (1 + tolR t) * d ->
  (rk x ds k rest <= k + 2 * Z.of_nat i + 1)%Z.
Proof.
  revert k i; induction ds as [|d0 ds IH]; intros k [|i] H Hd Hx; cbn [nth_error rk] in *; try discriminate.
  - injection H as ->. destruct (level_le x d Hd Hx) as [-> | ->]; [lia|].
    destruct (Rlt_bool _ _); lia.
  - destruct (Rlt_bool _ _); [lia|]. destruct (Rle_bool _ _); [lia|].
    specialize (IH (k + 2)%Z i H Hd Hx). lia.
Qed.

Lemma rk_skip x ds k rest i :
  (forall j d, (j < i)%nat -> nth_error ds j = Some d -> 0 < d /\ (1 + tolR t) * d < x) ->
  (i <= length ds)%nat ->
  rk x ds k rest = rk x (skipn i ds) (k + 2 * Z.of_nat i) rest.
Proof.
  revert k ds; induction i as [|i IH]; intros k ds H Hi.
  - cbn [skipn]. f_equal. lia.
  - destruct ds as [|d ds]; [cbn in Hi; lia|]. cbn [rk skipn].
    destruct (H O d) as [Hd Hx]; [lia|reflexivity|].
    destruct (level_gt x d Hd Hx) as [-> ->].
    rewrite (IH (k + 2)%Z ds).
    + f_equal. lia.
    + intros j d' Hj E. apply (H (S j)); [lia|exact E].
    + cbn in Hi; lia.
Qed.

Lemma rk_beyond x ds k rest i :
  (forall j d, (j <= i)%nat -> nth_error ds j = Some d -> 0 < d /\ (1 + tolR t) * d < x) ->
  (i < length ds)%nat -> (k + 2 * Z.of_nat (length ds) <= rest)%Z ->
  (k + 2 * Z.of_nat i + 2 <= rk x ds k rest)%Z.
Proof.
  intros H Hi Hr. rewrite (rk_skip x ds k rest (S i)).
  - replace (k + 2 * Z.of_nat i + 2)%Z with (k + 2 * Z.of_nat (S i))%Z by lia.
    apply rk_lower. rewrite skipn_length. lia.
  - intros j d Hj. apply H. lia.
  - lia.
Qed.

Lemma rk_exact x ds k rest i d :
  (forall j d', (j < i)%nat -> nth_error ds j = Some d' -> 0 < d' /\ (1 + tolR t) * d' < x) ->
  nth_error ds i = Some d -> 0 < d -> (1 - tolR t) * d <= x <= (1 + tolR t) * d ->
  rk x ds k rest = (k + 2 * Z.of_nat i + 1)%Z.
Proof.
  intros H E Hd Hx. rewrite (rk_skip x ds k rest i).
  - assert (S : exists tl, skipn i ds = d :: tl).
    { clear -E. revert ds E. induction i as [|i IH]; intros [|d0 ds] E; cbn in *; try discriminate.
      - injection E as ->. eauto.
      - apply IH. exact E. }
    destruct S as [tl ->]. cbn [rk]. destruct (level_in x d Hd Hx) as [-> ->]. lia.
  - exact H.
  - apply Nat.lt_le_incl, nth_error_Some. congruence.
Qed.
End Chain.

(** ** Growth ratios *)
Lemma ln2_pos : 0 < ln 2. Proof. rewrite <- ln_1. apply ln_increasing; lra. Qed.
Lemma ln_pos x : 1 < x -> 0 < ln x. Proof. intros H. rewrite <- ln_1. apply ln_increasing; lra. Qed.
Lemma ln_mono x y : 0 < x -> x <= y -> ln x <= ln y.
Proof. intros H [L|E]; [left; apply ln_increasing; assumption|subst; lra]. Qed.

Lemma ln_le_sub1 x : 0 < x -> ln x <= x - 1.
Proof.
  intros H. destruct (Req_dec x 1) as [->|E]; [rewrite ln_1; lra|].
  assert (1 + (x - 1) < exp (x - 1)) by (apply exp_ineq1; lra).
  left. apply exp_lt_inv. rewrite exp_ln by exact H. lra.
Qed.

Lemma ln_ge_1 x : 3 <= x -> 1 <= ln x.
Proof.
  intros H. rewrite <- (ln_exp 1). apply ln_mono; [apply exp_pos|].
  apply Rle_trans with 3; [apply exp_le_3|exact H].
Qed.

Lemma ln2_gt_half : / 2 < ln 2.
Proof.
  (* exp(1/2)^2 = exp 1 <= 3 < 4 *)
  apply exp_lt_inv. rewrite exp_ln by lra.
  assert (E : exp (/2) * exp (/2) = exp 1) by (rewrite <- exp_plus; f_equal; lra).
  pose proof exp_le_3 as E3. pose proof (exp_pos (/2)) as P.
  destruct (Rlt_or_le (exp (/2)) 2) as [L|L]; [exact L|]. nra.
Qed.

Definition lr (n1 n2 : R) : R := ln n2 / ln n1.

Lemma divisors_eq n1 n2 : 1 < n1 ->
  divisors n1 n2 = map (fun f => law_ratio f n1 n2) [Lconst; Llog; Ln; Lnlogn; Ln2; Ln3; Ln4].
Proof.
  intros H. pose proof (ln_pos n1 H). pose proof ln2_pos.
  unfold divisors, law_ratio, law_fun. cbn [map].
  replace (1 / 1) with 1 by field.
  replace (ln n2 / ln 2 / (ln n1 / ln 2)) with (ln n2 / ln n1) by (field; lra).
  replace (n2 * (ln n2 / ln 2) / (n1 * (ln n1 / ln 2))) with (n2 * ln n2 / (n1 * ln n1))
    by (field; repeat split; lra).
  replace (n2 ^ 2 / n1 ^ 2) with (powerRZ (n2 / n1) 2) by (simpl; field; lra).
  replace (n2 ^ 3 / n1 ^ 3) with (powerRZ (n2 / n1) 3) by (simpl; field; lra).
  replace (n2 ^ 4 / n1 ^ 4) with (powerRZ (n2 / n1) 4) by (simpl; field; lra).
  reflexivity.
Qed.

Lemma ratio_pos f n1 n2 : 1 < n1 -> 1 < n2 -> 0 < law_ratio f n1 n2.
Proof.
  intros H1 H2. pose proof (ln_pos n1 H1). pose proof (ln_pos n2 H2). unfold law_ratio.
  apply Rdiv_lt_0_compat; destruct f; unfold law_fun; try lra;
    try (apply Rmult_lt_0_compat; lra); try (apply pow_lt; lra).
Qed.

Definition idx (f : law) : nat :=
  match f with Lconst => 0 | Llog => 1 | Ln => 2 | Lnlogn => 3 | Ln2 => 4 | Ln3 => 5 | Ln4 => 6 end.

Lemma idx_class f : discr (law_class f) = (2 * Z.of_nat (idx f) + 1)%Z.
Proof. destruct f; reflexivity. Qed.

Lemma divisors_nth f n1 n2 : 1 < n1 -> nth_error (divisors n1 n2) (idx f) = Some (law_ratio f n1 n2).
Proof. intros H. rewrite divisors_eq by exact H. destruct f; reflexivity. Qed.

Lemma divisors_nth_inv n1 n2 j d : 1 < n1 -> nth_error (divisors n1 n2) j = Some d ->
  exists f, idx f = j /\ d = law_ratio f n1 n2.
Proof.
  intros H E. rewrite divisors_eq in E by exact H.
  do 7 (destruct j as [|j]; [cbn in E; injection E as <-; first
    [ exists Lconst; split; reflexivity | exists Llog; split; reflexivity | exists Ln; split; reflexivity
    | exists Lnlogn; split; reflexivity | exists Ln2; split; reflexivity | exists Ln3; split; reflexivity
    | exists Ln4; split; reflexivity ] |]).
  cbn in E. destruct j; discriminate.
Qed.

(** ** C03 *)
Lemma no_false_alarm t f u1 u2 n1 n2 : 1 < n1 -> 1 < n2 ->
  u2 / u1 <= (1 + tolR t) * law_ratio f n1 n2 ->
  cle (analyseR t u1 u2 n1 n2) (law_class f).
Proof.
  intros H1 H2 Hx. unfold cle. rewrite analyseR_rk, idx_class.
  pose proof (rk_upper t (u2 / u1) (divisors n1 n2) 0 (last_level t u1 u2 n1 n2) (idx f)
    (law_ratio f n1 n2) (divisors_nth f n1 n2 H1) (ratio_pos f n1 n2 H1 H2) Hx). lia.
Qed.

(** ** C04 *)
Lemma law_ratio_forms n1 n2 : 1 < n1 ->
  let r := n2 / n1 in let q := lr n1 n2 in
  law_ratio Lconst n1 n2 = 1 /\ law_ratio Llog n1 n2 = q /\ law_ratio Ln n1 n2 = r /\
  law_ratio Lnlogn n1 n2 = r * q /\ law_ratio Ln2 n1 n2 = r ^ 2 /\
  law_ratio Ln3 n1 n2 = r ^ 3 /\ law_ratio Ln4 n1 n2 = r ^ 4.
Proof.
  intros H. pose proof (ln_pos n1 H). cbv zeta. unfold law_ratio, law_fun, lr.
  repeat split; try (field; lra).
Qed.

(** the logarithm grows at least by 1 and at most like n *)
Lemma log_ratio_bounds_3 n1 n2 : 3 <= n1 -> n1 <= n2 -> 1 <= lr n1 n2 <= n2 / n1.
Proof.
  intros H1 H2. pose proof (ln_ge_1 n1 H1) as L1. unfold lr. split.
  - apply Rmult_le_reg_r with (ln n1); [lra|]. unfold Rdiv. rewrite Rmult_assoc, Rinv_l by lra.
    pose proof (ln_mono n1 n2). lra.
  - apply Rmult_le_reg_r with (ln n1); [lra|]. unfold Rdiv at 1. rewrite Rmult_assoc, Rinv_l by lra.
    assert (E : ln n2 = ln n1 + ln (n2 / n1)).
    { rewrite <- ln_mult; [|lra|apply Rdiv_lt_0_compat; lra]. f_equal. field. lra. }
    assert (Hr : 1 <= n2 / n1).
    { apply Rmult_le_reg_r with n1; [lra|]. unfold Rdiv. rewrite Rmult_assoc, Rinv_l by lra. lra. }
    pose proof (ln_le_sub1 (n2 / n1) ltac:(lra)). nra.
Qed.

Lemma log_ratio_bounds_2 n2 : n2 = 2 \/ 4 <= n2 -> 1 <= lr 2 n2 <= n2 / 2.
Proof.
  intros H. pose proof ln2_pos as P. pose proof ln2_gt_half as HH. unfold lr.
  destruct H as [-> | H]. { split; [right; field; lra|]. right. field. lra. }
  split.
  - apply Rmult_le_reg_r with (ln 2); [lra|]. unfold Rdiv. rewrite Rmult_assoc, Rinv_l by lra.
    pose proof (ln_mono 2 n2). lra.
  - apply Rmult_le_reg_r with (ln 2); [lra|]. unfold Rdiv at 1. rewrite Rmult_assoc, Rinv_l by lra.
    assert (E : ln n2 = ln 2 + ln 2 + ln (n2 / 4)).
    { rewrite <- !ln_mult by lra. f_equal. field. }
    pose proof (ln_le_sub1 (n2 / 4) ltac:(lra)). nra.
Qed.

(** Every pair of set sizes 2 <= n1 <= n2 except (2, 3). *)
Definition sizes_ok (n1 n2 : Z) : Prop := (2 <= n1 <= n2)%Z /\ ~ (n1 = 2 /\ n2 = 3)%Z.

Lemma log_ratio_bounds n1 n2 : sizes_ok n1 n2 ->
  1 <= lr (IZR n1) (IZR n2) <= IZR n2 / IZR n1.
Proof.
  intros [[H1 H2] H3]. destruct (Z.eq_dec n1 2) as [->|N].
  - apply log_ratio_bounds_2. destruct (Z.eq_dec n2 2) as [->|N]; [left; reflexivity|right].
    apply IZR_le. lia.
  - apply log_ratio_bounds_3; apply IZR_le; lia.
Qed.

Lemma ratios_increase n1 n2 f g : 1 < n1 -> n1 <= n2 -> 1 <= lr n1 n2 <= n2 / n1 ->
  (idx f <= idx g)%nat -> law_ratio f n1 n2 <= law_ratio g n1 n2.
Proof.
  intros H1 H2 Hq Hi.
  destruct (law_ratio_forms n1 n2 H1) as (E0 & E1 & E2 & E3 & E4 & E5 & E6). cbv zeta in *.
  set (r := n2 / n1) in *. set (q := lr n1 n2) in *.
  assert (Hr : 1 <= r) by lra.
  assert (A4 : r * q <= r ^ 2) by nra.
  assert (A5 : r ^ 2 <= r ^ 3) by nra.
  assert (A6 : r ^ 3 <= r ^ 4).
  { assert (0 <= r ^ 3) by (apply pow_le; lra). replace (r ^ 4) with (r * r ^ 3) by ring. nra. }
  assert (A3 : r <= r * q) by nra.
  destruct f; destruct g; cbn [idx] in Hi; try lia; rewrite ?E0, ?E1, ?E2, ?E3, ?E4, ?E5, ?E6; lra.
Qed.

Lemma no_missed_regression_gen t f u1 u2 n1 n2 : 1 < n1 -> n1 <= n2 -> 1 <= lr n1 n2 <= n2 / n1 ->
  (1 + tolR t) * law_ratio f n1 n2 < u2 / u1 ->
  clt (law_class f) (analyseR t u1 u2 n1 n2).
Proof.
  intros H1 H2 Hq Hx. unfold clt. rewrite analyseR_rk, idx_class.
  pose proof (tolR_bounds t) as TB.
  assert (G : (0 + 2 * Z.of_nat (idx f) + 2 <=
     rk t (u2 / u1) (divisors n1 n2) 0 (last_level t u1 u2 n1 n2))%Z); [|lia].
  apply rk_beyond.
  - intros j d Hj E. destruct (divisors_nth_inv n1 n2 j d H1 E) as (g & Hg & ->).
    split; [apply ratio_pos; lra|].
    apply Rle_lt_trans with (2 := Hx). apply Rmult_le_compat_l; [lra|].
    apply ratios_increase; auto. lia.
  - destruct f; cbn; lia.
  - pose proof (last_level_ge t u1 u2 n1 n2). cbn [length divisors]. lia.
Qed.

Lemma no_missed_regression t f u1 u2 n1 n2 : sizes_ok n1 n2 ->
  (1 + tolR t) * law_ratio f (IZR n1) (IZR n2) < u2 / u1 ->
  clt (law_class f) (analyseR t u1 u2 (IZR n1) (IZR n2)).
Proof.
  intros H Hx. apply no_missed_regression_gen; auto.
  - destruct H as [[H _] _]. apply (IZR_lt 1). lia.
  - destruct H as [[_ H] _]. apply IZR_le; exact H.
  - apply log_ratio_bounds; exact H.
Qed.

(** ** C05 *)
Lemma ratio_log_gap n1 n2 : 4 <= n1 -> 2 * n1 <= n2 -> (4 / 3) * lr n1 n2 <= n2 / n1.
Proof.
  intros H1 H2. pose proof ln2_gt_half as HH. unfold lr.
  assert (L1 : 2 * ln 2 <= ln n1).
  { replace (2 * ln 2) with (ln 4); [apply ln_mono; lra|].
    replace 4 with (2 * 2) by ring. rewrite ln_mult by lra. ring. }
  assert (Hr : 2 <= n2 / n1).
  { apply Rmult_le_reg_r with n1; [lra|]. unfold Rdiv. rewrite Rmult_assoc, Rinv_l by lra. lra. }
  set (r := n2 / n1) in *.
  assert (E : ln n2 = ln n1 + ln 2 + ln (r / 2)).
  { rewrite <- !ln_mult; try lra. f_equal. unfold r. field. lra. }
  pose proof (ln_le_sub1 (r / 2) ltac:(lra)) as LS.
  apply Rmult_le_reg_r with (ln n1); [lra|].
  replace (4 / 3 * (ln n2 / ln n1) * ln n1) with (4 / 3 * ln n2) by (field; lra).
  rewrite E. nra.
Qed.

Lemma exact_recognition_gen t f c n1 n2 : 0 < c -> 1 < n1 -> 1 < n2 ->
  (forall g, (idx g < idx f)%nat -> (1 + tolR t) * law_ratio g n1 n2 < law_ratio f n1 n2) ->
  analyseR t (c * law_fun f n1) (c * law_fun f n2) n1 n2 = law_class f.
Proof.
  intros Hc H1 H2 H. apply discr_inj. rewrite analyseR_rk, idx_class.
  pose proof (tolR_bounds t) as TB.
  assert (Hf1 : 0 < law_fun f n1).
  { pose proof (ln_pos n1 H1). destruct f; unfold law_fun; try lra;
    try (apply Rmult_lt_0_compat; lra); try (apply pow_lt; lra). }
  assert (E : c * law_fun f n2 / (c * law_fun f n1) = law_ratio f n1 n2).
  { unfold law_ratio. field. split; lra. }
  rewrite E. pose proof (ratio_pos f n1 n2 H1 H2) as P.
  rewrite (rk_exact t _ _ _ _ (idx f) (law_ratio f n1 n2)).
  - lia.
  - intros j d Hj Ej. destruct (divisors_nth_inv n1 n2 j d H1 Ej) as (g & Hg & ->).
    split; [apply ratio_pos; assumption|]. apply H. lia.
  - apply divisors_nth; exact H1.
  - exact P.
  - split; nra.
Qed.

(** the logarithmic laws additionally need the logarithm itself to grow visibly *)
Definition separated (t : tolerance) (f : law) (n1 n2 : R) : Prop :=
  match f with
  | Lconst => True
  | Llog | Lnlogn => 1 + tolR t < ln n2 / ln n1
  | _ => True
  end.

Lemma exact_recognition t f c n1 n2 : 0 < c -> 4 <= n1 -> 2 * n1 <= n2 -> separated t f n1 n2 ->
  analyseR t (c * law_fun f n1) (c * law_fun f n2) n1 n2 = law_class f.
Proof.
  intros Hc H1 H2 HS. apply exact_recognition_gen; try lra.
  intros g Hg. pose proof (tolR_bounds t) as TB.
  destruct (law_ratio_forms n1 n2 ltac:(lra)) as (E0 & E1 & E2 & E3 & E4 & E5 & E6). cbv zeta in *.
  pose proof (ratio_log_gap n1 n2 H1 H2) as GAP.
  destruct (log_ratio_bounds_3 n1 n2 ltac:(lra) ltac:(lra)) as [Q1 Q2].
  assert (Hr : 2 <= n2 / n1).
  { apply Rmult_le_reg_r with n1; [lra|]. unfold Rdiv. rewrite Rmult_assoc, Rinv_l by lra. lra. }
  change (ln n2 / ln n1) with (lr n1 n2) in *.
  set (r := n2 / n1) in *. set (q := lr n1 n2) in *.
  assert (R2 : 2 * r <= r ^ 2) by nra.
  assert (R3 : 2 * r ^ 2 <= r ^ 3). { replace (r ^ 3) with (r * r ^ 2) by ring. nra. }
  assert (R4 : 2 * r ^ 3 <= r ^ 4). { replace (r ^ 4) with (r * r ^ 3) by ring. nra. }
  assert (RQ : (4 / 3) * (r * q) <= r ^ 2) by nra.
  assert (QR : 0 < r * q) by nra.
  destruct f; destruct g; cbn [idx] in Hg; try lia; cbn [separated] in HS;
    change (ln n2 / ln n1) with q in *;
    rewrite ?E0, ?E1, ?E2, ?E3, ?E4, ?E5, ?E6; nra.
Qed.

Lemma log_invisible t c n1 : 0 < c -> 4 <= n1 -> ln 2 / ln n1 <= tolR t ->
  analyseR t (c * ln n1) (c * ln (2 * n1)) n1 (2 * n1) = O1 /\
  analyseR t (c * (n1 * ln n1)) (c * (2 * n1 * ln (2 * n1))) n1 (2 * n1) = ON.
Proof.
  intros Hc H1 HT. pose proof (tolR_bounds t) as TB. pose proof ln2_pos as P2.
  pose proof (ln_pos n1 ltac:(lra)) as P1.
  assert (E : ln (2 * n1) = ln 2 + ln n1) by (apply ln_mult; lra).
  assert (Q : lr n1 (2 * n1) = 1 + ln 2 / ln n1) by (unfold lr; rewrite E; field; lra).
  destruct (law_ratio_forms n1 (2 * n1) ltac:(lra)) as (E0 & E1 & E2 & E3 & E4 & E5 & E6). cbv zeta in *.
  assert (Er : 2 * n1 / n1 = 2) by (field; lra). rewrite Er in *. rewrite Q in *.
  assert (0 < ln 2 / ln n1) by (apply Rdiv_lt_0_compat; lra).
  split; apply discr_inj; rewrite analyseR_rk.
  - replace (c * ln (2 * n1) / (c * ln n1)) with (1 + ln 2 / ln n1) by (rewrite E; field; lra).
    rewrite (rk_exact t _ _ _ _ 0 1).
    + reflexivity.
    + intros j d Hj; lia.
    + reflexivity.
    + lra.
    + split; nra.
  - replace (c * (2 * n1 * ln (2 * n1)) / (c * (n1 * ln n1))) with (2 * (1 + ln 2 / ln n1))
      by (rewrite E; field; lra).
    rewrite (rk_exact t _ _ _ _ 2 2).
    + reflexivity.
    + intros j d Hj Ej. destruct (divisors_nth_inv n1 (2 * n1) j d ltac:(lra) Ej) as (g & Hg & ->).
      split; [apply ratio_pos; lra|].
      destruct g; cbn [idx] in Hg; try lia; rewrite ?E0, ?E1; nra.
    + etransitivity; [apply (divisors_nth Ln n1 (2 * n1)); lra|]. rewrite E2. reflexivity.
    + lra.
    + split; nra.
Qed.

Lemma log_invisible_1024 t n1 : 1024 <= n1 -> ln 2 / ln n1 <= tolR t.
Proof.
  intros H. pose proof ln2_pos as P. pose proof (tolR_bounds t) as TB.
  assert (L : 10 * ln 2 <= ln n1).
  { replace (10 * ln 2) with (ln 1024); [apply ln_mono; lra|].
    replace 1024 with (2 ^ 10) by (simpl; ring). rewrite ln_pow by lra. simpl; ring. }
  apply Rmult_le_reg_r with (ln n1); [lra|]. unfold Rdiv. rewrite Rmult_assoc, Rinv_l by lra. nra.
Qed.

Lemma exact_recognition' t f c n1 n2 : 0 < c -> 4 <= n1 -> 2 * n1 <= n2 ->
  (f = Llog \/ f = Lnlogn -> 1 + tolR t < ln n2 / ln n1) ->
  analyseR t (c * law_fun f n1) (c * law_fun f n2) n1 n2 = law_class f.
Proof. intros Hc H1 H2 H. apply exact_recognition; auto. destruct f; cbn; auto. Qed.

Lemma logs_invisible_1024 t c n1 : 0 < c -> 1024 <= n1 ->
  analyseR t (c * ln n1) (c * ln (2 * n1)) n1 (2 * n1) = O1 /\
  analyseR t (c * (n1 * ln n1)) (c * (2 * n1 * ln (2 * n1))) n1 (2 * n1) = ON.
Proof. intros Hc H. apply log_invisible; auto; try lra. apply log_invisible_1024; exact H. Qed.

(** ** C06 *)
Lemma unit_independent t k u1 u2 n1 n2 : 0 < k -> 0 < u1 ->
  cle (analyseR t u1 u2 n1 n2) ON4 ->
  analyseR t (k * u1) (k * u2) n1 n2 = analyseR t u1 u2 n1 n2.
Proof.
  intros Hk Hu H. apply discr_inj. unfold cle in H. rewrite !analyseR_rk in *.
  replace (k * u2 / (k * u1)) with (u2 / u1) by (field; lra).
  revert H. generalize (divisors n1 n2) as ds.
  pose proof (last_level_ge t u1 u2 n1 n2) as G. pose proof (last_level_ge t (k * u1) (k * u2) n1 n2) as G'.
  change (discr ON4) with 13%Z.
  assert (A : forall ds q, (rk t (u2 / u1) ds q (last_level t u1 u2 n1 n2) <= 13)%Z ->
     rk t (u2 / u1) ds q (last_level t (k * u1) (k * u2) n1 n2) = rk t (u2 / u1) ds q (last_level t u1 u2 n1 n2)).
  { induction ds as [|d ds IH]; intros q; cbn [rk]; [lia|].
    destruct (Rlt_bool _ _); [reflexivity|]. destruct (Rle_bool _ _); [reflexivity|]. apply IH. }
  intros ds. apply A.
Qed.

Lemma exponential_units t :
  analyseR t 100 10000 10 20 = OkN /\
  analyseR t (1 / 100 * 100) (1 / 100 * 10000) 10 20 = WorseThanExponential /\
  analyseR t (100 * 100) (100 * 10000) 10 20 = BetweenON4AndOkN.
Proof.
  pose proof (tolR_bounds t) as TB.
  assert (Q := log_ratio_bounds_3 10 20 ltac:(lra) ltac:(lra)).
  assert (ALL : forall u1 u2 rest, u2 / u1 = 100 ->
     rk t (u2 / u1) (divisors 10 20) 0 rest = rest).
  { intros u1 u2 rest E. rewrite E. rewrite (rk_skip t _ _ _ _ 7).
    - reflexivity.
    - intros j d Hj Ej. destruct (divisors_nth_inv 10 20 j d ltac:(lra) Ej) as (g & Hg & ->).
      split; [apply ratio_pos; lra|].
      destruct (law_ratio_forms 10 20 ltac:(lra)) as (_ & _ & _ & _ & _ & _ & E6). cbv zeta in *.
      assert (law_ratio g 10 20 <= law_ratio Ln4 10 20).
      { apply ratios_increase; auto; try lra. destruct g; cbn; lia. }
      replace (20 / 10) with 2 in E6 by field. nra.
    - cbn; lia. }
  assert (P2 : forall u, 0 < u -> Rpower u (20 / 10) = u * u).
  { intros u Hu. replace (20 / 10) with (INR 2) by (simpl; field). rewrite Rpower_pow by exact Hu. ring. }
  assert (LL : forall u1 u2, 0 < u1 -> last_level t u1 u2 10 20 =
     if Rlt_bool (u2 / (u1 * u1)) (1 - tolR t) then 14%Z
     else if Rle_bool (Rabs (u2 / (u1 * u1) - 1)) (tolR t) then 15%Z else 16%Z).
  { intros u1 u2 Hu. unfold last_level. cbv zeta. rewrite P2 by exact Hu. reflexivity. }
  repeat split; apply discr_inj; rewrite analyseR_rk, ALL, LL by lra; cbn [discr].
  - replace (10000 / (100 * 100)) with 1 by field. rewrite Rlt_bool_false by lra.
    rewrite Rle_bool_true; [reflexivity|]. replace (1 - 1) with 0 by ring. rewrite Rabs_R0. lra.
  - replace (1 / 100 * 10000 / (1 / 100 * 100 * (1 / 100 * 100))) with 100 by field.
    rewrite Rlt_bool_false by lra. rewrite Rle_bool_false; [reflexivity|]. rewrite Rabs_pos_eq; lra.
  - replace (100 * 10000 / (100 * 100 * (100 * 100))) with (1/100) by field.
    rewrite Rlt_bool_true by lra. reflexivity.
Qed.

(** ** C04 refuted at (2, 3): log2 3 = 1.58... > 3/2 *)
Lemma ln3_ln2 : (11 / 7) * ln 2 < ln 3 < (8 / 5) * ln 2.
Proof.
  (* 2^11 = 2048 < 2187 = 3^7 and 3^5 = 243 < 256 = 2^8 *)
  assert (A : ln 2048 < ln 2187) by (apply ln_increasing; lra).
  assert (B : ln 243 < ln 256) by (apply ln_increasing; lra).
  replace 2048 with (2 ^ 11) in A by (simpl; ring). replace 2187 with (3 ^ 7) in A by (simpl; ring).
  replace 243 with (3 ^ 5) in B by (simpl; ring). replace 256 with (2 ^ 8) in B by (simpl; ring).
  rewrite !ln_pow in A, B by lra. simpl INR in A, B. lra.
Qed.

Lemma small_sizes_hide t : exists u1 u2, 0 < u1 /\
  (1 + tolR t) * law_ratio Ln 2 3 < u2 / u1 /\ analyseR t u1 u2 2 3 = OLogN.
Proof.
  pose proof ln3_ln2 as L. pose proof ln2_pos as P.
  set (x := match t with Tol10 => 17/10 | Tol25 => 19/10 end : R).
  exists 1, x. split; [lra|].
  assert (EN : law_ratio Ln 2 3 = 3 / 2) by reflexivity.
  assert (EL : law_ratio Llog 2 3 = ln 3 / ln 2) by reflexivity.
  replace (x / 1) with x by field. split.
  - rewrite EN. unfold x; destruct t; unfold tolR; lra.
  - apply discr_inj. rewrite analyseR_rk. replace (x / 1) with x by field.
    assert (BQ : 11 / 7 < ln 3 / ln 2 < 8 / 5).
    { split.
      - apply Rmult_lt_reg_r with (ln 2); [lra|]. replace (ln 3 / ln 2 * ln 2) with (ln 3) by (field; lra). lra.
      - apply Rmult_lt_reg_r with (ln 2); [lra|]. replace (ln 3 / ln 2 * ln 2) with (ln 3) by (field; lra). lra. }
    rewrite (rk_exact t _ _ _ _ 1 (ln 3 / ln 2)).
    + reflexivity.
    + intros j d Hj Ej. destruct (divisors_nth_inv 2 3 j d ltac:(lra) Ej) as (g & Hg & ->).
      split; [apply ratio_pos; lra|]. destruct g; cbn [idx] in Hg; try lia.
      unfold law_ratio, law_fun, x. destruct t; unfold tolR; lra.
    + etransitivity; [apply (divisors_nth Llog 2 3); lra|]. rewrite EL. reflexivity.
    + lra.
    + unfold x; destruct t; unfold tolR; split; lra.
Qed.

(** ** C11 *)
Lemma total_const c from count : total_cost (fun _ => c) from count = INR count * c.
Proof.
  revert from; induction count as [|k IH]; intros from; cbn [total_cost]; [simpl; ring|].
  rewrite IH, S_INR. ring.
Qed.

Lemma total_linear c from count :
  total_cost (fun i => c * INR (S i)) from count =
  c * (INR count * INR from + INR count * (INR count + 1) / 2).
Proof.
  revert from; induction count as [|k IH]; intros from; cbn [total_cost]; [simpl; lra|].
  rewrite IH, !S_INR. field.
Qed.

Lemma resizingR_const t c n : 0 < c -> (1 <= n)%nat ->
  resizingR t (total_cost (fun _ => c) 0 n) (total_cost (fun _ => c) n n) (INR n) = O1.
Proof.
  intros Hc Hn. pose proof (tolR_bounds t) as TB.
  assert (HN : 1 <= INR n) by (apply (le_INR 1); exact Hn).
  rewrite !total_const. unfold resizingR, analyse_set_resizing, NR.
  cbn [num n_div n_mul n_sub n_abs n_ltb n_leb n_log2 n_powi n_powf n_one n_three n_tol].
  replace (INR n * c / (INR n * c)) with 1 by (field; split; lra).
  rewrite Rlt_bool_false by lra. replace (1 - 1) with 0 by ring. rewrite Rabs_R0.
  rewrite Rle_bool_true by lra. reflexivity.
Qed.

Lemma resizingR_linear t c n : 0 < c -> (6 <= n)%nat ->
  resizingR t (total_cost (fun i => c * INR (S i)) 0 n) (total_cost (fun i => c * INR (S i)) n n) (INR n) = ON.
Proof.
  intros Hc Hn. pose proof (tolR_bounds t) as TB.
  assert (HN : 6 <= INR n) by (replace 6 with (INR 6) by (simpl; ring); apply le_INR; exact Hn).
  rewrite !total_linear. set (N := INR n) in *. change (INR 0) with 0.
  unfold resizingR, analyse_set_resizing, NR.
  cbn [num n_div n_mul n_sub n_abs n_ltb n_leb n_log2 n_powi n_powf n_one n_three n_tol].
  set (u1 := c * (N * 0 + N * (N + 1) / 2)). set (u2 := c * (N * N + N * (N + 1) / 2)).
  assert (Hnn : 0 < N * (N + 1)) by nra.
  assert (P1 : 0 < u1) by (unfold u1; nra). assert (P2 : 0 < u2) by (unfold u2; nra).
  assert (X : u2 / u1 = 3 - 2 / (N + 1)) by (unfold u1, u2; field; split; [lra|split; lra]).
  assert (Q : 0 < 2 / (N + 1) <= 2 / 7).
  { split; [apply Rdiv_lt_0_compat; lra|]. apply Rmult_le_compat_l; [lra|]. apply Rinv_le; lra. }
  assert (X1 : u1 / u2 < 1).
  { apply Rmult_lt_reg_r with u2; [exact P2|]. unfold Rdiv. rewrite Rmult_assoc, Rinv_l by lra.
    assert (u2 - u1 = c * (N * N)) by (unfold u1, u2; ring).
    assert (0 < c * (N * N)) by (apply Rmult_lt_0_compat; [exact Hc|nra]). lra. }
  rewrite Rlt_bool_false by lra. rewrite X.
  rewrite Rle_bool_false by (rewrite Rabs_pos_eq; lra).
  assert (L3 : ln 3 <= ln N) by (apply ln_mono; lra). pose proof (ln_ge_1 3 ltac:(lra)) as L31.
  pose proof ln2_pos as P.
  assert (D : ln (N * 3) / ln 2 / (ln N / ln 2) = 1 + ln 3 / ln N).
  { rewrite ln_mult by lra. field. split; lra. }
  rewrite D. assert (DB : 0 < ln 3 / ln N <= 1).
  { split; [apply Rdiv_lt_0_compat; lra|]. apply Rmult_le_reg_r with (ln N); [lra|].
    unfold Rdiv. rewrite Rmult_assoc, Rinv_l by lra. lra. }
  set (d := 1 + ln 3 / ln N) in *. assert (Hd : 1 < d <= 2) by (unfold d; lra).
  assert (CB : 5 / 4 <= (3 - 2 / (N + 1)) / d).
  { apply Rmult_le_reg_r with d; [lra|].
    replace ((3 - 2 / (N + 1)) / d * d) with (3 - 2 / (N + 1)) by (field; lra). lra. }
  rewrite Rlt_bool_false by lra.
  rewrite (Rlt_bool_false (Rabs _)); [|].
  2:{ destruct (Rle_lt_dec 0 ((3 - 2 / (N + 1)) / d - 1)) as [Z0|Z0]; [rewrite Rabs_pos_eq by exact Z0; lra|lra]. }
  rewrite Rle_bool_true; [reflexivity|]. apply Rabs_le. lra.
Qed.

(** at n = 5 with the default tolerance the linear cost is missed *)
Lemma resizingR_linear_5 :
  resizingR Tol10 (total_cost (fun i => INR (S i)) 0 5) (total_cost (fun i => INR (S i)) 5 5) (INR 5) = BetweenOLogNAndON.
Proof.
  replace (total_cost (fun i => INR (S i)) 0 5) with 15 by (simpl; ring).
  replace (total_cost (fun i => INR (S i)) 5 5) with 40 by (simpl; ring).
  replace (INR 5) with 5 by (simpl; ring).
  unfold resizingR, analyse_set_resizing, NR.
  cbn [num n_div n_mul n_sub n_abs n_ltb n_leb n_log2 n_powi n_powf n_one n_three n_tol tolR].
  rewrite Rlt_bool_false by lra.
  rewrite Rle_bool_false by (rewrite Rabs_pos_eq; lra).
  pose proof ln2_pos as P. pose proof (ln_ge_1 3 ltac:(lra)) as L31.
  assert (L3 : ln 3 <= ln 5) by (apply ln_mono; lra).
  assert (D : ln (5 * 3) / ln 2 / (ln 5 / ln 2) = 1 + ln 3 / ln 5).
  { rewrite ln_mult by lra. field. split; lra. }
  rewrite D. assert (DB : 0 < ln 3 / ln 5 <= 1).
  { split; [apply Rdiv_lt_0_compat; lra|]. apply Rmult_le_reg_r with (ln 5); [lra|].
    unfold Rdiv. rewrite Rmult_assoc, Rinv_l by lra. lra. }
  set (d := 1 + ln 3 / ln 5) in *. assert (Hd : 1 < d <= 2) by (unfold d; lra).
  assert (CB : 5 / 4 <= 40 / 15 / d).
  { apply Rmult_le_reg_r with d; [lra|].
    replace (40 / 15 / d * d) with (40 / 15) by (field; lra). lra. }
  rewrite Rlt_bool_false by lra.
  rewrite Rlt_bool_false by (rewrite Rabs_pos_eq; lra).
  rewrite Rle_bool_false by (rewrite Rabs_left; lra).
  rewrite Rlt_bool_false by lra. reflexivity.
Qed.
