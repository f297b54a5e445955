(** * IEEE-754 arithmetic on top of Flocq.

    Nothing here models code of /repo: it provides Rust's [f64]/[f32] operations
    (Flocq's [BinarySingleNaN] -- one NaN, payloads and NaN signs are never
    observed by the code) and order lemmas about them. *)
From Coq Require Import ZArith Lia Reals Lra Bool Psatz.
From Flocq Require Import Core.Core IEEE754.BinarySingleNaN.
Open Scope R_scope.

Section Fl.
Variables prec emax : Z.
Context (Hp : Prec_gt_0 prec) (Hpe : Prec_lt_emax prec emax).
Notation fl := (binary_float prec emax).
Notation fexp := (SpecFloat.fexp prec emax).
Notation rnd := (round radix2 fexp ZnearestE).
Notation M := (bpow radix2 emax).

(** The value of a non-NaN float, infinities being the first power of two that
    is out of range. *)
Definition toR (x : fl) : R :=
  match x with
  | B754_infinity false => M
  | B754_infinity true => - M
  | _ => B2R x
  end.

Definition clamp (r : R) : R := Rmax (- M) (Rmin M r).

Lemma M_pos : 0 < M. Proof. apply bpow_gt_0. Qed.

Lemma clamp_mono a b : a <= b -> clamp a <= clamp b.
Proof.
  intros H. unfold clamp. apply Rle_max_compat_l. apply Rle_min_compat_l. exact H.
Qed.

Lemma clamp_in r : Rabs r < M -> clamp r = r.
Proof.
  intros H. apply Rabs_def2 in H. unfold clamp.
  rewrite Rmin_right by lra. rewrite Rmax_right by lra. reflexivity.
Qed.

Lemma clamp_hi r : M <= r -> clamp r = M.
Proof.
  intros H. pose proof M_pos. unfold clamp.
  rewrite Rmin_left by lra. rewrite Rmax_right by lra. reflexivity.
Qed.

Lemma clamp_lo r : r <= - M -> clamp r = - M.
Proof.
  intros H. pose proof M_pos. unfold clamp.
  rewrite Rmin_right by lra. rewrite Rmax_left by lra. reflexivity.
Qed.

Lemma toR_fin x : is_finite x = true -> toR x = B2R x.
Proof. destruct x as [s|[]| |s m e H]; simpl; intros; try reflexivity; discriminate. Qed.

Lemma toR_fin_bound x : is_finite x = true -> Rabs (toR x) < M.
Proof. intros H. rewrite toR_fin by exact H. apply abs_B2R_lt_emax. Qed.

Lemma fin_not_nan (x : fl) : is_finite x = true -> is_nan x = false.
Proof. destruct x; simpl; congruence. Qed.

Lemma toR_bound x : Rabs (toR x) <= M.
Proof.
  pose proof M_pos as HM.
  destruct x as [s|[]| |s m e H]; simpl.
  - rewrite Rabs_R0; lra.
  - rewrite Rabs_Ropp, Rabs_pos_eq; lra.
  - rewrite Rabs_pos_eq; lra.
  - rewrite Rabs_R0; lra.
  - apply Rlt_le. apply (abs_B2R_lt_emax _ _ (B754_finite s m e H)).
Qed.

(** ** Comparisons *)
Lemma ltb_toR (x y : fl) : is_nan x = false -> is_nan y = false ->
  Bltb x y = Rlt_bool (toR x) (toR y).
Proof.
  intros Nx Ny. pose proof M_pos as HM.
  destruct (is_finite x) eqn:Fx; destruct (is_finite y) eqn:Fy.
  - rewrite !toR_fin by assumption. apply Bltb_correct; assumption.
  - pose proof (toR_fin_bound x Fx) as Bx. apply Rabs_def2 in Bx.
    destruct y as [s|[]| |s m e H]; try discriminate; simpl toR;
      (case Rlt_bool_spec; intros Hc; [|]);
      destruct x as [s'|[]| |[] m' e' H']; try discriminate; try reflexivity; lra.
  - pose proof (toR_fin_bound y Fy) as By. apply Rabs_def2 in By.
    destruct x as [s|[]| |s m e H]; try discriminate; simpl toR;
      (case Rlt_bool_spec; intros Hc; [|]);
      destruct y as [s'|[]| |[] m' e' H']; try discriminate; try reflexivity; lra.
  - destruct x as [s|[]| |s m e H]; try discriminate;
      destruct y as [s'|[]| |s' m' e' H']; try discriminate; simpl toR;
      (case Rlt_bool_spec; intros Hc); try reflexivity; lra.
Qed.

Lemma leb_toR (x y : fl) : is_nan x = false -> is_nan y = false ->
  Bleb x y = Rle_bool (toR x) (toR y).
Proof.
  intros Nx Ny. pose proof M_pos as HM.
  destruct (is_finite x) eqn:Fx; destruct (is_finite y) eqn:Fy.
  - rewrite !toR_fin by assumption. apply Bleb_correct; assumption.
  - pose proof (toR_fin_bound x Fx) as Bx. apply Rabs_def2 in Bx.
    destruct y as [s|[]| |s m e H]; try discriminate; simpl toR;
      (case Rle_bool_spec; intros Hc; [|]);
      destruct x as [s'|[]| |[] m' e' H']; try discriminate; try reflexivity; lra.
  - pose proof (toR_fin_bound y Fy) as By. apply Rabs_def2 in By.
    destruct x as [s|[]| |s m e H]; try discriminate; simpl toR;
      (case Rle_bool_spec; intros Hc; [|]);
      destruct y as [s'|[]| |[] m' e' H']; try discriminate; try reflexivity; lra.
  - destruct x as [s|[]| |s m e H]; try discriminate;
      destruct y as [s'|[]| |s' m' e' H']; try discriminate; simpl toR;
      (case Rle_bool_spec; intros Hc); try reflexivity; lra.
Qed.

Lemma ltb_nan_l (x y : fl) : is_nan x = true -> Bltb x y = false.
Proof. destruct x; try discriminate; intros _; destruct y as [|[]| |[]]; reflexivity. Qed.
Lemma ltb_nan_r (x y : fl) : is_nan y = true -> Bltb x y = false.
Proof. destruct y; try discriminate; intros _; destruct x as [|[]| |[]]; reflexivity. Qed.
Lemma leb_nan_l (x y : fl) : is_nan x = true -> Bleb x y = false.
Proof. destruct x; try discriminate; intros _; destruct y as [|[]| |[]]; reflexivity. Qed.
Lemma leb_nan_r (x y : fl) : is_nan y = true -> Bleb x y = false.
Proof. destruct y; try discriminate; intros _; destruct x as [|[]| |[]]; reflexivity. Qed.

Lemma ltb_true (x y : fl) : Bltb x y = true ->
  is_nan x = false /\ is_nan y = false /\ toR x < toR y.
Proof.
  intros H.
  destruct (is_nan x) eqn:Nx. { rewrite ltb_nan_l in H by exact Nx; discriminate. }
  destruct (is_nan y) eqn:Ny. { rewrite ltb_nan_r in H by exact Ny; discriminate. }
  rewrite ltb_toR in H by assumption. repeat split.
  revert H; case Rlt_bool_spec; intros; [assumption|discriminate].
Qed.

Lemma leb_true (x y : fl) : Bleb x y = true ->
  is_nan x = false /\ is_nan y = false /\ toR x <= toR y.
Proof.
  intros H.
  destruct (is_nan x) eqn:Nx. { rewrite leb_nan_l in H by exact Nx; discriminate. }
  destruct (is_nan y) eqn:Ny. { rewrite leb_nan_r in H by exact Ny; discriminate. }
  rewrite leb_toR in H by assumption. repeat split.
  revert H; case Rle_bool_spec; intros; [assumption|discriminate].
Qed.

Lemma ltb_intro (x y : fl) : is_nan x = false -> is_nan y = false ->
  toR x < toR y -> Bltb x y = true.
Proof. intros. rewrite ltb_toR by assumption. apply Rlt_bool_true; assumption. Qed.
Lemma leb_intro (x y : fl) : is_nan x = false -> is_nan y = false ->
  toR x <= toR y -> Bleb x y = true.
Proof. intros. rewrite leb_toR by assumption. apply Rle_bool_true; assumption. Qed.
Lemma ltb_false (x y : fl) : is_nan x = false -> is_nan y = false ->
  Bltb x y = false -> toR y <= toR x.
Proof.
  intros Nx Ny H. rewrite ltb_toR in H by assumption.
  revert H; case Rlt_bool_spec; intros; [discriminate|assumption].
Qed.
Lemma leb_false (x y : fl) : is_nan x = false -> is_nan y = false ->
  Bleb x y = false -> toR y < toR x.
Proof.
  intros Nx Ny H. rewrite leb_toR in H by assumption.
  revert H; case Rle_bool_spec; intros; [discriminate|assumption].
Qed.

Lemma Bleb_refl (x : fl) : is_nan x = false -> Bleb x x = true.
Proof. intros N. apply leb_intro; auto. lra. Qed.

(** ** Operations *)
Lemma B2SF_inf (z : fl) s : B2SF z = SpecFloat.S754_infinity s -> z = B754_infinity s.
Proof. destruct z; simpl; congruence. Qed.

Lemma overflow_NE s : binary_overflow prec emax mode_NE s = SpecFloat.S754_infinity s.
Proof. reflexivity. Qed.

Definition sgn_inf (s : bool) : R := if s then - M else M.
Lemma toR_inf s : toR (B754_infinity s) = sgn_inf s.
Proof. destruct s; reflexivity. Qed.

Lemma Bsign_neg (x : fl) : is_finite x = true -> B2R x < 0 -> Bsign x = true.
Proof.
  destruct x as [s|s| |s m e H]; simpl; intros F L; try discriminate; try lra.
  destruct s; [reflexivity|]. exfalso.
  pose proof (F2R_gt_0 radix2 (Float radix2 (Zpos m) e) eq_refl) as H0. simpl in L, H0. lra.
Qed.
Lemma Bsign_pos (x : fl) : is_finite x = true -> 0 < B2R x -> Bsign x = false.
Proof.
  destruct x as [s|s| |s m e H]; simpl; intros F L; try discriminate; try lra.
  destruct s; [|reflexivity]. exfalso.
  pose proof (F2R_lt_0 radix2 (Float radix2 (Zneg m) e) eq_refl) as H0. simpl in L, H0. lra.
Qed.

Lemma rnd_sign_ge r : M <= Rabs (rnd r) -> r <> 0.
Proof.
  intros H ->. rewrite round_0 in H by apply valid_rnd_N. rewrite Rabs_R0 in H.
  pose proof M_pos; lra.
Qed.

Instance fexp_valid : Valid_exp fexp := fexp_correct prec emax Hp.

Lemma rnd_ge_0 r : 0 <= r -> 0 <= rnd r.
Proof.
  intros H. rewrite <- (round_0 radix2 fexp ZnearestE). apply round_le; auto with typeclass_instances.
Qed.
Lemma rnd_le_0 r : r <= 0 -> rnd r <= 0.
Proof.
  intros H. rewrite <- (round_0 radix2 fexp ZnearestE). apply round_le; auto with typeclass_instances.
Qed.
Lemma rnd_mono a b : a <= b -> rnd a <= rnd b.
Proof. intros H. apply round_le; auto with typeclass_instances. Qed.

Lemma rnd_B2R (x : fl) : rnd (B2R x) = B2R x.
Proof. apply round_generic; auto with typeclass_instances. apply generic_format_B2R. Qed.

Lemma div_toR (x y : fl) : is_finite x = true -> is_finite y = true -> B2R y <> 0 ->
  is_nan (Bdiv mode_NE x y) = false /\
  toR (Bdiv mode_NE x y) = clamp (rnd (B2R x / B2R y)).
Proof.
  intros Fx Fy Hy. pose proof (Bdiv_correct prec emax Hp Hpe mode_NE x y Hy) as H.
  change (round_mode mode_NE) with ZnearestE in H.
  revert H. case Rlt_bool_spec; intros Hc H.
  - destruct H as (H1 & H2 & _). rewrite Fx in H2. split.
    + apply fin_not_nan; exact H2.
    + rewrite toR_fin by exact H2. rewrite clamp_in by exact Hc. exact H1.
  - rewrite overflow_NE in H. apply B2SF_inf in H. rewrite H. split; [reflexivity|].
    rewrite toR_inf. pose proof (rnd_sign_ge _ Hc) as Hq.
    assert (Hx : B2R x <> 0). { intros E. apply Hq. rewrite E. unfold Rdiv. ring. }
    assert (Hq' : (0 < B2R x / B2R y /\ xorb (Bsign x) (Bsign y) = false) \/
                  (B2R x / B2R y < 0 /\ xorb (Bsign x) (Bsign y) = true)).
    { destruct (Rlt_or_le 0 (B2R x)) as [Lx|Lx]; destruct (Rlt_or_le 0 (B2R y)) as [Ly|Ly].
      - left. rewrite !Bsign_pos by assumption. split; [|reflexivity].
        apply Rdiv_lt_0_compat; assumption.
      - right. rewrite (Bsign_pos x), (Bsign_neg y) by (assumption || lra). split; [|reflexivity].
        unfold Rdiv. assert (/ B2R y < 0) by (apply Rinv_lt_0_compat; lra). nra.
      - right. rewrite (Bsign_neg x), (Bsign_pos y) by (assumption || lra). split; [|reflexivity].
        unfold Rdiv. assert (0 < / B2R y) by (apply Rinv_0_lt_compat; lra). nra.
      - left. rewrite (Bsign_neg x), (Bsign_neg y) by (assumption || lra). split; [|reflexivity].
        unfold Rdiv. assert (/ B2R y < 0) by (apply Rinv_lt_0_compat; lra). nra. }
    destruct Hq' as [[Lq ->]|[Lq ->]]; simpl.
    + rewrite clamp_hi; [reflexivity|]. rewrite Rabs_pos_eq in Hc by (apply rnd_ge_0; lra). exact Hc.
    + rewrite clamp_lo; [reflexivity|]. rewrite Rabs_left1 in Hc by (apply rnd_le_0; lra). lra.
Qed.

Lemma minus_toR (x y : fl) : is_finite x = true -> is_finite y = true ->
  is_nan (Bminus mode_NE x y) = false /\
  toR (Bminus mode_NE x y) = clamp (rnd (B2R x - B2R y)).
Proof.
  intros Fx Fy. pose proof (Bminus_correct prec emax Hp Hpe mode_NE x y Fx Fy) as H.
  change (round_mode mode_NE) with ZnearestE in H.
  revert H. case Rlt_bool_spec; intros Hc H.
  - destruct H as (H1 & H2 & _). split.
    + apply fin_not_nan; exact H2.
    + rewrite toR_fin by exact H2. rewrite clamp_in by exact Hc. exact H1.
  - destruct H as [H Hs]. rewrite overflow_NE in H. apply B2SF_inf in H. rewrite H.
    split; [reflexivity|]. rewrite toR_inf.
    assert (Hx : if Bsign x then B2R x - B2R y <= 0 else 0 <= B2R x - B2R y).
    { destruct (Bsign x) eqn:Sx; destruct (Bsign y) eqn:Sy; try discriminate.
      - destruct (Rle_or_lt (B2R x) 0) as [L1|L1].
        + destruct (Rle_or_lt 0 (B2R y)) as [L2|L2]; [lra|].
          rewrite (Bsign_neg y Fy L2) in Sy; discriminate.
        + rewrite (Bsign_pos x Fx L1) in Sx; discriminate.
      - destruct (Rle_or_lt 0 (B2R x)) as [L1|L1].
        + destruct (Rle_or_lt (B2R y) 0) as [L2|L2]; [lra|].
          rewrite (Bsign_pos y Fy L2) in Sy; discriminate.
        + rewrite (Bsign_neg x Fx L1) in Sx; discriminate. }
    destruct (Bsign x); simpl.
    + rewrite clamp_lo; [reflexivity|]. rewrite Rabs_left1 in Hc by (apply rnd_le_0; exact Hx). lra.
    + rewrite clamp_hi; [reflexivity|]. rewrite Rabs_pos_eq in Hc by (apply rnd_ge_0; exact Hx). lra.
Qed.

Lemma abs_toR (x : fl) : toR (Babs x) = Rabs (toR x).
Proof.
  pose proof M_pos. destruct x as [s|[]| |s m e H']; simpl.
  - rewrite Rabs_R0; reflexivity.
  - rewrite Rabs_Ropp, Rabs_pos_eq; lra.
  - rewrite Rabs_pos_eq; lra.
  - rewrite Rabs_R0; reflexivity.
  - change (B2R (Babs (B754_finite s m e H')) = Rabs (B2R (B754_finite s m e H'))).
    apply B2R_Babs.
Qed.
Lemma abs_nan (x : fl) : is_nan (Babs x) = is_nan x.
Proof. destruct x; reflexivity. Qed.

(** ** Order properties of the operations, including infinities *)
Definition nonneg (x : fl) : Prop := is_nan x = false /\ 0 <= toR x.

Lemma inf_ge (x y : fl) : is_nan y = false -> Bleb x y = true -> x = B754_infinity false -> y = B754_infinity false.
Proof.
  intros Ny H ->. apply leb_true in H. destruct H as (_ & _ & H). simpl in H.
  destruct (is_finite y) eqn:Fy.
  - pose proof (toR_fin_bound y Fy) as B. apply Rabs_def2 in B. lra.
  - destruct y as [s|[]| |s m e H']; try discriminate; [|reflexivity].
    simpl in H. pose proof M_pos. lra.
Qed.

(** division by a positive finite number is monotone *)
Lemma div_mono (x y d : fl) : Bleb x y = true -> 0 <= toR x ->
  is_finite d = true -> 0 < B2R d ->
  Bleb (Bdiv mode_NE x d) (Bdiv mode_NE y d) = true.
Proof.
  intros L H0 Fd Hd. destruct (leb_true _ _ L) as (Nx & Ny & Lxy).
  assert (Sd : Bsign d = false) by (apply Bsign_pos; assumption).
  pose proof M_pos as HM.
  destruct (is_finite x) eqn:Fx.
  - destruct (div_toR x d Fx Fd) as [N1 E1]; [lra|].
    destruct (is_finite y) eqn:Fy.
    + destruct (div_toR y d Fy Fd) as [N2 E2]; [lra|].
      apply leb_intro; auto. rewrite E1, E2. apply clamp_mono, rnd_mono.
      rewrite <- !toR_fin by assumption.
      apply Rmult_le_compat_r; [|assumption]. rewrite toR_fin by assumption.
      apply Rlt_le, Rinv_0_lt_compat; assumption.
    + destruct y as [s|[]| |s m e H']; try discriminate.
      * simpl in Lxy. exfalso. lra.
      * destruct d as [s|s| |s m e H']; try discriminate; [simpl in Hd; lra|].
        simpl in Sd. subst s. simpl (Bdiv mode_NE (B754_infinity false) _).
        apply leb_intro; auto. pose proof (toR_bound (Bdiv mode_NE x (B754_finite false m e H'))) as B.
        apply Rabs_le_inv in B. simpl toR at 2. lra.
  - destruct x as [s|[]| |s m e H']; try discriminate.
    + simpl in H0. exfalso. lra.
    + apply inf_ge in L; auto. subst y. apply Bleb_refl.
      destruct d as [s|s| |s m e H']; try discriminate; [simpl in Hd; lra|]. reflexivity.
Qed.

Lemma minus_mono_l (x y d : fl) : Bleb x y = true -> is_finite d = true ->
  Bleb (Bminus mode_NE x d) (Bminus mode_NE y d) = true.
Proof.
  intros L Fd. destruct (leb_true _ _ L) as (Nx & Ny & Lxy). pose proof M_pos as HM.
  destruct (is_finite x) eqn:Fx; destruct (is_finite y) eqn:Fy.
  - destruct (minus_toR x d Fx Fd) as [N1 E1]. destruct (minus_toR y d Fy Fd) as [N2 E2].
    apply leb_intro; auto. rewrite E1, E2. apply clamp_mono, rnd_mono.
    rewrite <- (toR_fin x), <- (toR_fin y) by assumption. lra.
  - destruct (minus_toR x d Fx Fd) as [N1 E1].
    pose proof (toR_fin_bound x Fx) as Bx; apply Rabs_def2 in Bx.
    destruct y as [s|[]| |s m e H']; try discriminate; [simpl in Lxy; lra|].
    assert (Bminus mode_NE (B754_infinity false) d = B754_infinity false) as ->
      by (destruct d; try discriminate; reflexivity).
    apply leb_intro; auto. pose proof (toR_bound (Bminus mode_NE x d)) as B.
    apply Rabs_le_inv in B. simpl toR at 2. lra.
  - destruct (minus_toR y d Fy Fd) as [N1 E1].
    pose proof (toR_fin_bound y Fy) as By; apply Rabs_def2 in By.
    destruct x as [s|[]| |s m e H']; try discriminate; [|simpl in Lxy; lra].
    assert (Bminus mode_NE (B754_infinity true) d = B754_infinity true) as ->
      by (destruct d; try discriminate; reflexivity).
    apply leb_intro; auto. pose proof (toR_bound (Bminus mode_NE y d)) as B.
    apply Rabs_le_inv in B. simpl toR at 1. lra.
  - destruct x as [s|[]| |s m e H']; try discriminate;
    destruct y as [s'|[]| |s' m' e' H'']; try discriminate; try (simpl in Lxy; lra);
    destruct d; try discriminate; reflexivity.
Qed.

Lemma minus_not_nan (x d : fl) : is_nan x = false -> is_finite d = true ->
  is_nan (Bminus mode_NE x d) = false.
Proof.
  intros Nx Fd. destruct (is_finite x) eqn:Fx.
  - apply minus_toR; assumption.
  - destruct x as [s|[]| |s m e H']; try discriminate; destruct d; try discriminate; reflexivity.
Qed.

Lemma minus_nan (x d : fl) : is_nan x = true -> is_nan (Bminus mode_NE x d) = true.
Proof. destruct x; try discriminate; intros _; destruct d as [|[]| |[]]; reflexivity. Qed.

End Fl.

(** ** Rust's f64 and f32 *)
Definition f64 := binary_float 53 1024.
Definition f32 := binary_float 24 128.
#[export] Instance Hprec53 : Prec_gt_0 53. Proof. reflexivity. Qed.
#[export] Instance Hmax1024 : Prec_lt_emax 53 1024. Proof. reflexivity. Qed.
#[export] Instance Hprec24 : Prec_gt_0 24. Proof. reflexivity. Qed.
#[export] Instance Hmax128 : Prec_lt_emax 24 128. Proof. reflexivity. Qed.

Definition f64_div : f64 -> f64 -> f64 := Bdiv mode_NE.
Definition f64_mul : f64 -> f64 -> f64 := Bmult mode_NE.
Definition f64_add : f64 -> f64 -> f64 := Bplus mode_NE.
Definition f64_sub : f64 -> f64 -> f64 := Bminus mode_NE.
Definition f64_abs : f64 -> f64 := Babs.
Definition f64_ltb : f64 -> f64 -> bool := Bltb.
Definition f64_leb : f64 -> f64 -> bool := Bleb.
(** [n as f64] for an integer; also every literal of the form m * 2^e *)
Definition f64_of_int (z : Z) : f64 := binary_normalize 53 1024 _ _ mode_NE z 0 false.
Definition f64_scaled (m e : Z) : f64 := binary_normalize 53 1024 _ _ mode_NE m e false.
Definition f32_div : f32 -> f32 -> f32 := Bdiv mode_NE.
Definition f32_sub : f32 -> f32 -> f32 := Bminus mode_NE.
Definition f32_ltb : f32 -> f32 -> bool := Bltb.
Definition f32_of_int (z : Z) : f32 := binary_normalize 24 128 _ _ mode_NE z 0 false.
