(** * Proofs about the binary64 instance of the analyses (any log2/powi/powf). *)
From Coq Require Import ZArith Reals Lra Lia Bool List Psatz.
From Flocq Require Import Core.Core IEEE754.BinarySingleNaN.
From Verif Require Import Machine Complexity Floats Analysis.
Open Scope R_scope.

Notation toR64 := (toR 53 1024).
Notation clamp64 := (clamp 1024).
Notation rnd64 := (round radix2 (SpecFloat.fexp 53 1024) ZnearestE).
Notation M64 := (bpow radix2 1024).

(** ** Constants *)
Definition one64 : f64 := f64_of_int 1.
Definition three64 : f64 := f64_of_int 3.
Definition lo64 (t : tolerance) : f64 := f64_sub one64 (tol64 t).

Ltac compute_B2R :=
  match goal with
  | |- context [B2R ?x] =>
      rewrite <- (SF2R_B2SF 53 1024 x);
      let v := eval vm_compute in (B2SF x) in
      replace (B2SF x) with v by (vm_compute; reflexivity);
      cbv [SF2R cond_Zopp F2R Fnum Fexp bpow radix2 radix_val Z.pow_pos Pos.iter Z.mul Pos.mul Z.opp]
  end.

Lemma one_fin : is_finite one64 = true. Proof. vm_compute; reflexivity. Qed.
Lemma three_fin : is_finite three64 = true. Proof. vm_compute; reflexivity. Qed.
Lemma tol_fin t : is_finite (tol64 t) = true. Proof. destruct t; vm_compute; reflexivity. Qed.
Lemma lo_fin t : is_finite (lo64 t) = true. Proof. destruct t; vm_compute; reflexivity. Qed.
Lemma one_R : B2R one64 = 1. Proof. compute_B2R. lra. Qed.
Lemma three_R : B2R three64 = 3. Proof. compute_B2R. lra. Qed.
Lemma tol_R t : B2R (tol64 t) = match t with Tol10 => 7205759403792794 / 72057594037927936 | Tol25 => 1/4 end.
Proof. destruct t; compute_B2R; lra. Qed.
Lemma lo_R t : B2R (lo64 t) = match t with Tol10 => 8106479329266893 / 9007199254740992 | Tol25 => 3/4 end.
Proof. destruct t; compute_B2R; lra. Qed.

Lemma tol_bounds t : / 10 <= B2R (tol64 t) <= / 4.
Proof. rewrite tol_R; destruct t; lra. Qed.
Lemma lo_bounds t : / 2 <= B2R (lo64 t) <= 9/10 + 1 / 1000000.
Proof. rewrite lo_R; destruct t; lra. Qed.

(** lo - 1 (in binary64) is not below -tol *)
Lemma lo_minus_one t : - B2R (tol64 t) <= toR64 (f64_sub (lo64 t) one64).
Proof.
  unfold f64_sub.
  assert (F : is_finite (f64_sub (lo64 t) one64) = true) by (destruct t; vm_compute; reflexivity).
  rewrite toR_fin by exact F. destruct t.
  - assert (B2R (f64_sub (lo64 Tol10) one64) = - (900719925474099 / 9007199254740992)) as E
      by (compute_B2R; lra).
    unfold f64_sub in E. rewrite E, tol_R. lra.
  - assert (B2R (f64_sub (lo64 Tol25) one64) = - (1/4)) as E by (compute_B2R; lra).
    unfold f64_sub in E. rewrite E, tol_R. lra.
Qed.

(** ** One level of the chain *)
Definition below t (c : f64) : bool := f64_ltb c (lo64 t).
Definition within t (c : f64) : bool := f64_leb (f64_abs (f64_sub c one64)) (tol64 t).

Lemma below_iff t c : below t c = true <-> is_nan c = false /\ toR64 c < B2R (lo64 t).
Proof.
  unfold below, f64_ltb. split.
  - intros H. apply ltb_true in H; try exact _. destruct H as (H1 & _ & H2).
    rewrite (toR_fin _ _ (lo64 t)) in H2 by apply lo_fin. auto.
  - intros [N H]. apply ltb_intro; auto; try exact _.
    + apply fin_not_nan, lo_fin.
    + rewrite (toR_fin _ _ (lo64 t)) by apply lo_fin. exact H.
Qed.

Lemma within_iff t c : within t c = true <->
  is_nan c = false /\ - B2R (tol64 t) <= toR64 (f64_sub c one64) <= B2R (tol64 t).
Proof.
  unfold within, f64_leb. split.
  - intros H. apply leb_true in H; try exact _. destruct H as (H1 & _ & H2).
    rewrite (toR_fin _ _ (tol64 t)) in H2 by apply tol_fin.
    unfold f64_abs in *. rewrite abs_nan in H1. rewrite abs_toR in H2.
    apply Rabs_le_inv in H2. split; [|exact H2].
    destruct (is_nan c) eqn:N; [|reflexivity].
    unfold f64_sub in H1. rewrite minus_nan in H1 by exact N. discriminate.
  - intros [N H]. apply leb_intro; try exact _.
    + unfold f64_abs; rewrite abs_nan. apply minus_not_nan; [exact N|apply one_fin].
    + apply fin_not_nan, tol_fin.
    + rewrite (toR_fin _ _ (tol64 t)) by apply tol_fin. unfold f64_abs; rewrite abs_toR.
      apply Rabs_le. exact H.
Qed.

Lemma sub_one_mono c c' : f64_leb c c' = true ->
  toR64 (f64_sub c one64) <= toR64 (f64_sub c' one64).
Proof.
  intros L. assert (H : Bleb (f64_sub c one64) (f64_sub c' one64) = true)
    by (apply minus_mono_l; [exact L|apply one_fin]).
  apply leb_true in H; try exact _. tauto.
Qed.

(** the heart of monotonicity: for a larger quotient, "below" is harder and
    "within" is harder unless the smaller one was already below or within *)
Lemma level_mono t c c' : f64_leb c c' = true ->
  (below t c' = true -> below t c = true) /\
  (within t c' = true -> below t c = true \/ within t c = true).
Proof.
  intros L. pose proof L as L'. unfold f64_leb in L'. apply leb_true in L'; try exact _.
  destruct L' as (N & N' & Lc). split.
  - rewrite !below_iff. intros [_ H]. split; [exact N|lra].
  - rewrite below_iff, !within_iff. intros [_ H].
    destruct (Rlt_or_le (toR64 c) (B2R (lo64 t))) as [Hl|Hl]; [left; auto|right].
    split; [exact N|]. split.
    + apply Rle_trans with (1 := lo_minus_one t). apply sub_one_mono.
      apply leb_intro; auto; try exact _. { apply fin_not_nan, lo_fin. }
      rewrite (toR_fin _ _ (lo64 t)) by apply lo_fin. exact Hl.
    + apply Rle_trans with (2 := proj2 H). apply sub_one_mono. exact L.
Qed.

Lemma level_nan t c : is_nan c = true -> below t c = false /\ within t c = false.
Proof.
  intros N. split.
  - destruct (below t c) eqn:E; [|reflexivity]. apply below_iff in E. destruct E; congruence.
  - destruct (within t c) eqn:E; [|reflexivity]. apply within_iff in E. destruct E; congruence.
Qed.

(** the quotient by any divisor whatsoever *)
Lemma div_any_mono (x y d : f64) : f64_leb x y = true -> 0 < toR64 x ->
  (is_nan (f64_div x d) = false /\ toR64 (f64_div x d) <= 0) \/
  f64_div x d = f64_div y d \/
  is_nan (f64_div y d) = true \/
  f64_leb (f64_div x d) (f64_div y d) = true.
Proof.
  intros L H0. pose proof L as L'. unfold f64_leb in L'. apply leb_true in L'; try exact _.
  destruct L' as (Nx & Ny & Lxy). pose proof (M_pos 1024) as HM.
  assert (Hy0 : 0 < toR64 y) by lra.
  destruct (is_finite d) eqn:Fd.
  - destruct (Rtotal_order (B2R d) 0) as [Hd|[Hd|Hd]].
    + (* negative divisor: the quotient is never above 0 *)
      left. destruct (is_finite x) eqn:Fx.
      * destruct (div_toR 53 1024 _ _ x d Fx Fd) as [N E]; [lra|]. split; [exact N|].
        unfold f64_div. rewrite E.
        rewrite <- (clamp_in 1024 0) by (rewrite Rabs_R0; exact HM).
        apply clamp_mono, rnd_le_0; try exact _.
        rewrite toR_fin in H0 by exact Fx.
        assert (/ B2R d < 0) by (apply Rinv_lt_0_compat; exact Hd). unfold Rdiv. nra.
      * destruct x as [s|[]| |s m e H']; try discriminate; [simpl in H0; lra|].
        assert (Sd : Bsign d = true) by (apply Bsign_neg; assumption).
        destruct d as [s|s| |s m e H']; try discriminate; [simpl in Hd; lra|].
        simpl in Sd. subst s. split; [reflexivity|]. simpl. lra.
    + (* zero divisor: both quotients are the same infinity *)
      right; left.
      destruct d as [s|s| |s m e H']; try discriminate.
      2: { exfalso. revert Hd. simpl.
           destruct s; [pose proof (F2R_lt_0 radix2 (Float radix2 (Zneg m) e) eq_refl)
                       |pose proof (F2R_gt_0 radix2 (Float radix2 (Zpos m) e) eq_refl)]; simpl in *; lra. }
      assert (S : forall z : f64, is_nan z = false -> 0 < toR64 z ->
                  f64_div z (B754_zero s) = B754_infinity s).
      { intros z Nz Hz. destruct z as [s'|[]| |s' m' e' H']; try discriminate.
        - simpl in Hz; lra.
        - simpl in Hz; lra.
        - destruct s; reflexivity.
        - assert (s' = false). { apply (Bsign_pos 53 1024 (B754_finite s' m' e' H')); [reflexivity|exact Hz]. }
          subst s'. destruct s; reflexivity. }
      rewrite !S by assumption. reflexivity.
    + right; right; right. apply div_mono; try assumption. lra.
  - destruct d as [s|s| |s m e H']; try discriminate.
    + (* infinite divisor *)
      destruct (is_finite y) eqn:Fy.
      * left. assert (Fx : is_finite x = true).
        { destruct (is_finite x) eqn:Fx; [reflexivity|]. exfalso.
          pose proof (toR_fin_bound 53 1024 y Fy) as By. apply Rabs_def2 in By.
          destruct x as [s'|[]| |s' m' e' H']; try discriminate; simpl in *; lra. }
        destruct x; try discriminate; simpl; split; (reflexivity || lra).
      * right; right; left.
        destruct y as [s'|[]| |s' m' e' H']; try discriminate; [simpl in Hy0; lra|]. reflexivity.
    + right; right; left. destruct y as [|[]| |[]]; reflexivity.
Qed.

Lemma div_level_mono t (x y d : f64) : f64_leb x y = true -> 0 < toR64 x ->
  (below t (f64_div y d) = true -> below t (f64_div x d) = true) /\
  (within t (f64_div y d) = true -> below t (f64_div x d) = true \/ within t (f64_div x d) = true).
Proof.
  intros L H0. destruct (div_any_mono x y d L H0) as [[N H]|[E|[N|H]]].
  - assert (Hb : below t (f64_div x d) = true).
    { apply below_iff. split; [exact N|]. pose proof (lo_bounds t). lra. }
    rewrite Hb. auto.
  - rewrite E. auto.
  - destruct (level_nan t _ N) as [-> ->]. split; discriminate.
  - apply level_mono. exact H.
Qed.

(** ** First-match chains *)
Fixpoint first_match (l : list (bool * complexity)) (d : complexity) : complexity :=
  match l with
  | nil => d
  | (b, c) :: t => if b then c else first_match t d
  end.

Section Chain.
Variables (t : tolerance) (l : libm) (n1 n2 : f64).
Local Open Scope list_scope.

Definition lvl (x : f64) (cb cw : complexity) (rest : list (bool * complexity)) :=
  (below t x, cb) :: (within t x, cw) :: rest.

Definition d_log : f64 := f64_div (lm_log2 l n2) (lm_log2 l n1).
Definition d_n : f64 := f64_div n2 n1.
Definition d_nlog : f64 := f64_div (f64_mul n2 (lm_log2 l n2)) (f64_mul n1 (lm_log2 l n1)).
Definition d_pow (k : Z) : f64 := lm_powi l d_n k.
Definition d_exp (u1 : f64) : f64 := lm_powf l u1 d_n.

Definition chain (u1 u2 : f64) : list (bool * complexity) :=
  let x := f64_div u2 u1 in
  lvl x BetterThanO1 O1
  (lvl (f64_div x d_log) BetweenO1AndOLogN OLogN
  (lvl (f64_div x d_n) BetweenOLogNAndON ON
  (lvl (f64_div x d_nlog) BetweenONAndONLogN ONLogN
  (lvl (f64_div x (d_pow 2)) BetweenONLogNAndON2 ON2
  (lvl (f64_div x (d_pow 3)) BetweenON2AndON3 ON3
  (lvl (f64_div x (d_pow 4)) BetweenON3AndON4 ON4
  (lvl (f64_div u2 (d_exp u1)) BetweenON4AndOkN OkN nil))))))).

Lemma analyse64_chain u1 u2 :
  analyse64 t l u1 u2 n1 n2 = first_match (chain u1 u2) WorseThanExponential.
Proof. reflexivity. Qed.
End Chain.

(** Pairs of chains built level by level with the level_mono property. *)
Inductive chain_le : Z -> list (bool * complexity) -> list (bool * complexity) -> Prop :=
| cl_nil k : chain_le k nil nil
| cl_lvl k b w b' w' cb cw r r' :
    (b' = true -> b = true) -> (w' = true -> b = true \/ w = true) ->
    (discr cb = k)%Z -> (discr cw = k + 1)%Z -> chain_le (k + 2) r r' ->
    chain_le k ((b, cb) :: (w, cw) :: r) ((b', cb) :: (w', cw) :: r').

Lemma first_match_ge k r r' d : chain_le k r r' -> (forall q, chain_le q nil nil -> True) ->
  (k + Z.of_nat (length r') <= discr d)%Z -> (k <= discr (first_match r' d))%Z.
Proof.
  intros H _. induction H as [k|k b w b' w' cb cw r r' H1 H2 Hb Hw H IH]; intros Hd; simpl in *.
  - lia.
  - destruct b'; [lia|]. destruct w'; [lia|]. apply Z.le_trans with (k + 2)%Z; [lia|].
    apply IH. lia.
Qed.

Lemma chain_le_sound k r r' d : chain_le k r r' ->
  (k + Z.of_nat (length r') <= discr d)%Z ->
  (discr (first_match r d) <= discr (first_match r' d))%Z.
Proof.
  intros H. induction H as [k|k b w b' w' cb cw r r' H1 H2 Hb Hw H IH]; intros Hd; simpl in *.
  - lia.
  - destruct b.
    + destruct b'; [lia|]. destruct w'; [lia|].
      pose proof (first_match_ge _ _ _ d H (fun _ _ => I)). lia.
    + destruct b'; [specialize (H1 eq_refl); discriminate|].
      destruct w.
      * destruct w'; [lia|]. pose proof (first_match_ge _ _ _ d H (fun _ _ => I)). lia.
      * destruct w'; [destruct (H2 eq_refl); discriminate|]. apply IH. lia.
Qed.

(** ** C01 *)
Lemma div_pos_cases (u1 u2 : f64) : is_finite u1 = true -> 0 < B2R u1 ->
  is_nan u2 = false -> is_nan (f64_div u2 u1) = false.
Proof.
  intros F1 H1 N2. destruct (is_finite u2) eqn:F2.
  - apply div_toR; auto; lra.
  - destruct u2 as [s|s| |s m e H']; try discriminate.
    destruct u1 as [s1|s1| |s1 m1 e1 H1']; try discriminate; reflexivity.
Qed.

Lemma analyse64_mono t l u1 u2 u2' n1 n2 :
  is_finite u1 = true -> 0 < B2R u1 -> 0 <= toR64 u2 -> f64_leb u2 u2' = true ->
  cle (analyse64 t l u1 u2 n1 n2) (analyse64 t l u1 u2' n1 n2).
Proof.
  intros F1 H1 H2 L. pose proof L as L'. unfold f64_leb in L'. apply leb_true in L'; try exact _.
  destruct L' as (N2 & N2' & L2).
  rewrite !analyse64_chain. unfold cle.
  set (x := f64_div u2 u1). set (y := f64_div u2' u1).
  assert (Lxy : f64_leb x y = true) by (apply div_mono; auto).
  assert (Nx : is_nan x = false) by (apply div_pos_cases; auto).
  destruct (below t x) eqn:Bx.
  { assert (first_match (chain t l n1 n2 u1 u2) WorseThanExponential = BetterThanO1) as ->.
    { unfold chain. fold x. unfold lvl. simpl. rewrite Bx. reflexivity. }
    apply (discr_bounds (first_match _ _)). }
  assert (Hx : 0 < toR64 x).
  { destruct (Rlt_or_le (toR64 x) (B2R (lo64 t))) as [Hl|Hl].
    - assert (below t x = true) by (apply below_iff; auto). congruence.
    - pose proof (lo_bounds t). lra. }
  assert (Hu2 : 0 < toR64 u2).
  { destruct (Rlt_or_le 0 (toR64 u2)) as [Hp|Hp]; [exact Hp|]. exfalso.
    assert (Hz : toR64 u2 = 0) by lra.
    assert (Fz : is_finite u2 = true).
    { pose proof (M_pos 1024). destruct u2 as [s|[]| |s m e H']; try reflexivity; try discriminate; simpl in Hz; lra. }
    destruct (div_toR 53 1024 _ _ u2 u1 Fz F1) as [_ E]; [lra|].
    rewrite toR_fin in Hz by exact Fz.
    rewrite Hz in E. unfold Rdiv in E. rewrite Rmult_0_l, round_0 in E by exact _.
    rewrite clamp_in in E by (rewrite Rabs_R0; apply M_pos).
    unfold x, f64_div in Hx. lra. }
  apply chain_le_sound with (k := 0%Z); [|simpl; lia].
  pose proof (level_mono t x y Lxy) as [A1 A2].
  unfold chain, lvl. cbv zeta. fold x y.
  repeat match goal with
  | |- chain_le _ ((below _ ?p, _) :: _) ((below _ ?q, _) :: _) =>
      let P := fresh in
      first [ assert (P : (below t q = true -> below t p = true) /\
                          (within t q = true -> below t p = true \/ within t p = true))
                by (first [ apply div_level_mono; assumption | split; assumption ]) ];
      destruct P; apply cl_lvl; [assumption|assumption|reflexivity|reflexivity|]
  end.
  apply cl_nil.
Qed.
