(** * The binary64 analyses take the branches of the real-number ones, away from the boundaries. *)
From Coq Require Import ZArith Reals Lra Lia Bool List Psatz.
From Flocq Require Import Core.Core IEEE754.BinarySingleNaN Relative.
From Verif Require Import Machine Complexity Floats Analysis GrowthSpec AnalysisF64 AnalysisF64b AnalysisF64d AnalysisR DurationProofs Bridge.
Import ListNotations.
Open Scope R_scope.

(** ** The chain by rank *)
Fixpoint rkF (t : tolerance) (qs : list f64) (k rest : Z) : Z :=
  match qs with
  | [] => rest
  | Q :: qs' => if below t Q then k else if within t Q then (k + 1)%Z else rkF t qs' (k + 2) rest
  end.
Definition last64 (t : tolerance) (l : libm) (u1 u2 n1 n2 : f64) : Z :=
  let c := f64_div u2 (d_exp l n1 n2 u1) in
  if below t c then 14 else if within t c then 15 else 16.
Lemma last64_ge t l u1 u2 n1 n2 : (14 <= last64 t l u1 u2 n1 n2)%Z.
Proof. unfold last64. cbv zeta. destruct (below _ _); [lia|]. destruct (within _ _); lia. Qed.
Lemma analyse64_rkF t l u1 u2 n1 n2 :
  discr (analyse64 t l u1 u2 (f64_of_int n1) (f64_of_int n2)) =
  rkF t (quotients l n1 n2 u1 u2) 0 (last64 t l u1 u2 (f64_of_int n1) (f64_of_int n2)).
Proof.
  rewrite analyse64_chain. unfold quotients, last64, chain, lvl. cbn [rkF first_match]. cbv zeta.
  repeat match goal with
  | |- discr (if ?b then _ else _) = _ => destruct b; [reflexivity|]
  end. reflexivity.
Qed.

Lemma rkF_lower t qs k rest : (k + 2 * Z.of_nat (length qs) <= rest)%Z -> (k <= rkF t qs k rest)%Z.
Proof.
  revert k; induction qs as [|Q qs IH]; intros k H; cbn [rkF length] in *; [lia|].
  destruct (below _ _); [lia|]. destruct (within _ _); [lia|].
  apply Z.le_trans with (k + 2)%Z; [lia|]. apply IH. lia.
Qed.
Lemma rkF_upper t qs k rest i Q : nth_error qs i = Some Q -> below t Q = true \/ within t Q = true ->
  (rkF t qs k rest <= k + 2 * Z.of_nat i + 1)%Z.
Proof.
  revert k i; induction qs as [|Q0 qs IH]; intros k [|i] H Hx; cbn [nth_error rkF] in *; try discriminate.
  - injection H as ->. destruct Hx as [-> | ->]; [lia|]. destruct (below _ _); lia.
  - destruct (below t Q0); [lia|]. destruct (within t Q0); [lia|].
    specialize (IH (k + 2)%Z i H Hx). lia.
Qed.
Lemma rkF_skip t qs k rest i :
  (forall j Q, (j < i)%nat -> nth_error qs j = Some Q -> below t Q = false /\ within t Q = false) ->
  (i <= length qs)%nat ->
  rkF t qs k rest = rkF t (skipn i qs) (k + 2 * Z.of_nat i) rest.
Proof.
  revert k qs; induction i as [|i IH]; intros k qs H Hi.
  - cbn [skipn]. f_equal. lia.
  - destruct qs as [|Q qs]; [cbn in Hi; lia|]. cbn [rkF skipn].
    destruct (H O Q) as [-> ->]; [lia|reflexivity|].
    rewrite (IH (k + 2)%Z qs).
    + f_equal. lia.
    + intros j Q' Hj E. apply (H (S j)); [lia|exact E].
    + cbn in Hi; lia.
Qed.
Lemma rkF_beyond t qs k rest i :
  (forall j Q, (j <= i)%nat -> nth_error qs j = Some Q -> below t Q = false /\ within t Q = false) ->
  (i < length qs)%nat -> (k + 2 * Z.of_nat (length qs) <= rest)%Z ->
  (k + 2 * Z.of_nat i + 2 <= rkF t qs k rest)%Z.
Proof.
  intros H Hi Hr. rewrite (rkF_skip t qs k rest (S i)).
  - replace (k + 2 * Z.of_nat i + 2)%Z with (k + 2 * Z.of_nat (S i))%Z by lia.
    apply rkF_lower. rewrite skipn_length. lia.
  - intros j Q Hj. apply H. lia.
  - lia.
Qed.
Lemma skipn_nth {A} (ds : list A) i d : nth_error ds i = Some d -> exists tl, skipn i ds = d :: tl.
Proof.
  revert ds. induction i as [|i IH]; intros [|d0 ds] E; cbn in *; try discriminate.
  - injection E as ->. eauto.
  - apply IH. exact E.
Qed.
Lemma rkF_exact t qs k rest i Q :
  (forall j Q', (j < i)%nat -> nth_error qs j = Some Q' -> below t Q' = false /\ within t Q' = false) ->
  nth_error qs i = Some Q -> below t Q = false /\ within t Q = true ->
  rkF t qs k rest = (k + 2 * Z.of_nat i + 1)%Z.
Proof.
  intros H E [Hb Hw]. rewrite (rkF_skip t qs k rest i).
  - destruct (skipn_nth _ _ _ E) as [tl ->]. cbn [rkF]. rewrite Hb, Hw. lia.
  - exact H.
  - apply Nat.lt_le_incl, nth_error_Some. congruence.
Qed.

Lemma Forall2_nth {A B} (P : A -> B -> Prop) xs ys i x : Forall2 P xs ys -> nth_error xs i = Some x ->
  exists y, nth_error ys i = Some y /\ P x y.
Proof. intros F. revert i. induction F as [|a b xs ys H F IH]; intros [|i] E; cbn in *; try discriminate; [injection E as ->; eauto|apply IH; exact E]. Qed.
Lemma Forall2_nth_r {A B} (P : A -> B -> Prop) xs ys i y : Forall2 P xs ys -> nth_error ys i = Some y ->
  exists x, nth_error xs i = Some x /\ P x y.
Proof. intros F. revert i. induction F as [|a b xs ys H F IH]; intros [|i] E; cbn in *; try discriminate; [injection E as ->; eauto|apply IH; exact E]. Qed.

(** A ratio [q] = measured/expected that is not within a relative 2^-40 of 1-tol or 1+tol *)
Definition away (t : tolerance) (q : R) : Prop :=
  q <= (1 - tolR t) * (1 - mg) \/
  (1 - tolR t) * (1 + mg) <= q <= (1 + tolR t) * (1 - mg) \/
  (1 + tolR t) * (1 + mg) <= q.

Lemma div_le_iff a b c : 0 < c -> (a / c <= b <-> a <= b * c).
Proof.
  intros H. assert (E : a / c * c = a) by (field; lra). split; intros L.
  - rewrite <- E. apply Rmult_le_compat_r; lra.
  - apply Rmult_le_reg_r with c; [exact H|]. rewrite E. exact L.
Qed.
Lemma le_div_iff a b c : 0 < c -> (b <= a / c <-> b * c <= a).
Proof.
  intros H. assert (E : a / c * c = a) by (field; lra). split; intros L.
  - rewrite <- E. apply Rmult_le_compat_r; lra.
  - apply Rmult_le_reg_r with c; [exact H|]. rewrite E. exact L.
Qed.

Section Core.
Variables (t : tolerance) (l : libm) (n1 n2 : Z) (u1 u2 : f64) (U1 U2 : R).
Hypothesis Hl : libm_accurate l.
Hypothesis H1 : (2 <= n1 < two32)%Z.
Hypothesis H2 : (2 <= n2 < two32)%Z.
Hypothesis A1 : ap 2 70 u1 U1.
Hypothesis A2 : ap 2 70 u2 U2.
Let X := U2 / U1.
Let N1 := IZR n1. Let N2 := IZR n2.
Let cls := analyse64 t l u1 u2 (f64_of_int n1) (f64_of_int n2).

Lemma sz1 : 1 < N1. Proof. apply (IZR_lt 1). lia. Qed.
Lemma sz2 : 1 < N2. Proof. apply (IZR_lt 1). lia. Qed.
Lemma Qs_near : Forall2 near (quotients l n1 n2 u1 u2) (map (fun d => X / d) (divisors N1 N2)).
Proof. exact (quotients_near l Hl n1 n2 H1 H2 u1 u2 U1 U2 A1 A2). Qed.
Lemma Q_of_law f : exists Q, nth_error (quotients l n1 n2 u1 u2) (idx f) = Some Q /\ near Q (X / law_ratio f N1 N2).
Proof.
  apply (Forall2_nth_r _ _ _ _ _ Qs_near). pose proof (divisors_nth f N1 N2 sz1) as E.
  apply (map_nth_error (fun d => X / d)) in E. exact E.
Qed.
Lemma law_of_Q j Q : nth_error (quotients l n1 n2 u1 u2) j = Some Q -> exists f, idx f = j /\ near Q (X / law_ratio f N1 N2).
Proof.
  intros E. destruct (Forall2_nth _ _ _ _ _ Qs_near E) as (q & Eq & Nq).
  assert (exists d, nth_error (divisors N1 N2) j = Some d /\ q = X / d) as (d & Ed & ->).
  { clear - Eq. revert j Eq. generalize (divisors N1 N2). intros ds. induction ds as [|d ds IH]; intros [|j] E; cbn in *; try discriminate; [injection E as <-; eauto|apply IH; exact E]. }
  destruct (divisors_nth_inv N1 N2 j d sz1 Ed) as (f & Hf & ->). eauto.
Qed.
Lemma rest_ok : (0 + 2 * Z.of_nat (length (quotients l n1 n2 u1 u2)) <= last64 t l u1 u2 (f64_of_int n1) (f64_of_int n2))%Z.
Proof. pose proof (last64_ge t l u1 u2 (f64_of_int n1) (f64_of_int n2)). cbn [length quotients]. lia. Qed.
Let Rp f : 0 < law_ratio f N1 N2. Proof. apply ratio_pos; [exact sz1|exact sz2]. Qed.

Lemma core_low f : X <= (1 + tolR t) * (1 - mg) * law_ratio f N1 N2 -> cle cls (law_class f).
Proof.
  intros HX. destruct (Q_of_law f) as (Q & EQ & NQ). unfold cle, cls. rewrite analyse64_rkF, idx_class.
  pose proof (rkF_upper t _ 0 (last64 t l u1 u2 (f64_of_int n1) (f64_of_int n2)) _ _ EQ) as U.
  assert (T : below t Q = true \/ within t Q = true). { apply (near_low t _ _ NQ). apply div_le_iff; [apply Rp|exact HX]. }
  specialize (U T). lia.
Qed.
Lemma core_high_gen f : (forall g, (idx g <= idx f)%nat -> (1 + tolR t) * (1 + mg) * law_ratio g N1 N2 <= X) -> clt (law_class f) cls.
Proof.
  intros HX. unfold clt, cls. rewrite analyse64_rkF, idx_class.
  assert (G : (0 + 2 * Z.of_nat (idx f) + 2 <= rkF t (quotients l n1 n2 u1 u2) 0 (last64 t l u1 u2 (f64_of_int n1) (f64_of_int n2)))%Z); [|lia].
  apply rkF_beyond.
  - intros j Q Hj E. destruct (law_of_Q j Q E) as (g & Hg & Ng). apply (near_high t _ _ Ng). apply le_div_iff; [apply Rp|]. apply HX. lia.
  - destruct f; cbn; lia.
  - exact rest_ok.
Qed.
Lemma core_high f : sizes_ok n1 n2 -> (1 + tolR t) * (1 + mg) * law_ratio f N1 N2 <= X -> clt (law_class f) cls.
Proof.
  intros S HX. apply core_high_gen. intros g Hg. apply Rle_trans with (2 := HX). apply Rmult_le_compat_l.
  - pose proof (tolR_bounds t). unfold mg. lra.
  - apply ratios_increase; auto; [exact sz1| |apply log_ratio_bounds; exact S]. apply IZR_le. destruct S; lia.
Qed.
Lemma core_exact f : (forall g, (idx g < idx f)%nat -> (1 + tolR t) * (1 + mg) * law_ratio g N1 N2 <= X) ->
  (1 - tolR t) * (1 + mg) * law_ratio f N1 N2 <= X <= (1 + tolR t) * (1 - mg) * law_ratio f N1 N2 -> cls = law_class f.
Proof.
  intros HX [L U]. apply discr_inj. unfold cls. rewrite analyse64_rkF, idx_class. destruct (Q_of_law f) as (Q & EQ & NQ).
  rewrite (rkF_exact t _ _ _ (idx f) Q); [lia| |exact EQ|].
  - intros j Q' Hj E. destruct (law_of_Q j Q' E) as (g & Hg & Ng). apply (near_high t _ _ Ng). apply le_div_iff; [apply Rp|]. apply HX. lia.
  - apply (near_in t _ _ NQ). split; [apply le_div_iff|apply div_le_iff]; auto.
Qed.

Lemma agree_level Q q : near Q q -> away t q ->
  below t Q = Rlt_bool q (1 - tolR t) /\ (below t Q = false -> within t Q = Rle_bool (Rabs (q - 1)) (tolR t)).
Proof.
  intros N A. pose proof (tolR_bounds t) as TB. destruct N as (F & R & P). pose proof (conj F (conj R P)) as N. destruct A as [A|[A|A]].
  - rewrite (near_under t Q q N A). rewrite Rlt_bool_true by (unfold mg in A; lra). split; [reflexivity|discriminate].
  - destruct (near_in t Q q N A) as [-> ->]. unfold mg in A. rewrite Rlt_bool_false by lra. split; [reflexivity|]. intros _. symmetry. apply Rle_bool_true, Rabs_le. lra.
  - destruct (near_high t Q q N A) as [-> ->]. unfold mg in A. rewrite Rlt_bool_false by lra. split; [reflexivity|]. intros _. symmetry. apply Rle_bool_false. rewrite Rabs_pos_eq; lra.
Qed.
Lemma agree_chain qs ds k rest rest' : Forall2 near qs (map (fun d => X / d) ds) -> (forall d, In d ds -> away t (X / d)) ->
  rkF t qs k rest = rk t X ds k rest' \/ (rkF t qs k rest = rest /\ rk t X ds k rest' = rest').
Proof.
  revert qs k. induction ds as [|d ds IH]; intros qs k F A; cbn [map] in F; inversion F as [|Q q qs' qs'' Nq F' Eq1 Eq2]; subst; cbn [rkF rk].
  - right. auto.
  - destruct (agree_level Q (X / d) Nq (A d (or_introl eq_refl))) as [EB EW]. rewrite <- EB. destruct (below t Q) eqn:B; [auto|].
    rewrite <- EW by reflexivity. destruct (within t Q); [auto|]. apply IH; [exact F'|]. intros d' Hd. apply A. right. exact Hd.
Qed.
Lemma core_agree : (forall f, away t (X / law_ratio f N1 N2)) ->
  cls = analyseR t U1 U2 N1 N2 \/ (clt ON4 cls /\ clt ON4 (analyseR t U1 U2 N1 N2)).
Proof.
  intros A. assert (A' : forall d, In d (divisors N1 N2) -> away t (X / d)).
  { intros d Hd. apply In_nth_error in Hd. destruct Hd as [j Hd]. destruct (divisors_nth_inv N1 N2 j d sz1 Hd) as (f & _ & ->). apply A. }
  destruct (agree_chain _ _ 0 (last64 t l u1 u2 (f64_of_int n1) (f64_of_int n2)) (last_level t U1 U2 N1 N2) Qs_near A') as [E|[E1 E2]].
  - left. apply discr_inj. unfold cls. rewrite analyse64_rkF, analyseR_rk. exact E.
  - right. unfold clt, cls. rewrite analyse64_rkF, analyseR_rk. fold X. rewrite E1, E2.
    pose proof (last64_ge t l u1 u2 (f64_of_int n1) (f64_of_int n2)). pose proof (last_level_ge t U1 U2 N1 N2). cbn [discr]. lia.
Qed.

(** noise-tolerant recognition *)
Lemma core_noisy f : 4 <= N1 -> 2 * N1 <= N2 ->
  (f = Llog \/ f = Lnlogn -> 107 / 100 * (1 + tolR t) <= ln N2 / ln N1) ->
  95 / 100 * law_ratio f N1 N2 <= X <= 105 / 100 * law_ratio f N1 N2 -> cls = law_class f.
Proof.
  intros L1 L2 HS [X1 X2]. pose proof (tolR_bounds t) as TB. pose proof (Rp f) as Pf.
  apply core_exact.
  2:{ unfold mg. split; [apply Rle_trans with (2 := X1)|apply Rle_trans with (1 := X2)]; apply Rmult_le_compat_r; nra. }
  intros g Hg. apply Rle_trans with (2 := X1).
  destruct (law_ratio_forms N1 N2 sz1) as (E0 & E1 & E2 & E3 & E4 & E5 & E6). cbv zeta in *.
  pose proof (ratio_log_gap N1 N2 L1 L2) as GAP.
  destruct (log_ratio_bounds_3 N1 N2 ltac:(lra) ltac:(lra)) as [Q1 Q2].
  assert (Hr : 2 <= N2 / N1). { apply le_div_iff; lra. }
  change (ln N2 / ln N1) with (lr N1 N2) in *.
  set (r := N2 / N1) in *. set (q := lr N1 N2) in *.
  assert (R2 : 2 * r <= r ^ 2) by nra.
  assert (R3 : 2 * r ^ 2 <= r ^ 3). { replace (r ^ 3) with (r * r ^ 2) by ring. nra. }
  assert (R4 : 2 * r ^ 3 <= r ^ 4). { replace (r ^ 4) with (r * r ^ 3) by ring. nra. }
  assert (RQ : (4 / 3) * (r * q) <= r ^ 2) by nra.
  assert (QR : 0 < r * q) by nra. assert (RRQ : r <= r * q) by nra.
  assert (TM : (1 + tolR t) * (1 + mg) <= 126 / 100) by (unfold mg; nra).
  assert (TP : 1 <= (1 + tolR t) * (1 + mg)) by (unfold mg; nra).
  assert (LOG : f = Llog \/ f = Lnlogn -> (1 + tolR t) * (1 + mg) <= 95 / 100 * q) by (intros F; specialize (HS F); unfold mg; nra).
  set (T := (1 + tolR t) * (1 + mg)) in *. clearbody T. clear HS.
  assert (P2 : 0 < r ^ 2) by nra. assert (P3 : 0 < r ^ 3) by nra. assert (P4 : 0 < r ^ 4) by nra.
  destruct f; destruct g; cbn [idx] in Hg; try lia; try (specialize (LOG (or_introl eq_refl))); try (specialize (LOG (or_intror eq_refl)));
    rewrite ?E0, ?E1, ?E2, ?E3, ?E4, ?E5, ?E6; nra.
Qed.
End Core.

Lemma analyse64_zero_second t l u1 n1 n2 : is_finite u1 = true -> 0 < B2R u1 -> analyse64 t l u1 (f64_of_int 0) n1 n2 = BetterThanO1.
Proof.
  intros F P. rewrite analyse64_chain. unfold chain, lvl. cbn [first_match]. cbv zeta.
  assert (E : below t (f64_div (f64_of_int 0) u1) = true); [|rewrite E; reflexivity].
  change (f64_of_int 0) with (B754_zero false : f64).
  assert (D : f64_div (B754_zero false) u1 = B754_zero (Bsign u1) \/ f64_div (B754_zero false) u1 = B754_zero (negb (Bsign u1))).
  { destruct u1 as [s|s| |s m e B]; try discriminate; [cbn in P; lra|]. destruct s; cbn; auto. }
  destruct D as [-> | ->]; destruct t; destruct (Bsign u1); vm_compute; reflexivity.
Qed.

(** ** Durations and memory growths as usages *)
Lemma ap_duration d : duration_sane d -> (0 < d)%Z -> ap 2 70 (as_secs_f64 d) (IZR d / 1000000000).
Proof.
  intros S P. destruct (as_secs_spec d S) as [F _]. destruct (as_secs_rel d S) as [_ R]. split; [exact F|]. split; [exact R|].
  destruct S as [S1 S2]. rewrite nps_val in S2. assert (1 <= IZR d) by (apply IZR_le; lia).
  assert (IZR d <= 9007199254740992000000000) by (apply IZR_le; lia).
  split.
  - apply Rle_trans with (bpow radix2 (-30)); [apply bpow_le; lia|]. change (bpow radix2 (-30)) with (/ 1073741824). lra.
  - rewrite bpow70. lra.
Qed.
Lemma ap_growth g : (0 < g < two64)%Z -> ap 2 70 (f64_of_int g) (IZR g).
Proof.
  unfold two64. intros H. destruct (of_int_spec g ltac:(lia)) as [F E]. 
  assert (B : big (IZR g)) by (apply big_IZR; lia). split; [exact F|]. assert (1 <= IZR g) by (apply IZR_le; lia). split.
  - apply rel_weaken with 1%nat; [lra|lia|]. rewrite E. apply rel_rnd. exact B.
  - split.
    + apply Rle_trans with (bpow radix2 0); [apply bpow_le; lia|]. cbn. lra.
    + rewrite bpow70. apply IZR_le. lia.
Qed.
