(** * C06 in binary64: the verdict does not depend on the unit the usages are measured in.

    The theorems of PropsAnalysis.v prove it over the reals; here it is proved for the shipped
    binary64 analyses.  Away from the 2^-40 bands around the decision boundaries: for any two
    pairs of proportional measurements.  Without any exclusion, and for any math library
    whatsoever: for space figures scaled by a power of two (bytes, KiB, MiB, pages, words). *)
From Coq Require Import ZArith Reals Lra Lia Bool List.
From Flocq Require Import Core.Core IEEE754.BinarySingleNaN.
From Verif Require Import Machine Complexity Floats Analysis GrowthSpec AnalysisF64 AnalysisF64b
  AnalysisF64c AnalysisF64d AnalysisF64e AnalysisR AnalysisTable DurationProofs Bridge Bridge2 Bridge3 Bridge4 Demo
  PropsAnalysis PropsBridge.
Import ListNotations.
Open Scope R_scope.

(** same answer, or both beyond O(n^4) (where C06 promises nothing) *)
Definition same_verdict (a b : complexity) : Prop := a = b \/ (clt ON4 a /\ clt ON4 b).

Lemma verdict_split a : cle a ON4 \/ clt ON4 a.
Proof. unfold cle, clt. lia. Qed.

Lemma analyseR_units t (k u1 u2 n1 n2 : R) : 0 < k -> 0 < u1 ->
  same_verdict (analyseR t (k * u1) (k * u2) n1 n2) (analyseR t u1 u2 n1 n2).
Proof.
  intros Hk H1. destruct (verdict_split (analyseR t u1 u2 n1 n2)) as [L|G].
  - left. apply C06_unit_independent; assumption.
  - destruct (verdict_split (analyseR t (k * u1) (k * u2) n1 n2)) as [L'|G'].
    + left. assert (Hk' : 0 < / k) by (apply Rinv_0_lt_compat; exact Hk).
      pose proof (C06_unit_independent t (/ k) (k * u1) (k * u2) n1 n2 Hk' ltac:(apply Rmult_lt_0_compat; assumption) L') as E.
      rewrite <- !Rmult_assoc, !Rinv_l, !Rmult_1_l in E by lra. symmetry. exact E.
    + right. split; assumption.
Qed.

Lemma same_trans a b c : same_verdict a b -> same_verdict b c -> same_verdict a c.
Proof. unfold same_verdict. intros [->|[A B]] [->|[C D]]; auto. Qed.
Lemma same_sym a b : same_verdict a b -> same_verdict b a.
Proof. unfold same_verdict. intros [->|[A B]]; auto. Qed.

(** ** Proportional durations *)
Theorem C06_binary64_time : forall t l (n1 n2 : Z) (t1 t2 t1' t2' : duration),
  libm_accurate l -> size_ok n1 -> size_ok n2 ->
  duration_sane t1 -> (0 < t1)%Z -> duration_sane t2 -> (0 < t2)%Z ->
  duration_sane t1' -> (0 < t1')%Z -> duration_sane t2' -> (0 < t2')%Z ->
  (t2' * t1 = t2 * t1')%Z ->
  (forall f, away t (time_ratio t1 t2 / (law_fun f (IZR n2) / law_fun f (IZR n1)))) ->
  same_verdict (analyse_time_complexity t l n1 n2 t1' t2') (analyse_time_complexity t l n1 n2 t1 t2).
Proof.
  intros t l n1 n2 t1 t2 t1' t2' Hl H1 H2 S1 P1 S2 P2 S1' P1' S2' P2' E A.
  assert (R1 : 0 < IZR t1) by (apply (IZR_lt 0); exact P1). assert (R1' : 0 < IZR t1') by (apply (IZR_lt 0); exact P1').
  apply (f_equal IZR) in E. rewrite !mult_IZR in E.
  assert (K : time_ratio t1' t2' = time_ratio t1 t2).
  { unfold time_ratio. apply (Rmult_eq_reg_r (IZR t1 * IZR t1')); [|apply Rgt_not_eq; apply Rmult_lt_0_compat; assumption].
    field_simplify; [|lra|lra]. lra. }
  pose proof (C70_agrees_time t l n1 n2 t1 t2 Hl H1 H2 S1 P1 S2 P2 A) as Q. cbv zeta in Q.
  rewrite <- K in A.
  pose proof (C70_agrees_time t l n1 n2 t1' t2' Hl H1 H2 S1' P1' S2' P2' A) as Q'. cbv zeta in Q'.
  apply (same_trans _ _ _ Q'). apply same_sym. apply (same_trans _ _ _ Q). apply same_sym.
  assert (X1 : IZR t1' / 1000000000 = IZR t1' / IZR t1 * (IZR t1 / 1000000000)) by (field; lra).
  assert (X2 : IZR t2' / 1000000000 = IZR t1' / IZR t1 * (IZR t2 / 1000000000)).
  { unfold time_ratio in K. apply (Rmult_eq_reg_r (1000000000 * IZR t1)); [|apply Rgt_not_eq; apply Rmult_lt_0_compat; lra].
    field_simplify; [|lra]. lra. }
  rewrite X1, X2. apply analyseR_units; [apply Rdiv_lt_0_compat; assumption|lra].
Qed.
Print Assumptions C06_binary64_time.

(** ** Proportional peak growths *)
Theorem C06_binary64_space : forall b t l (n1 n2 : Z) (m1 m2 m1' m2' : space_pass),
  libm_accurate l -> size_ok n1 -> size_ok n2 ->
  space_ok m1 -> (0 < growth m1)%Z -> space_ok m2 -> (0 < growth m2)%Z ->
  space_ok m1' -> (0 < growth m1')%Z -> space_ok m2' -> (0 < growth m2')%Z ->
  (growth m2' * growth m1 = growth m2 * growth m1')%Z ->
  (forall f, away t (space_ratio m1 m2 / (law_fun f (IZR n2) / law_fun f (IZR n1)))) ->
  exists c c', analyse_space_complexity b t l n1 n2 m1 m2 = Val c /\
               analyse_space_complexity b t l n1 n2 m1' m2' = Val c' /\ same_verdict c' c.
Proof.
  intros b t l n1 n2 m1 m2 m1' m2' Hl H1 H2 S1 P1 S2 P2 S1' P1' S2' P2' E A.
  assert (R1 : 0 < IZR (growth m1)) by (apply (IZR_lt 0); exact P1). assert (R1' : 0 < IZR (growth m1')) by (apply (IZR_lt 0); exact P1').
  apply (f_equal IZR) in E. rewrite !mult_IZR in E.
  assert (K : space_ratio m1' m2' = space_ratio m1 m2).
  { unfold space_ratio. apply (Rmult_eq_reg_r (IZR (growth m1) * IZR (growth m1'))); [|apply Rgt_not_eq; apply Rmult_lt_0_compat; assumption].
    field_simplify; [|lra|lra]. lra. }
  destruct (C70_agrees_space b t l n1 n2 m1 m2 Hl H1 H2 S1 P1 S2 P2 A) as (c & Ec & Q).
  rewrite <- K in A.
  destruct (C70_agrees_space b t l n1 n2 m1' m2' Hl H1 H2 S1' P1' S2' P2' A) as (c' & Ec' & Q').
  exists c, c'. split; [exact Ec|]. split; [exact Ec'|].
  apply (same_trans _ _ _ Q'). apply same_sym. apply (same_trans _ _ _ Q). apply same_sym.
  assert (X1 : IZR (growth m1') = IZR (growth m1') / IZR (growth m1) * IZR (growth m1)) by (field; lra).
  assert (X2 : IZR (growth m2') = IZR (growth m1') / IZR (growth m1) * IZR (growth m2)).
  { apply (Rmult_eq_reg_r (IZR (growth m1))); [|lra]. field_simplify; [|lra]. lra. }
  rewrite X1, X2. apply analyseR_units; [apply Rdiv_lt_0_compat; assumption|exact R1].
Qed.
Print Assumptions C06_binary64_space.

(** the quadratic measurement of C70_example, in units a thousand times smaller *)
Example C06_binary64_example :
  (4000000000 * 1000000 = 4000000 * 1000000000)%Z /\
  duration_sane 1000000000 /\ duration_sane 4000000000 /\ duration_sane 1000000 /\ duration_sane 4000000 /\ size_ok 50 /\ size_ok 100 /\
  (forall f, away Tol10 (time_ratio 1000000 4000000 / (law_fun f (IZR 100) / law_fun f (IZR 50)))).
Proof. split; [reflexivity|]. unfold duration_sane, size_ok, two32. rewrite nps_val. repeat split; try lia. exact C70_example. Qed.

(** ** Powers of two: exact, for any math library *)
Lemma rnd64_scale (x : R) k : 1 <= Rabs x -> (0 <= k)%Z -> rnd64 (x * bpow radix2 k) = rnd64 x * bpow radix2 k.
Proof.
  intros Hx Hk. assert (N : x <> 0) by (intros ->; rewrite Rabs_R0 in Hx; lra).
  assert (Hm : (1 <= mag radix2 x)%Z).
  { apply mag_ge_bpow. exact Hx. }
  unfold round, scaled_mantissa, cexp. rewrite mag_mult_bpow by exact N.
  assert (F0 : SpecFloat.fexp 53 1024 (mag radix2 x) = (mag radix2 x - 53)%Z) by (unfold SpecFloat.fexp, SpecFloat.emin; lia).
  assert (F1 : SpecFloat.fexp 53 1024 (mag radix2 x + k) = (mag radix2 x - 53 + k)%Z) by (unfold SpecFloat.fexp, SpecFloat.emin; lia).
  rewrite F0, F1. unfold F2R. simpl Fnum. simpl Fexp.
  replace (x * bpow radix2 k * bpow radix2 (- (mag radix2 x - 53 + k))) with (x * bpow radix2 (- (mag radix2 x - 53))).
  - rewrite bpow_plus. ring.
  - rewrite Rmult_assoc, <- bpow_plus. do 2 f_equal. lia.
Qed.

Lemma of_int_scale z k : (1 <= z)%Z -> (0 <= k)%Z -> (z * 2 ^ k <= 2 ^ 69)%Z ->
  B2R (f64_of_int (z * 2 ^ k)) = B2R (f64_of_int z) * bpow radix2 k.
Proof.
  intros Hz Hk B. assert (P : (1 <= 2 ^ k)%Z) by (pose proof (Z.pow_pos_nonneg 2 k); lia).
  assert (z <= z * 2 ^ k)%Z by nia.
  destruct (of_int_spec z) as [_ ->]; [lia|]. destruct (of_int_spec (z * 2 ^ k)) as [_ ->]; [lia|].
  rewrite <- rnd64_scale; [|rewrite Rabs_pos_eq by (apply IZR_le; lia); apply IZR_le; lia|exact Hk].
  rewrite mult_IZR. f_equal. f_equal. rewrite (IZR_Zpower radix2) by exact Hk. reflexivity.
Qed.

Lemma div_same (a b a' b' : f64) : is_finite a = true -> is_finite b = true -> is_finite a' = true -> is_finite b' = true ->
  0 < B2R a -> 0 < B2R b -> 0 < B2R a' -> 0 < B2R b' -> B2R a' / B2R b' = B2R a / B2R b -> f64_div a' b' = f64_div a b.
Proof.
  intros Fa Fb Fa' Fb' Pa Pb Pa' Pb' E.
  pose proof (Bdiv_correct 53 1024 _ _ mode_NE a b ltac:(lra)) as D.
  pose proof (Bdiv_correct 53 1024 _ _ mode_NE a' b' ltac:(lra)) as D'.
  change (round_mode mode_NE) with ZnearestE in *. rewrite E in D'.
  assert (Sa : Bsign a = false) by (apply Bsign_pos; assumption). assert (Sb : Bsign b = false) by (apply Bsign_pos; assumption).
  assert (Sa' : Bsign a' = false) by (apply Bsign_pos; assumption). assert (Sb' : Bsign b' = false) by (apply Bsign_pos; assumption).
  rewrite Sa, Sb in D. rewrite Sa', Sb' in D'. unfold f64_div.
  destruct (Rlt_bool _ _).
  - destruct D as (D1 & D2 & D3). destruct D' as (D1' & D2' & D3'). rewrite Fa in D2. rewrite Fa' in D2'.
    apply B2R_Bsign_inj; try congruence. rewrite D3, D3'; [reflexivity| |]; apply fin_not_nan; assumption.
  - apply B2SF_inj. congruence.
Qed.

Lemma of_int_pos z : (1 <= z <= 2 ^ 69)%Z -> is_finite (f64_of_int z) = true /\ 0 < B2R (f64_of_int z).
Proof. intros H. split; [apply of_int_fin; lia|]. pose proof (of_int_ge_1 z H). lra. Qed.

Lemma zero_div (x : f64) : is_finite x = true -> 0 < B2R x -> f64_div (B754_zero false) x = B754_zero false.
Proof.
  intros F P. pose proof (Bsign_pos _ _ x F P) as S. destruct x as [s|s| |s m e H]; try discriminate; cbn in S; subst.
  - cbn in P. lra.
  - reflexivity.
Qed.
Lemma div_zero (x : f64) : is_finite x = true -> 0 < B2R x -> f64_div x (B754_zero false) = B754_infinity false.
Proof.
  intros F P. pose proof (Bsign_pos _ _ x F P) as S. destruct x as [s|s| |s m e H]; try discriminate; cbn in S; subst.
  - cbn in P. lra.
  - reflexivity.
Qed.

Lemma scaled_div a b k : (0 <= a)%Z -> (0 <= b)%Z -> (0 <= k)%Z -> (a * 2 ^ k < two64)%Z -> (b * 2 ^ k < two64)%Z ->
  f64_div (f64_of_int (a * 2 ^ k)) (f64_of_int (b * 2 ^ k)) = f64_div (f64_of_int a) (f64_of_int b).
Proof.
  intros Ha Hb Hk Ba Bb. assert (P : (1 <= 2 ^ k)%Z) by (pose proof (Z.pow_pos_nonneg 2 k); lia).
  change two64 with (2 ^ 64)%Z in *. assert (a <= a * 2 ^ k)%Z by nia. assert (b <= b * 2 ^ k)%Z by nia.
  destruct (Z.eq_dec a 0) as [->|Na]; destruct (Z.eq_dec b 0) as [->|Nb].
  - reflexivity.
  - rewrite Z.mul_0_l, !of_int_zero. destruct (of_int_pos b) as [F Q]; [lia|]. destruct (of_int_pos (b * 2 ^ k)) as [F' Q']; [lia|].
    rewrite !zero_div by assumption. reflexivity.
  - rewrite Z.mul_0_l, !of_int_zero. destruct (of_int_pos a) as [F Q]; [lia|]. destruct (of_int_pos (a * 2 ^ k)) as [F' Q']; [lia|].
    rewrite !div_zero by assumption. reflexivity.
  - destruct (of_int_pos a) as [Fa Qa]; [lia|]. destruct (of_int_pos (a * 2 ^ k)) as [Fa' Qa']; [lia|].
    destruct (of_int_pos b) as [Fb Qb]; [lia|]. destruct (of_int_pos (b * 2 ^ k)) as [Fb' Qb']; [lia|].
    apply div_same; try assumption.
    rewrite (of_int_scale a k), (of_int_scale b k) by lia. pose proof (bpow_gt_0 radix2 k). field. lra.
Qed.

Lemma same_ratio_same_verdict t l u1 u2 u1' u2' n1 n2 : f64_div u2' u1' = f64_div u2 u1 ->
  same_verdict (analyse64 t l u1' u2' n1 n2) (analyse64 t l u1 u2 n1 n2).
Proof.
  intros E. unfold analyse64, analyse_complexity, N64. cbn [n_div n_mul n_sub n_abs n_ltb n_leb n_log2 n_powi n_powf n_one n_three n_tol].
  rewrite E. clear E.
  repeat match goal with
  | |- same_verdict (if ?c then ?a else _) (if ?c then ?a else _) => destruct c; [left; reflexivity|]
  end.
  right. unfold clt. repeat match goal with |- context [if ?c then _ else _] => destruct c end; cbn; lia.
Qed.

Lemma same_ratios_same_resizing t l u1 u2 u1' u2' n : f64_div u2' u1' = f64_div u2 u1 -> f64_div u1' u2' = f64_div u1 u2 ->
  resizing64 t l u1' u2' n = resizing64 t l u1 u2 n.
Proof.
  intros E E'. unfold resizing64, analyse_set_resizing, N64. cbn [n_div n_mul n_sub n_abs n_ltb n_leb n_log2 n_powi n_powf n_one n_three n_tol].
  rewrite E, E'. reflexivity.
Qed.

(** [m1'] and [m2'] grew exactly 2^k times as much as [m1] and [m2] -- no growth at all
    included, any set sizes, any math library, no excluded bands. *)
Theorem C06_powers_of_two_space : forall b t l (n1 n2 k : Z) (m1 m2 m1' m2' : space_pass),
  space_ok m1 -> space_ok m2 -> space_ok m1' -> space_ok m2' -> (0 <= k)%Z ->
  growth m1' = (growth m1 * 2 ^ k)%Z -> growth m2' = (growth m2 * 2 ^ k)%Z ->
  (exists c c', analyse_space_complexity b t l n1 n2 m1 m2 = Val c /\
                analyse_space_complexity b t l n1 n2 m1' m2' = Val c' /\ same_verdict c' c) /\
  (exists c c', analyse_space_complexity_constant_set b t l n1 n2 m1 m2 = Val c /\
                analyse_space_complexity_constant_set b t l n1 n2 m1' m2' = Val c' /\ same_verdict c' c) /\
  (exists c, analyse_space_complexity_set_resizing b t l n1 m1 m2 = Val c /\
             analyse_space_complexity_set_resizing b t l n1 m1' m2' = Val c).
Proof.
  intros b t l n1 n2 k m1 m2 m1' m2' S1 S2 S1' S2' Hk E1 E2.
  unfold analyse_space_complexity, analyse_space_complexity_constant_set, analyse_space_complexity_set_resizing.
  rewrite (max_growth_ok b m1 S1), (max_growth_ok b m2 S2), (max_growth_ok b m1' S1'), (max_growth_ok b m2' S2'). cbn [bind].
  pose proof (growth_bound m1 S1) as G1. pose proof (growth_bound m2 S2) as G2.
  pose proof (growth_bound m1' S1') as G1'. pose proof (growth_bound m2' S2') as G2'. rewrite E1 in *. rewrite E2 in *.
  pose proof (scaled_div (growth m2) (growth m1) k ltac:(lia) ltac:(lia) Hk ltac:(lia) ltac:(lia)) as D.
  pose proof (scaled_div (growth m1) (growth m2) k ltac:(lia) ltac:(lia) Hk ltac:(lia) ltac:(lia)) as D'.
  split; [|split].
  - eexists. eexists. split; [reflexivity|]. split; [reflexivity|]. apply same_ratio_same_verdict. exact D.
  - eexists. eexists. split; [reflexivity|]. split; [reflexivity|]. apply same_ratio_same_verdict. exact D.
  - eexists. split; [reflexivity|]. rewrite (same_ratios_same_resizing _ _ _ _ _ _ _ D D'). reflexivity.
Qed.
Print Assumptions C06_powers_of_two_space.

(** 1000 then 2000 bytes, and the same figures in a unit of 1/1024 byte *)
Example C06_powers_of_two_example :
  let m u := SpacePass 0 u u 0 in
  space_ok (m 1000%Z) /\ space_ok (m 2000%Z) /\ space_ok (m 1024000%Z) /\ space_ok (m 2048000%Z) /\
  growth (m 1024000%Z) = (growth (m 1000%Z) * 2 ^ 10)%Z /\ growth (m 2048000%Z) = (growth (m 2000%Z) * 2 ^ 10)%Z /\
  analyse_space_complexity Debug Tol10 good_libm 1000 2000 (m 1000%Z) (m 2000%Z) = Val ON /\
  analyse_space_complexity Debug Tol10 good_libm 1000 2000 (m 1024000%Z) (m 2048000%Z) = Val ON.
Proof.
  cbv zeta. unfold space_ok, growth. cbn [used_memory_before max_used_memory]. unfold two64.
  assert (K : forall u, (0 < u < 2 ^ 60)%Z ->
    analyse_space_complexity Debug Tol10 good_libm 1000 2000 (SpacePass 0 u u 0) (SpacePass 0 (2 * u) (2 * u) 0) = Val ON).
  { intros u Hu. refine (proj1 (C05_binary64_noisy_space Debug Tol10 good_libm Ln 1000 2000 _ _ accurate_library_exists _ _ _ _ _ _ _ _));
      unfold space_ok, growth; cbn [used_memory_before max_used_memory]; unfold two32, two64; try lia; [intros [?|?]; discriminate|].
    unfold space_ratio, growth, law_fun. cbn [used_memory_before max_used_memory]. rewrite !Z.sub_0_r, mult_IZR.
    assert (0 < IZR u) by (apply (IZR_lt 0); lia). assert (E : 2 * IZR u / IZR u = 2) by (field; lra). rewrite E. lra. }
  repeat (split; [lia|]). split; [exact (K 1000%Z ltac:(lia))|exact (K 1024000%Z ltac:(lia))].
Qed.
