(** * Consequences for the public analyses (durations and byte counts). *)
From Coq Require Import ZArith Reals Lra Lia Bool List Psatz.
From Flocq Require Import Core.Core IEEE754.BinarySingleNaN.
From Verif Require Import Machine Complexity Floats Analysis AnalysisF64 AnalysisF64b AnalysisF64c AnalysisF64d.
Open Scope R_scope.

Lemma as_secs_zero : as_secs_f64 0%Z = f64_of_int 0%Z.
Proof. apply B2SF_inj. vm_compute. reflexivity. Qed.

Lemma as_secs_toR_pos d : duration_sane d -> (0 < d)%Z -> is_nan (as_secs_f64 d) = false /\ 0 < toR64 (as_secs_f64 d).
Proof.
  intros H P. destruct (as_secs_spec d H) as [F _]. split; [apply fin_not_nan; exact F|].
  rewrite toR_fin by exact F. apply as_secs_pos; [exact H|lia].
Qed.

(** ** Size 1 *)
Lemma size_one_any t l u1 u2 n2 : log2_one_ok l -> log2_pos_ok l ->
  is_finite (f64_div u2 u1) = true -> (2 <= n2 < two32)%Z ->
  cle (analyse64 t l u1 u2 (f64_of_int 1%Z) (f64_of_int n2)) BetweenO1AndOLogN.
Proof.
  intros L1 LP F H2. destruct (below t (f64_div u2 u1)) eqn:B.
  { rewrite analyse64_chain. unfold chain, lvl. cbv zeta. cbn [first_match]. rewrite B.
    unfold cle; cbn; lia. }
  destruct (within t (f64_div u2 u1)) eqn:W.
  { rewrite analyse64_chain. unfold chain, lvl. cbv zeta. cbn [first_match]. rewrite B, W.
    unfold cle; cbn; lia. }
  rewrite analyse64_n1_one; auto; [unfold cle; lia|]. red. auto.
Qed.

Lemma size_one_any_resizing t l u1 u2 : log2_one_ok l -> log2_pos_ok l ->
  is_finite (f64_div u2 u1) = true ->
  cle (resizing64 t l u1 u2 (f64_of_int 1%Z)) BetweenO1AndOLogN.
Proof.
  intros L1 LP F. destruct (r1 t u1 u2) eqn:B.
  { rewrite resizing64_unfold. cbv zeta. rewrite B. unfold cle; cbn; lia. }
  destruct (within t (f64_div u2 u1)) eqn:W.
  { rewrite resizing64_unfold. cbv zeta. rewrite B, W. unfold cle; cbn; lia. }
  rewrite resizing64_n_one; auto. unfold cle; lia.
Qed.

Lemma quotient_finite (u1 u2 : f64) : is_finite u1 = true -> is_finite u2 = true ->
  bpow radix2 (-64) <= B2R u1 -> 0 <= B2R u2 <= bpow radix2 66 -> is_finite (f64_div u2 u1) = true.
Proof.
  intros F1 F2 B1 [B2 B2'].
  pose proof (bpow_gt_0 radix2 (-64)) as P.
  pose proof (Bdiv_correct 53 1024 _ _ mode_NE u2 u1 ltac:(lra)) as D.
  change (round_mode mode_NE) with ZnearestE in D.
  assert (Q : 0 <= B2R u2 / B2R u1 <= bpow radix2 130).
  { split; [apply Rmult_le_pos; [exact B2|left; apply Rinv_0_lt_compat; lra]|].
    apply Rmult_le_reg_r with (B2R u1); [lra|].
    replace (B2R u2 / B2R u1 * B2R u1) with (B2R u2) by (field; lra).
    apply Rle_trans with (1 := B2'). replace (bpow radix2 66) with (bpow radix2 130 * bpow radix2 (-64))
      by (rewrite <- bpow_plus; f_equal). apply Rmult_le_compat_l; [apply bpow_ge_0|exact B1]. }
  rewrite Rlt_bool_true in D.
  - destruct D as (_ & D2 & _). rewrite F2 in D2. exact D2.
  - rewrite Rabs_pos_eq by (apply rnd_ge_0; try exact _; lra).
    apply Rle_lt_trans with (bpow radix2 130); [|apply bpow_lt; lia].
    apply round_le_generic; try exact _; [|lra].
    apply generic_format_bpow. unfold SpecFloat.fexp, SpecFloat.emin. lia.
Qed.

Lemma as_secs_range d : duration_sane d -> (0 < d)%Z ->
  bpow radix2 (-64) <= B2R (as_secs_f64 d).
Proof.
  intros H P. destruct (as_secs_spec d H) as [F E].
  assert (L : f64_leb (as_secs_f64 1%Z) (as_secs_f64 d) = true).
  { apply as_secs_mono; [|exact H|lia]. unfold duration_sane. rewrite nps_val. lia. }
  apply leb_true in L; try exact _. destruct L as (_ & _ & L).
  rewrite (toR_fin _ _ (as_secs_f64 d)) in L by exact F.
  rewrite (toR_fin _ _ (as_secs_f64 1%Z)) in L by reflexivity.
  apply Rle_trans with (2 := L). 
  assert (E1 : B2R (as_secs_f64 1%Z) = 4835703278458517 / 4835703278458516698824704) by (compute_B2R; lra).
  rewrite E1. simpl bpow. lra.
Qed.

Lemma as_secs_upper d : duration_sane d -> 0 <= B2R (as_secs_f64 d) <= bpow radix2 66.
Proof.
  intros H. destruct (as_secs_spec d H) as [F E].
  destruct (as_secs_pos_sign d H) as [_ P]. rewrite toR_fin in P by exact F. split; [exact P|].
  set (m := (2 ^ 53 * nanos_per_sec - 1)%Z).
  assert (Hm : duration_sane m) by (unfold duration_sane, m; rewrite nps_val; lia).
  assert (L : f64_leb (as_secs_f64 d) (as_secs_f64 m) = true).
  { apply as_secs_mono; auto. destruct H. unfold m. lia. }
  apply leb_true in L; try exact _. destruct L as (_ & _ & L).
  rewrite (toR_fin _ _ (as_secs_f64 d)) in L by exact F.
  rewrite (toR_fin _ _ (as_secs_f64 m)) in L by reflexivity.
  apply Rle_trans with (1 := L).
  assert (E1 : B2R (as_secs_f64 m) = 9007199254740992) by (unfold m; compute_B2R; lra).
  rewrite E1. simpl bpow. lra.
Qed.

Lemma time_size_one t l n2 t1 t2 : log2_one_ok l -> log2_pos_ok l ->
  duration_sane t1 -> (0 < t1)%Z -> duration_sane t2 -> (2 <= n2 < two32)%Z ->
  cle (analyse_time_complexity t l 1%Z n2 t1 t2) BetweenO1AndOLogN /\
  cle (analyse_time_complexity_constant_set t l 1%Z n2 t1 t2) BetweenO1AndOLogN /\
  cle (analyse_time_complexity_set_resizing t l 1%Z t1 t2) BetweenO1AndOLogN.
Proof.
  intros L1 LP H1 P1 H2 Hn.
  assert (F : is_finite (f64_div (as_secs_f64 t2) (as_secs_f64 t1)) = true).
  { apply quotient_finite; [apply as_secs_spec; assumption|apply as_secs_spec; assumption
                           |apply as_secs_range; assumption|apply as_secs_upper; assumption]. }
  repeat split.
  - apply size_one_any; assumption.
  - unfold analyse_time_complexity_constant_set.
    rewrite Z.min_l, Z.max_r by lia. apply size_one_any; assumption.
  - apply size_one_any_resizing; assumption.
Qed.

Lemma space_size_one b t l n2 m1 m2 : log2_one_ok l -> log2_pos_ok l ->
  space_ok m1 -> (0 < growth m1)%Z -> space_ok m2 -> (2 <= n2 < two32)%Z ->
  (exists c, analyse_space_complexity b t l 1%Z n2 m1 m2 = Val c /\ cle c BetweenO1AndOLogN) /\
  (exists c, analyse_space_complexity_constant_set b t l 1%Z n2 m1 m2 = Val c /\ cle c BetweenO1AndOLogN) /\
  (exists c, analyse_space_complexity_set_resizing b t l 1%Z m1 m2 = Val c /\ cle c BetweenO1AndOLogN).
Proof.
  intros L1 LP H1 P1 H2 Hn. destruct (space_vals b t l 1%Z n2 m1 m2 H1 H2) as (A1 & A2 & A3).
  rewrite A1, A2, A3. rewrite Z.min_l, Z.max_r by lia.
  pose proof (growth_bound m1 H1) as G1. pose proof (growth_bound m2 H2) as G2. rewrite two64_val in G1, G2.
  assert (F : is_finite (f64_div (f64_of_int (growth m2)) (f64_of_int (growth m1))) = true).
  { apply quotient_finite; try (apply of_int_fin; lia).
    - apply Rle_trans with 1; [simpl bpow; lra|]. apply of_int_ge_1. lia.
    - destruct (of_int_spec (growth m2) ltac:(lia)) as [_ ->]. split.
      + apply rnd_ge_0; try exact _. apply IZR_le; lia.
      + apply round_le_generic; try exact _.
        * apply generic_format_bpow. unfold SpecFloat.fexp, SpecFloat.emin. lia.
        * simpl bpow. apply IZR_le. lia. }
  repeat split; eexists; (split; [reflexivity|]).
  - apply size_one_any; assumption.
  - apply size_one_any; assumption.
  - apply size_one_any_resizing; assumption.
Qed.

(** ** Zero usage *)
Lemma time_zero_both t l n1 n2 : powf_zero_ok l -> (1 <= n1 < two32)%Z -> (1 <= n2 < two32)%Z ->
  analyse_time_complexity t l n1 n2 0%Z 0%Z = WorseThanExponential /\
  analyse_time_complexity_constant_set t l n1 n2 0%Z 0%Z = WorseThanExponential /\
  analyse_time_complexity_set_resizing t l n1 0%Z 0%Z = BetweenOLogNAndON.
Proof.
  intros HP H1 H2. unfold analyse_time_complexity, analyse_time_complexity_constant_set,
    analyse_time_complexity_set_resizing. rewrite as_secs_zero. repeat split.
  - apply analyse64_zero_both; assumption.
  - apply analyse64_zero_both; auto; lia.
  - apply resizing64_zero_both.
Qed.

Lemma space_zero_both b t l n1 n2 m1 m2 : powf_zero_ok l -> (1 <= n1 < two32)%Z -> (1 <= n2 < two32)%Z ->
  space_ok m1 -> growth m1 = 0%Z -> space_ok m2 -> growth m2 = 0%Z ->
  analyse_space_complexity b t l n1 n2 m1 m2 = Val WorseThanExponential /\
  analyse_space_complexity_constant_set b t l n1 n2 m1 m2 = Val WorseThanExponential /\
  analyse_space_complexity_set_resizing b t l n1 m1 m2 = Val BetweenOLogNAndON.
Proof.
  intros HP H1 H2 M1 G1 M2 G2. destruct (space_vals b t l n1 n2 m1 m2 M1 M2) as (A1 & A2 & A3).
  rewrite A1, A2, A3, G1, G2. repeat split; f_equal.
  - apply analyse64_zero_both; assumption.
  - apply analyse64_zero_both; auto; lia.
  - apply resizing64_zero_both.
Qed.

Lemma time_zero_first t l n1 n2 t2 : powf_zero_ok l -> log2_sign_ok l -> powi_sign_ok l ->
  (1 <= n1 < two32)%Z -> (1 <= n2 < two32)%Z -> duration_sane t2 -> (0 < t2)%Z ->
  analyse_time_complexity t l n1 n2 0%Z t2 = WorseThanExponential /\
  analyse_time_complexity_constant_set t l n1 n2 0%Z t2 = WorseThanExponential /\
  analyse_time_complexity_set_resizing t l n1 0%Z t2 = BetweenONAndONLogN.
Proof.
  intros HP HL HI H1 H2 M2 P2. destruct (as_secs_toR_pos t2 M2 P2) as [N U].
  unfold analyse_time_complexity, analyse_time_complexity_constant_set,
    analyse_time_complexity_set_resizing. rewrite as_secs_zero. repeat split.
  - apply analyse64_zero_first; assumption.
  - apply analyse64_zero_first; auto; lia.
  - apply resizing64_zero_first; assumption.
Qed.

Lemma space_zero_first b t l n1 n2 m1 m2 : powf_zero_ok l -> log2_sign_ok l -> powi_sign_ok l ->
  (1 <= n1 < two32)%Z -> (1 <= n2 < two32)%Z ->
  space_ok m1 -> growth m1 = 0%Z -> space_ok m2 -> (0 < growth m2)%Z ->
  analyse_space_complexity b t l n1 n2 m1 m2 = Val WorseThanExponential /\
  analyse_space_complexity_constant_set b t l n1 n2 m1 m2 = Val WorseThanExponential /\
  analyse_space_complexity_set_resizing b t l n1 m1 m2 = Val BetweenONAndONLogN.
Proof.
  intros HP HL HI H1 H2 M1 G1 M2 G2. destruct (space_vals b t l n1 n2 m1 m2 M1 M2) as (A1 & A2 & A3).
  rewrite A1, A2, A3, G1. destruct (f64_growth_pos m2 M2 G2) as [F U].
  assert (N : is_nan (f64_of_int (growth m2)) = false) by (apply fin_not_nan; exact F).
  assert (U' : 0 < toR64 (f64_of_int (growth m2))) by (rewrite toR_fin by exact F; exact U).
  repeat split; f_equal.
  - apply analyse64_zero_first; assumption.
  - apply analyse64_zero_first; auto; lia.
  - apply resizing64_zero_first; assumption.
Qed.

Lemma time_zero t l n1 n2 t2 : powf_zero_ok l -> log2_sign_ok l -> powi_sign_ok l ->
  (1 <= n1 < two32)%Z -> (1 <= n2 < two32)%Z -> duration_sane t2 ->
  analyse_time_complexity t l n1 n2 0%Z t2 = WorseThanExponential /\
  analyse_time_complexity_constant_set t l n1 n2 0%Z t2 = WorseThanExponential /\
  analyse_time_complexity_set_resizing t l n1 0%Z t2 =
    (if (t2 =? 0)%Z then BetweenOLogNAndON else BetweenONAndONLogN).
Proof.
  intros A B C H1 H2 H. destruct (Z.eqb_spec t2 0) as [->|N].
  - apply time_zero_both; assumption.
  - apply time_zero_first; auto. destruct H; lia.
Qed.

(** ** Sentinels *)
Lemma sentinel_first b t l n1 n2 m2 : space_ok m2 -> (growth m2 < 2 ^ 63)%Z ->
  analyse_space_complexity b t l n1 n2 sentinel_space m2 = Val BetterThanO1 /\
  analyse_space_complexity_constant_set b t l n1 n2 sentinel_space m2 = Val BetterThanO1 /\
  analyse_space_complexity_set_resizing b t l n1 sentinel_space m2 = Val BetterThanO1.
Proof.
  intros M2 G2. destruct (space_vals b t l n1 n2 sentinel_space m2 sentinel_ok M2) as (A1 & A2 & A3).
  rewrite A1, A2, A3. pose proof (small_over_sentinel t m2 M2 G2) as B. cbv zeta in B.
  repeat split; f_equal; try (rewrite analyse64_chain; unfold chain, lvl; cbv zeta; cbn [first_match];
    rewrite B; reflexivity).
  rewrite resizing64_unfold. cbv zeta.
  destruct (r1 t (f64_of_int (growth sentinel_space)) (f64_of_int (growth m2))) eqn:R; [reflexivity|exfalso].
  assert (PS : (0 < growth sentinel_space)%Z) by (rewrite sentinel_growth, two64_val; lia).
  destruct (f64_growth_pos _ sentinel_ok PS) as [FS QS].
  destruct (f64_growth_sign m2 M2) as [S2 _].
  pose proof (not_better_gap t _ _ FS QS S2 R) as NB.
  apply below_iff in B. destruct B as [N B].
  pose proof (lo_bounds t) as LB.
  (* x <= 1/2 here *)
  set (x := f64_div (f64_of_int (growth m2)) (f64_of_int (growth sentinel_space))) in *.
  set (half := f64_scaled 1%Z (-1)%Z).
  assert (HX : f64_leb x half = true).
  { apply leb_intro; try exact _; [exact N|reflexivity|].
    rewrite (toR_fin _ _ half) by reflexivity. 
    assert (EH : B2R half = 1/2) by (unfold half; compute_B2R; lra). rewrite EH.
    unfold x. rewrite sentinel_growth, sentinel_f64.
    pose proof (growth_bound m2 M2) as GB. rewrite two64_val in GB.
    assert (F := of_int_fin (growth m2) ltac:(lia)).
    assert (FS' : is_finite (f64_scaled 1%Z 64%Z) = true) by reflexivity.
    assert (ES : B2R (f64_scaled 1%Z 64%Z) = 18446744073709551616) by (compute_B2R; lra).
    destruct (div_toR 53 1024 _ _ _ _ F FS') as [N' E]; [lra|].
    unfold f64_div. rewrite E, ES.
    assert (U : B2R (f64_of_int (growth m2)) <= bpow radix2 63).
    { destruct (of_int_spec (growth m2) ltac:(lia)) as [_ ->].
      apply round_le_generic; try exact _.
      - apply generic_format_bpow. unfold SpecFloat.fexp, SpecFloat.emin. lia.
      - simpl bpow. apply IZR_le. lia. }
    assert (U0 : 0 <= B2R (f64_of_int (growth m2))).
    { rewrite <- (toR_fin 53 1024) by exact F. apply of_int_nonneg; lia. }
    simpl bpow in U.
    assert (RR : 0 <= rnd64 (B2R (f64_of_int (growth m2)) / 18446744073709551616) <= bpow radix2 (-1)).
    { split; [apply rnd_ge_0; try exact _; lra|]. apply round_le_generic; try exact _.
      - apply generic_format_bpow. unfold SpecFloat.fexp, SpecFloat.emin. lia.
      - simpl bpow. lra. }
    simpl bpow in RR. pose proof M64_big as MB. rewrite bpow70 in MB.
    rewrite clamp_in by (rewrite Rabs_pos_eq; lra). lra. }
  apply sub_one_mono in HX.
  assert (EM : toR64 (f64_sub half one64) = - (1/2)).
  { rewrite toR_fin by reflexivity. unfold half. compute_B2R. lra. }
  pose proof (tol_bounds t). lra.
Qed.

Lemma sentinel_second b t l n1 n2 m1 m2 : space_ok m1 -> (0 < growth m1)%Z -> space_ok m2 ->
  (exists c s, analyse_space_complexity b t l n1 n2 m1 m2 = Val c /\
     analyse_space_complexity b t l n1 n2 m1 sentinel_space = Val s /\ cle c s) /\
  (exists c s, analyse_space_complexity_constant_set b t l n1 n2 m1 m2 = Val c /\
     analyse_space_complexity_constant_set b t l n1 n2 m1 sentinel_space = Val s /\ cle c s) /\
  (exists c s, analyse_space_complexity_set_resizing b t l n1 m1 m2 = Val c /\
     analyse_space_complexity_set_resizing b t l n1 m1 sentinel_space = Val s /\ cle c s).
Proof.
  intros H1 P1 H2. apply space_mono; auto using sentinel_ok. apply sentinel_max; exact H2.
Qed.

Lemma sentinel_both b t l n1 n2 :
  analyse_space_complexity b t l n1 n2 sentinel_space sentinel_space = Val O1 /\
  analyse_space_complexity_constant_set b t l n1 n2 sentinel_space sentinel_space = Val O1 /\
  analyse_space_complexity_set_resizing b t l n1 sentinel_space sentinel_space = Val O1.
Proof.
  apply space_equal; auto using sentinel_ok. rewrite sentinel_growth, two64_val. lia.
Qed.

(** ** Sizes 0 and 0 *)
Lemma time_zero_sizes t l t1 t2 : powf_nan_ok l -> log2_zero_ok l -> powi_nan_ok l ->
  duration_sane t1 -> (0 < t1)%Z -> duration_sane t2 ->
  List.In (analyse_time_complexity_constant_set t l 0%Z 0%Z t1 t2) (BetterThanO1 :: O1 :: WorseThanExponential :: nil).
Proof.
  intros A B C H1 P1 H2. unfold analyse_time_complexity_constant_set. rewrite Z.min_id, Z.max_id.
  rewrite analyse64_zero_sizes; auto.
  - destruct (below _ _); [left; reflexivity|]. destruct (within _ _); right; [left|right; left]; reflexivity.
  - apply as_secs_spec; exact H1.
  - apply as_secs_pos; [exact H1|lia].
  - apply fin_not_nan, as_secs_spec; exact H2.
Qed.

Lemma space_zero_sizes b t l m1 m2 : powf_nan_ok l -> log2_zero_ok l -> powi_nan_ok l ->
  space_ok m1 -> (0 < growth m1)%Z -> space_ok m2 ->
  exists c, analyse_space_complexity_constant_set b t l 0%Z 0%Z m1 m2 = Val c /\
            List.In c (BetterThanO1 :: O1 :: WorseThanExponential :: nil).
Proof.
  intros A B C H1 P1 H2. destruct (space_vals b t l 0%Z 0%Z m1 m2 H1 H2) as (_ & E & _).
  rewrite Z.min_id, Z.max_id in E. eexists; split; [exact E|].
  destruct (f64_growth_pos m1 H1 P1) as [F Q].
  rewrite analyse64_zero_sizes; auto.
  - destruct (below _ _); [left; reflexivity|]. destruct (within _ _); right; [left|right; left]; reflexivity.
  - apply fin_not_nan. pose proof (growth_bound m2 H2) as G. rewrite two64_val in G. apply of_int_fin; lia.
Qed.
