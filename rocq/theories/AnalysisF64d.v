(** * Lifting to the public analyses: durations and byte counts. *)
From Coq Require Import ZArith Reals Lra Lia Bool List Psatz.
From Flocq Require Import Core.Core IEEE754.BinarySingleNaN.
From Verif Require Import Machine Complexity Floats Analysis AnalysisF64 AnalysisF64b AnalysisF64c.
Open Scope R_scope.

(** ** Durations *)
(** 2^53 seconds: about 285 million years *)
Definition duration_sane (d : duration) : Prop := (0 <= d < 2 ^ 53 * nanos_per_sec)%Z.

Lemma nps_val : nanos_per_sec = 1000000000%Z. Proof. reflexivity. Qed.

Lemma plus_fin (x y : f64) : is_finite x = true -> is_finite y = true ->
  Rabs (rnd64 (B2R x + B2R y)) < M64 ->
  is_finite (f64_add x y) = true /\ B2R (f64_add x y) = rnd64 (B2R x + B2R y).
Proof.
  intros Fx Fy H. pose proof (Bplus_correct 53 1024 _ _ mode_NE x y Fx Fy) as D.
  change (round_mode mode_NE) with ZnearestE in D. rewrite Rlt_bool_true in D by exact H.
  destruct D as (D1 & D2 & _). auto.
Qed.

Lemma frac_part r : (0 <= r < nanos_per_sec)%Z ->
  let q := f64_div (f64_of_int r) (f64_of_int nanos_per_sec) in
  is_finite q = true /\ B2R q = rnd64 (IZR r / 1000000000) /\ 0 <= B2R q <= 1.
Proof.
  intros H. rewrite nps_val in *. cbv zeta.
  assert (Fr := of_int_fin r ltac:(lia)).
  assert (Er := of_int_exact r ltac:(lia)). assert (En := of_int_exact 1000000000 ltac:(lia)).
  pose proof (Bdiv_correct 53 1024 _ _ mode_NE (f64_of_int r) (f64_of_int 1000000000)) as D.
  change (round_mode mode_NE) with ZnearestE in D. rewrite Er, En in D. specialize (D ltac:(lra)).
  assert (B : 0 <= IZR r / 1000000000 <= 1).
  { assert (0 <= IZR r <= 1000000000) by (split; apply IZR_le; lia). lra. }
  assert (BR : 0 <= rnd64 (IZR r / 1000000000) <= 1).
  { split; [apply rnd_ge_0; try exact _; lra|]. rewrite <- rnd_1. apply rnd_mono; try exact _; lra. }
  rewrite Rlt_bool_true in D.
  - destruct D as (D1 & D2 & _). rewrite Fr in D2. unfold f64_div. rewrite D1. auto.
  - rewrite Rabs_pos_eq by lra. pose proof M64_big as MB. rewrite bpow70 in MB. lra.
Qed.

Lemma as_secs_spec d : duration_sane d ->
  is_finite (as_secs_f64 d) = true /\
  B2R (as_secs_f64 d) = rnd64 (IZR (d / nanos_per_sec) + rnd64 (IZR (d mod nanos_per_sec) / 1000000000)).
Proof.
  intros [H0 H1]. unfold as_secs_f64.
  assert (Hs : (0 <= d / nanos_per_sec < 2 ^ 53)%Z).
  { split; [apply Z.div_pos; [exact H0|reflexivity]|apply Z.div_lt_upper_bound; [reflexivity|lia]]. }
  assert (Hr : (0 <= d mod nanos_per_sec < nanos_per_sec)%Z) by (apply Z.mod_pos_bound; reflexivity).
  destruct (frac_part _ Hr) as (Fq & Eq & Bq).
  assert (Fs := of_int_fin (d / nanos_per_sec) ltac:(lia)).
  assert (Es := of_int_exact (d / nanos_per_sec) ltac:(lia)).
  rewrite <- Eq, <- Es. apply plus_fin; auto.
  rewrite Es. assert (Bs : 0 <= IZR (d / nanos_per_sec) <= 9007199254740992) by (split; apply IZR_le; lia).
  rewrite Rabs_pos_eq by (apply rnd_ge_0; try exact _; lra).
  apply Rle_lt_trans with (bpow radix2 70); [|apply M64_big].
  apply round_le_generic; try exact _.
  - apply generic_format_bpow. unfold SpecFloat.fexp, SpecFloat.emin. lia.
  - rewrite bpow70. lra.
Qed.

Lemma as_secs_pos_sign d : duration_sane d -> pos_sign (as_secs_f64 d) /\ 0 <= toR64 (as_secs_f64 d).
Proof.
  intros H. destruct (as_secs_spec d H) as [F E].
  assert (Hr : (0 <= d mod nanos_per_sec < nanos_per_sec)%Z) by (apply Z.mod_pos_bound; reflexivity).
  destruct (frac_part _ Hr) as (Fq & Eq & Bq). rewrite Eq in Bq.
  destruct H as [H0 H1].
  assert (Hs : (0 <= d / nanos_per_sec)%Z) by (apply Z.div_pos; [exact H0|reflexivity]).
  assert (Bs := IZR_le _ _ Hs).
  assert (P : 0 <= B2R (as_secs_f64 d)) by (rewrite E; apply rnd_ge_0; try exact _; lra).
  rewrite toR_fin by exact F. split; [|exact P]. split; [apply fin_not_nan; exact F|].
  unfold as_secs_f64 in *.
  set (a := f64_of_int (d / nanos_per_sec)) in *.
  set (q := f64_div (f64_of_int (d mod nanos_per_sec)) (f64_of_int nanos_per_sec)) in *.
  assert (Sa : Bsign a = false).
  { apply of_int_sign. split; [lia|]. apply Z.le_trans with (2^53)%Z; [|lia].
    apply Z.lt_le_incl, Z.div_lt_upper_bound; [reflexivity|lia]. }
  assert (Fa : is_finite a = true).
  { apply of_int_fin. apply Z.le_trans with (2^53)%Z; [|lia].
    rewrite Z.abs_eq by exact Hs.
    apply Z.lt_le_incl, Z.div_lt_upper_bound; [reflexivity|lia]. }
  pose proof (Bplus_correct 53 1024 _ _ mode_NE a q Fa Fq) as D.
  revert D. case Rlt_bool.
  - intros (_ & _ & D). unfold f64_add. rewrite D. rewrite Sa.
    destruct (Rtotal_order (B2R a + B2R q) 0) as [Q|[Q|Q]].
    + exfalso. assert (0 <= B2R a).
      { unfold a. rewrite <- (toR_fin 53 1024) by exact Fa. apply of_int_nonneg.
        split; [exact Hs|]. apply Z.le_trans with (2^53)%Z; [|lia].
        apply Z.lt_le_incl, Z.div_lt_upper_bound; [reflexivity|lia]. }
      rewrite Eq in Q. lra.
    + rewrite Rcompare_Eq by exact Q. reflexivity.
    + rewrite Rcompare_Gt by exact Q. reflexivity.
  - intros (D & _). rewrite overflow_NE in D. apply B2SF_inf in D. unfold f64_add in F. rewrite D in F. discriminate.
Qed.

Lemma as_secs_mono d d' : duration_sane d -> duration_sane d' -> (d <= d')%Z ->
  f64_leb (as_secs_f64 d) (as_secs_f64 d') = true.
Proof.
  intros H H' L. destruct (as_secs_spec d H) as [F E]. destruct (as_secs_spec d' H') as [F' E'].
  apply leb_intro; try exact _; try (apply fin_not_nan; assumption).
  rewrite !toR_fin by assumption. rewrite E, E'. apply rnd_mono; try exact _.
  assert (Hr : (0 <= d mod nanos_per_sec < nanos_per_sec)%Z) by (apply Z.mod_pos_bound; reflexivity).
  assert (Hr' : (0 <= d' mod nanos_per_sec < nanos_per_sec)%Z) by (apply Z.mod_pos_bound; reflexivity).
  destruct (frac_part _ Hr) as (_ & Eq & Bq). destruct (frac_part _ Hr') as (_ & Eq' & Bq').
  rewrite Eq in Bq. rewrite Eq' in Bq'.
  assert (Ls : (d / nanos_per_sec <= d' / nanos_per_sec)%Z) by (apply Z.div_le_mono; [reflexivity|exact L]).
  destruct (Z.eq_dec (d / nanos_per_sec) (d' / nanos_per_sec)) as [Q|Q].
  - rewrite Q. apply Rplus_le_compat_l, rnd_mono; try exact _.
    assert (Lr : (d mod nanos_per_sec <= d' mod nanos_per_sec)%Z).
    { pose proof (Z.div_mod d nanos_per_sec ltac:(discriminate)).
      pose proof (Z.div_mod d' nanos_per_sec ltac:(discriminate)). rewrite Q in *. lia. }
    apply IZR_le in Lr. lra.
  - assert (Lt : (d / nanos_per_sec + 1 <= d' / nanos_per_sec)%Z) by lia.
    apply IZR_le in Lt. rewrite plus_IZR in Lt. lra.
Qed.

Lemma as_secs_pos d : duration_sane d -> (1 <= d)%Z -> 0 < B2R (as_secs_f64 d).
Proof.
  intros H L. destruct (as_secs_spec d H) as [F ->].
  assert (Hr : (0 <= d mod nanos_per_sec < nanos_per_sec)%Z) by (apply Z.mod_pos_bound; reflexivity).
  destruct (frac_part _ Hr) as (_ & Eq & Bq). rewrite Eq in Bq.
  assert (P30 : 0 < bpow radix2 (-30)) by apply bpow_gt_0.
  apply Rlt_le_trans with (1 := P30).
  assert (G : forall k, (-1000 <= k <= 1000)%Z -> generic_format radix2 (SpecFloat.fexp 53 1024) (bpow radix2 k)).
  { intros k Hk. apply generic_format_bpow. unfold SpecFloat.fexp, SpecFloat.emin. lia. }
  apply round_ge_generic; try exact _; [apply G; lia|].
  destruct H as [H0 H1].
  assert (Hs : (0 <= d / nanos_per_sec)%Z) by (apply Z.div_pos; [exact H0|reflexivity]).
  destruct (Z.eq_dec (d / nanos_per_sec) 0) as [Q|Q].
  - rewrite Q. assert (Hd : (d mod nanos_per_sec = d)%Z).
    { pose proof (Z.div_mod d nanos_per_sec ltac:(discriminate)). rewrite Q in *. lia. }
    rewrite Hd. rewrite Rplus_0_l. apply round_ge_generic; try exact _; [apply G; lia|].
    apply IZR_le in L. simpl bpow. lra.
  - assert (1 <= IZR (d / nanos_per_sec)) by (apply IZR_le; lia). simpl bpow. lra.
Qed.

(** ** Byte counts *)
(** A well-formed pass measurement: what the runners build from a successful
    [delta_statistics]. *)
Definition space_ok (m : space_pass) : Prop :=
  (0 <= used_memory_before m <= max_used_memory m /\ max_used_memory m < two64)%Z.
Definition growth (m : space_pass) : Z := (max_used_memory m - used_memory_before m)%Z.

Lemma max_growth_ok b m : space_ok m -> max_growth b m = Val (f64_of_int (growth m)).
Proof.
  intros [H1 H2]. unfold max_growth, usize_sub. rewrite checked_in by lia. reflexivity.
Qed.

Lemma growth_bound m : space_ok m -> (0 <= growth m < two64)%Z.
Proof. intros [H1 H2]. unfold growth. lia. Qed.

Lemma f64_growth_pos m : space_ok m -> (0 < growth m)%Z ->
  is_finite (f64_of_int (growth m)) = true /\ 0 < B2R (f64_of_int (growth m)).
Proof.
  intros H P. pose proof (growth_bound m H) as G. rewrite two64_val in G.
  split; [apply of_int_fin; lia|].
  assert (1 <= B2R (f64_of_int (growth m))) by (apply of_int_ge_1; lia). lra.
Qed.

Lemma f64_growth_sign m : space_ok m -> pos_sign (f64_of_int (growth m)) /\ 0 <= toR64 (f64_of_int (growth m)).
Proof.
  intros H. pose proof (growth_bound m H) as G. rewrite two64_val in G.
  split; [split|].
  - apply fin_not_nan, of_int_fin; lia.
  - apply of_int_sign; lia.
  - apply of_int_nonneg; lia.
Qed.

(** ** C01 at the API *)
Lemma time_mono t l n1 n2 t1 t2 t2' :
  duration_sane t1 -> (0 < t1)%Z -> duration_sane t2 -> duration_sane t2' -> (t2 <= t2')%Z ->
  cle (analyse_time_complexity t l n1 n2 t1 t2) (analyse_time_complexity t l n1 n2 t1 t2').
Proof.
  intros H1 P1 H2 H2' L. apply analyse64_mono.
  - apply as_secs_spec; exact H1.
  - apply as_secs_pos; [exact H1|lia].
  - apply as_secs_pos_sign; exact H2.
  - apply as_secs_mono; assumption.
Qed.

Lemma time_mono_constant t l n1 n2 t1 t2 t2' :
  duration_sane t1 -> (0 < t1)%Z -> duration_sane t2 -> duration_sane t2' -> (t2 <= t2')%Z ->
  cle (analyse_time_complexity_constant_set t l n1 n2 t1 t2)
      (analyse_time_complexity_constant_set t l n1 n2 t1 t2').
Proof.
  intros H1 P1 H2 H2' L. apply analyse64_mono.
  - apply as_secs_spec; exact H1.
  - apply as_secs_pos; [exact H1|lia].
  - apply as_secs_pos_sign; exact H2.
  - apply as_secs_mono; assumption.
Qed.

Lemma time_mono_resizing t l n t1 t2 t2' :
  duration_sane t1 -> (0 < t1)%Z -> duration_sane t2 -> duration_sane t2' -> (t2 <= t2')%Z ->
  cle (analyse_time_complexity_set_resizing t l n t1 t2)
      (analyse_time_complexity_set_resizing t l n t1 t2').
Proof.
  intros H1 P1 H2 H2' L. apply resizing64_mono.
  - apply as_secs_spec; exact H1.
  - apply as_secs_pos; [exact H1|lia].
  - apply as_secs_pos_sign; exact H2.
  - apply as_secs_pos_sign; exact H2'.
  - apply as_secs_mono; assumption.
Qed.

Section Space.
Variables (b : build) (t : tolerance) (l : libm).

Lemma space_vals n1 n2 m1 m2 : space_ok m1 -> space_ok m2 ->
  analyse_space_complexity b t l n1 n2 m1 m2 =
    Val (analyse64 t l (f64_of_int (growth m1)) (f64_of_int (growth m2)) (f64_of_int n1) (f64_of_int n2)) /\
  analyse_space_complexity_constant_set b t l n1 n2 m1 m2 =
    Val (analyse64 t l (f64_of_int (growth m1)) (f64_of_int (growth m2))
           (f64_of_int (Z.min n1 n2)) (f64_of_int (Z.max n1 n2))) /\
  analyse_space_complexity_set_resizing b t l n1 m1 m2 =
    Val (resizing64 t l (f64_of_int (growth m1)) (f64_of_int (growth m2)) (f64_of_int n1)).
Proof.
  intros H1 H2. unfold analyse_space_complexity, analyse_space_complexity_constant_set,
    analyse_space_complexity_set_resizing.
  rewrite (max_growth_ok b m1 H1), (max_growth_ok b m2 H2). cbn [bind]. auto.
Qed.

(** the three space analyses of a pair of passes, in one relation *)
Definition space_result (n1 n2 : Z) (m1 m2 : space_pass) (c : complexity) : Prop :=
  analyse_space_complexity b t l n1 n2 m1 m2 = Val c \/
  analyse_space_complexity_constant_set b t l n1 n2 m1 m2 = Val c \/
  analyse_space_complexity_set_resizing b t l n1 m1 m2 = Val c.

Lemma space_mono n1 n2 m1 m2 m2' :
  space_ok m1 -> (0 < growth m1)%Z -> space_ok m2 -> space_ok m2' -> (growth m2 <= growth m2')%Z ->
  (exists c c', analyse_space_complexity b t l n1 n2 m1 m2 = Val c /\
                analyse_space_complexity b t l n1 n2 m1 m2' = Val c' /\ cle c c') /\
  (exists c c', analyse_space_complexity_constant_set b t l n1 n2 m1 m2 = Val c /\
                analyse_space_complexity_constant_set b t l n1 n2 m1 m2' = Val c' /\ cle c c') /\
  (exists c c', analyse_space_complexity_set_resizing b t l n1 m1 m2 = Val c /\
                analyse_space_complexity_set_resizing b t l n1 m1 m2' = Val c' /\ cle c c').
Proof.
  intros H1 P1 H2 H2' L.
  destruct (space_vals n1 n2 m1 m2 H1 H2) as (A1 & A2 & A3).
  destruct (space_vals n1 n2 m1 m2' H1 H2') as (B1 & B2 & B3).
  destruct (f64_growth_pos m1 H1 P1) as [F1 Q1].
  destruct (f64_growth_sign m2 H2) as [S2 N2]. destruct (f64_growth_sign m2' H2') as [S2' N2'].
  pose proof (growth_bound m2 H2) as G. pose proof (growth_bound m2' H2') as G'. rewrite two64_val in G, G'.
  assert (LL : f64_leb (f64_of_int (growth m2)) (f64_of_int (growth m2')) = true)
    by (apply of_int_mono; lia).
  rewrite A1, A2, A3, B1, B2, B3. repeat split; do 2 eexists; repeat split.
  - apply analyse64_mono; assumption.
  - apply analyse64_mono; assumption.
  - apply resizing64_mono; assumption.
Qed.

Lemma space_equal n1 n2 m1 m2 :
  space_ok m1 -> space_ok m2 -> (0 < growth m1)%Z -> growth m1 = growth m2 ->
  analyse_space_complexity b t l n1 n2 m1 m2 = Val O1 /\
  analyse_space_complexity_constant_set b t l n1 n2 m1 m2 = Val O1 /\
  analyse_space_complexity_set_resizing b t l n1 m1 m2 = Val O1.
Proof.
  intros H1 H2 P E. destruct (space_vals n1 n2 m1 m2 H1 H2) as (A1 & A2 & A3).
  destruct (f64_growth_pos m1 H1 P) as [F Q].
  rewrite A1, A2, A3, <- E. rewrite !analyse64_equal, resizing64_equal by (assumption || lra). auto.
Qed.

(** ** C28: sentinels *)
Lemma sentinel_ok : space_ok sentinel_space.
Proof. unfold space_ok, sentinel_space; simpl. rewrite two64_val. lia. Qed.
Lemma sentinel_growth : growth sentinel_space = (two64 - 1)%Z.
Proof. unfold growth, sentinel_space; simpl. lia. Qed.
Lemma sentinel_max m : space_ok m -> (growth m <= growth sentinel_space)%Z.
Proof. intros H. rewrite sentinel_growth. pose proof (growth_bound m H). lia. Qed.

Lemma sentinel_f64 : f64_of_int (two64 - 1) = f64_scaled 1 64.
Proof.
  apply B2SF_inj. vm_compute. reflexivity.
Qed.

Lemma small_over_sentinel m : space_ok m -> (growth m < 2 ^ 63)%Z ->
  let x := f64_div (f64_of_int (growth m)) (f64_of_int (growth sentinel_space)) in
  below t x = true.
Proof.
  intros H G. cbv zeta. rewrite sentinel_growth, sentinel_f64.
  pose proof (growth_bound m H) as GB. rewrite two64_val in GB.
  assert (F := of_int_fin (growth m) ltac:(lia)).
  assert (FS : is_finite (f64_scaled 1 64) = true) by reflexivity.
  assert (ES : B2R (f64_scaled 1 64) = 18446744073709551616) by (compute_B2R; lra).
  destruct (div_toR 53 1024 _ _ _ _ F FS) as [N E]; [lra|].
  apply below_iff. split; [exact N|]. unfold f64_div. rewrite E, ES.
  pose proof (lo_bounds t) as LB. pose proof M64_big as MB. rewrite bpow70 in MB.
  assert (U : 0 <= B2R (f64_of_int (growth m)) <= bpow radix2 63).
  { split.
    - rewrite <- (toR_fin 53 1024) by exact F. apply of_int_nonneg; lia.
    - destruct (of_int_spec (growth m) ltac:(lia)) as [_ ->].
      apply round_le_generic; try exact _.
      + apply generic_format_bpow. unfold SpecFloat.fexp, SpecFloat.emin. lia.
      + simpl bpow. apply IZR_le. lia. }
  simpl bpow in U.
  assert (R : 0 <= rnd64 (B2R (f64_of_int (growth m)) / 18446744073709551616) <= bpow radix2 (-1)).
  { split; [apply rnd_ge_0; try exact _; lra|]. apply round_le_generic; try exact _.
    - apply generic_format_bpow. unfold SpecFloat.fexp, SpecFloat.emin. lia.
    - simpl bpow. lra. }
  simpl bpow in R. rewrite clamp_in by (rewrite Rabs_pos_eq; lra).
  destruct (Req_dec (B2R (lo64 t)) (/2)) as [Q|Q]; [|lra].
  rewrite lo_R in Q. destruct t; lra.
Qed.
End Space.
