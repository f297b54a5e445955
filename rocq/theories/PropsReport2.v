(** * Theorems C55 (summary), C56 (texts), C67 (rounding), C73-C75: what the cells,
    rows and labels of the reports show. *)
From Coq Require Import ZArith Reals Lra Lia Bool List String Psatz.
From Flocq Require Import Core.Core IEEE754.BinarySingleNaN Sterbenz Relative.
From Verif Require Import Machine Complexity Floats Analysis AnalysisF64 AnalysisF64b AnalysisF64d AllocSpec Report ReportProofs
  DurationProofs PropsDuration PropsReport.
Import ListNotations.
Open Scope Z_scope.

(** ** C56: the texts *)
(** the growth laws the library knows, best first, in the notation of its reports *)
Definition law_names : list string :=
  ["O(1)"; "O(log(n))"; "O(n)"; "O(n.log(n))"; "O(n²)"; "O(n³)"; "O(n⁴)"; "O(kⁿ)"]%string.

(** Position [2k+1] of the order is the k-th law and is labelled by its name; position
    [2k+2] is strictly between two consecutive laws and its label names both; the two ends
    are labelled "Better than" the first law and "Worse than" the last. *)
Theorem C56_label_texts : forall i c, nth_error best_to_worst i = Some c ->
  (i = 0%nat -> as_pretty_str c = ("Better than " ++ nth 0 law_names "")%string) /\
  (forall k, i = (2 * k + 1)%nat -> as_pretty_str c = nth k law_names ""%string) /\
  (forall k, i = (2 * k + 2)%nat -> (k < 7)%nat ->
     as_pretty_str c = ("Worse than " ++ nth k law_names "" ++ ", but better than " ++ nth (k + 1) law_names "")%string) /\
  (i = 16%nat -> as_pretty_str c = ("Worse than " ++ nth 7 law_names "")%string).
Proof.
  intros i c H.
  do 17 (destruct i as [|i]; [cbn in H; injection H as <-;
    (split; [intros E; (discriminate E || reflexivity)|]); (split; [intros k E; do 8 (destruct k as [|k]; [try (exfalso; lia); reflexivity|]); exfalso; lia|]);
    (split; [intros k E L; do 7 (destruct k as [|k]; [try (exfalso; lia); reflexivity|]); exfalso; lia|]); intros E; (discriminate E || reflexivity)|]).
  cbn in H. destruct i; discriminate.
Qed.
Print Assumptions C56_label_texts.

(** the time and space labels only differ from the plain ones at the two ends of the order,
    where they add advice after the class *)
Theorem C56_time_and_space_labels : forall c,
  (c <> BetterThanO1 -> c <> WorseThanExponential ->
     as_time_pretty_str c = as_pretty_str c /\ as_space_pretty_str c = as_pretty_str c) /\
  as_time_pretty_str BetterThanO1 = (as_pretty_str BetterThanO1 ++ " -- aren't the machines idle? too many threads? too little RAM?")%string /\
  as_space_pretty_str BetterThanO1 = (as_pretty_str BetterThanO1 ++ " -- are initialization allocations involved? Consider using a warm up pass")%string /\
  as_time_pretty_str WorseThanExponential = ("Worse than Exponential!! -- worse than " ++ nth 7 law_names "" ++
     " -- really, really bad algorithm, too short execution times or is there a hidden bug?")%string /\
  as_space_pretty_str WorseThanExponential = ("Worse than Exponential!! -- worse than " ++ nth 7 law_names "" ++
     " -- really, really bad algorithm or is there a hidden bug?")%string.
Proof.
  intros c. split; [|repeat split; reflexivity].
  intros A B. destruct c; try (split; reflexivity); congruence.
Qed.
Print Assumptions C56_time_and_space_labels.

(** ** C67: seconds to nanoseconds: the nearest, ties to the even one *)
Lemma round_half_even_tie a d : 0 < d ->
  2 * Z.abs (a - d * round_half_even a d) <= d /\
  (2 * Z.abs (a - d * round_half_even a d) = d -> Z.even (round_half_even a d) = true).
Proof.
  intros Hd. unfold round_half_even. cbv zeta.
  pose proof (Z.div_mod a d ltac:(lia)) as E. pose proof (Z.mod_pos_bound a d Hd) as B.
  set (q := a / d) in *. set (r := a mod d) in *.
  destruct (Z.ltb_spec (2 * r) d) as [L|L].
  - replace (a - d * q) with r by lia. split; lia.
  - destruct (Z.ltb_spec d (2 * r)) as [G|G].
    + replace (a - d * (q + 1)) with (r - d) by lia. split; lia.
    + assert (2 * r = d) by lia. destruct (Z.even q) eqn:V.
      * replace (a - d * q) with r by lia. split; [lia|auto].
      * replace (a - d * (q + 1)) with (r - d) by lia. split; [lia|]. intros _.
        rewrite Z.even_add, V. reflexivity.
Qed.

Theorem C67_seconds_to_nanoseconds : forall x : f64, is_finite x = true -> (0 <= B2R x <= bpow radix2 63)%R ->
  exists ns, from_secs_f64 x = Val ns /\
    (Rabs (IZR ns - B2R x * 1000000000) <= / 2)%R /\
    ((Rabs (IZR ns - B2R x * 1000000000) = / 2)%R -> Z.even ns = true).
Proof.
  intros x F B. destruct (from_secs_spec x F B) as (v & E & _ & A). exists v. split; [exact E|]. split; [exact A|]. clear A.
  destruct x as [s|s| |s m e Hm]; try discriminate.
  - injection E as <-. cbn [B2R]. intros H. rewrite Rmult_0_l, Rminus_0_r, Rabs_R0 in H. lra.
  - destruct s; [discriminate|]. cbn [from_secs_f64] in E.
    unfold B2R, F2R. cbn [Fnum Fexp cond_Zopp].
    destruct (Z.leb_spec 0 e) as [P|P].
    + destruct (_ <? _) in E; [|discriminate]. apply val_inj in E. subst v.
      rewrite !mult_IZR. change (IZR (2 ^ e)) with (IZR (radix_val radix2 ^ e)). rewrite (IZR_Zpower radix2 e P).
      change (IZR nanos_per_sec) with 1000000000%R. intros H.
      replace (IZR (Z.pos m) * bpow radix2 e * 1000000000 - IZR (Z.pos m) * bpow radix2 e * 1000000000)%R with 0%R in H by ring.
      rewrite Rabs_R0 in H. lra.
    + assert (Pd : 0 < 2 ^ (- e)) by (apply Z.pow_pos_nonneg; lia).
      destruct (_ <? _) in E; [|discriminate]. apply val_inj in E.
      destruct (round_half_even_tie (Z.pos m * nanos_per_sec) (2 ^ (- e)) Pd) as [_ T]. rewrite E in T.
      intros H. apply T. apply eq_IZR. rewrite mult_IZR, abs_IZR, minus_IZR, !mult_IZR.
      change (2 ^ (- e)) with (radix_val radix2 ^ (- e)). rewrite !(IZR_Zpower radix2 (- e)) by lia.
      change (IZR nanos_per_sec) with 1000000000%R.
      assert (I : (bpow radix2 e * bpow radix2 (- e) = 1)%R) by (rewrite <- bpow_plus; replace (e + - e) with 0 by lia; reflexivity).
      pose proof (bpow_gt_0 radix2 (- e)) as G.
      replace (IZR (Z.pos m) * 1000000000 - bpow radix2 (- e) * IZR v)%R
        with (- ((IZR v - IZR (Z.pos m) * bpow radix2 e * 1000000000) * bpow radix2 (- e)))%R.
      * rewrite Rabs_Ropp, Rabs_mult, H, (Rabs_pos_eq (bpow radix2 (- e))) by lra. lra.
      * rewrite Rmult_minus_distr_r. replace (IZR (Z.pos m) * bpow radix2 e * 1000000000 * bpow radix2 (- e))%R
          with (IZR (Z.pos m) * 1000000000 * (bpow radix2 e * bpow radix2 (- e)))%R by ring. rewrite I. ring.
Qed.
Print Assumptions C67_seconds_to_nanoseconds.
(** 2^-10 s + a half: 976562.5 ns is a tie and goes to the even 976562; 3*2^-10 s = 2929687.5 ns to 2929688 *)
Example C67_tie : from_secs_f64 (f64_div (f64_of_int 1) (f64_of_int 1024)) = Val 976562
  /\ from_secs_f64 (f64_div (f64_of_int 3) (f64_of_int 1024)) = Val 2929688.
Proof. split; vm_compute; reflexivity. Qed.

(** ** C73: a memory cell *)
(** the largest distance the memory in use got from where it was when the pass started *)
Definition largest_swing (m : space_pass) : Z :=
  Z.max (max_used_memory m - used_memory_before m) (used_memory_before m - min_used_memory m).

Section Cell.
Open Scope R_scope.
Lemma babs_pos (x : f32) : 0 < B2R x -> Babs x = x.
Proof. destruct x as [s|s| |s m e H]; cbn [B2R Babs]; try lra; intros P. destruct s; [|reflexivity].
  exfalso. unfold F2R in P. cbn [Fnum Fexp cond_Zopp Z.opp] in P. pose proof (bpow_gt_0 radix2 e).
  assert (IZR (Z.neg m) < 0) by (apply IZR_lt; lia). nra. Qed.

(** the unit and the value shown for a finite amount *)
Lemma unit_value (x : f32) : is_finite x = true -> 0 <= B2R x ->
  in_unit (sh_unit (human_readable x)) (B2R (sh_value (human_readable x)))
  /\ (B2R (sh_value (human_readable x)) * unit_bytes (sh_unit (human_readable x)) = B2R x)%R.
Proof.
  intros F P.
  destruct (pow2_32 10 ltac:(lia)) as [F10 E10]. destruct (pow2_32 20 ltac:(lia)) as [F20 E20]. destruct (pow2_32 30 ltac:(lia)) as [F30 E30].
  change (f32_of_int (2 ^ 10)) with kib in *. change (f32_of_int (2 ^ 20)) with mib in *. change (f32_of_int (2 ^ 30)) with gib in *.
  assert (LT : forall y k, is_finite y = true -> B2R y = bpow radix2 k -> f32_ltb y x = true <-> (bpow radix2 k < B2R x)%R).
  { intros y k Fy Ey. unfold f32_ltb. split; intros L.
    - apply ltb_true in L; try exact _. destruct L as (_ & _ & L). rewrite !toR_fin in L by assumption. lra.
    - apply ltb_intro; try exact _; try (apply fin_not_nan; assumption). rewrite !toR_fin by assumption. lra. }
  assert (V10 : bpow radix2 10 = 1024%R) by (simpl; lra).
  assert (V20 : bpow radix2 20 = 1048576%R) by (simpl; lra).
  assert (V30 : bpow radix2 30 = 1073741824%R) by (simpl; lra).
  assert (DIV : forall k y, (0 <= k <= 64)%Z -> y = f32_of_int (2 ^ k) -> (bpow radix2 k < B2R x)%R -> B2R (f32_div x y) = (B2R x / bpow radix2 k)%R).
  { intros k y Hk -> L. apply div_pow2_exact; try assumption. rewrite Rabs_pos_eq by exact P. exact L. }
  pose proof (LT gib 30%Z F30 E30) as L30. pose proof (LT mib 20%Z F20 E20) as L20. pose proof (LT kib 10%Z F10 E10) as L10.
  unfold human_readable. cbn [sh_unit sh_value].
  destruct (f32_ltb gib x).
  - assert (L := proj1 L30 eq_refl). rewrite (DIV 30%Z gib) by (lia || reflexivity || exact L).
    unfold in_unit, unit_bytes. cbn [String.eqb Ascii.eqb Bool.eqb]. rewrite V30 in *. split; [|field].
    right; right; right. split; [reflexivity|]. lra.
  - assert (N30 : ~ (bpow radix2 30 < B2R x)%R) by (intros L; apply L30 in L; discriminate).
    destruct (f32_ltb mib x).
    + assert (L := proj1 L20 eq_refl). rewrite (DIV 20%Z mib) by (lia || reflexivity || exact L).
      unfold in_unit, unit_bytes. cbn [String.eqb Ascii.eqb Bool.eqb]. rewrite V20, V30 in *. split; [|field].
      right; right; left. split; [reflexivity|]. lra.
    + assert (N20 : ~ (bpow radix2 20 < B2R x)%R) by (intros L; apply L20 in L; discriminate).
      destruct (f32_ltb kib x).
      * assert (L := proj1 L10 eq_refl). rewrite (DIV 10%Z kib) by (lia || reflexivity || exact L).
        unfold in_unit, unit_bytes. cbn [String.eqb Ascii.eqb Bool.eqb]. rewrite V10, V20 in *. split; [|field].
        right; left. split; [reflexivity|]. lra.
      * assert (N10 : ~ (bpow radix2 10 < B2R x)%R) by (intros L; apply L10 in L; discriminate).
        unfold in_unit, unit_bytes. cbn [String.eqb Ascii.eqb Bool.eqb]. rewrite V10 in *. split; [|ring].
        left. split; [reflexivity|]. lra.
Qed.

(** the amount a cell renders, as a float *)
Definition amount32 (m : space_pass) (n : Z) : f32 := f32_div (f32_of_int (largest_swing m)) (f32_of_int n).

Lemma gib_val : is_finite gib = true /\ B2R gib = bpow radix2 30.
Proof. exact (pow2_32 30 ltac:(lia)). Qed.

Lemma fmt_cell b m n s : well_formed m -> (0 <= n < two32)%Z -> fmt_over_n b m n = Val s ->
  let h := human_readable (Babs (amount32 m n)) in
  sh_unit s = sh_unit h /\ sh_value s = sh_value h /\
  sh_decimals s = if f32_ltb (f32_abs (f32_sub (f32_round (sh_value h)) (sh_value h))) f32_milli && String.eqb (sh_unit h) "b" then 0%nat else 2%nat.
Proof.
  intros W Hn H. cbv zeta. unfold fmt_over_n in H. cbv zeta in H. unfold well_formed in W. rewrite two64_val in W. unfold usize_sub in H.
  rewrite checked_in in H by (rewrite two64_val; lia). cbn [bind] in H. rewrite checked_in in H by (rewrite two64_val; lia). cbn [bind] in H.
  apply val_inj in H. rewrite <- H. clear H s. cbn [sh_unit sh_value sh_decimals].
  fold (largest_swing m). fold (amount32 m n). set (x := amount32 m n). unfold f32_abs.
  assert (E : (if f32_ltb gib (Babs x) then f32_div x gib else if f32_ltb mib (Babs x) then f32_div (Babs x) mib
               else if f32_ltb kib (Babs x) then f32_div (Babs x) kib else Babs x) = sh_value (human_readable (Babs x))
           \/ (Bsign x = true /\ is_nan x = false)).
  { destruct x as [[]|[]| |[] mm ee Hx]; cbn [Bsign is_nan]; auto. }
  destruct E as [E|[S N]].
  - rewrite E. repeat split; reflexivity.
  - exfalso. unfold x, amount32 in S, N.
    assert (Sg : forall a c : f32, is_nan a = false -> Bsign a = false -> is_nan c = false -> Bsign c = false -> Bsign (f32_div a c) = false \/ is_nan (f32_div a c) = true).
    { intros a c Na Sa Nc Sc.
      destruct a as [[]|[]| |[] ma ea Ha]; try discriminate; destruct c as [[]|[]| |[] mc ec Hc]; try discriminate; try (left; reflexivity); try (right; reflexivity).
      left. pose proof (Bdiv_correct 24 128 _ _ mode_NE (B754_finite false ma ea Ha) (B754_finite false mc ec Hc)) as D.
      assert (Z : B2R (B754_finite false mc ec Hc) <> 0) by (cbn [B2R]; apply Rgt_not_eq, F2R_gt_0; reflexivity).
      specialize (D Z). change (Bdiv mode_NE (B754_finite false ma ea Ha) (B754_finite false mc ec Hc)) with (f32_div (B754_finite false ma ea Ha) (B754_finite false mc ec Hc)) in D.
      set (z := f32_div (B754_finite false ma ea Ha) (B754_finite false mc ec Hc)) in *. clearbody z.
      destruct (Rlt_bool _ _) in D.
      - destruct D as (_ & D1 & D2). cbn [Bsign xorb] in D2. apply D2. apply fin_not_nan. rewrite D1. reflexivity.
      - destruct z as [|sg| |]; cbn in D; try discriminate. cbn. congruence. }
    assert (Pos : forall z, (0 <= z < 18446744073709551616)%Z -> is_nan (f32_of_int z) = false /\ Bsign (f32_of_int z) = false).
    { intros z Hz. destruct (of_int32_spec z) as [F E]; [lia|]. split; [apply fin_not_nan; exact F|].
      pose proof (binary_normalize_correct 24 128 _ _ mode_NE z 0 false) as H. cbv zeta in H.
      change (round_mode mode_NE) with ZnearestE in H.
      assert (E0 : F2R (Float radix2 z 0) = IZR z) by (unfold F2R; simpl; ring). rewrite E0 in H.
      rewrite Rlt_bool_true in H.
      - destruct H as (_ & _ & H). unfold f32_of_int. rewrite H. destruct (Z.eq_dec z 0) as [->|Nz].
        + rewrite Rcompare_Eq; reflexivity.
        + rewrite Rcompare_Gt; [reflexivity|]. apply IZR_lt. lia.
      - rewrite <- E. apply abs_B2R_lt_emax. }
    rewrite two32_val in Hn.
    destruct (Pos (largest_swing m)) as [P1 P2]; [unfold largest_swing; lia|]. destruct (Pos n ltac:(lia)) as [P3 P4].
    destruct (Sg _ _ P1 P2 P3 P4) as [X|X]; congruence.
Qed.

Definition u32f : R := / 16777216.
Lemma rel32 x : x = 0 \/ bpow radix2 (-100) <= x -> exists e, rnd32 x = x * e /\ 1 - u32f <= e <= 1 + u32f.
Proof.
  intros [->|H].
  - exists 1. rewrite round_0 by apply valid_rnd_N. unfold u32f. lra.
  - pose proof (bpow_gt_0 radix2 (-100)) as P. change (SpecFloat.fexp 24 128) with (FLT_exp (SpecFloat.emin 24 128) 24).
    pose proof (relative_error_N_FLT radix2 (SpecFloat.emin 24 128) 24 ltac:(reflexivity) (fun z => negb (Z.even z)) x) as E.
    rewrite Rabs_pos_eq in E by lra. specialize (E ltac:(apply Rle_trans with (2 := H); apply bpow_le; unfold SpecFloat.emin; lia)).
    apply Rabs_le_inv in E.
    assert (EQ : / 2 * bpow radix2 (Z.opp 24 + 1) = u32f).
    { change (bpow radix2 (Z.opp 24 + 1)) with (/ 8388608). unfold u32f. lra. }
    rewrite EQ in E.
    set (r := round _ _ _ x) in *. exists (r / x). split; [field; lra|].
    assert (I : 0 < / x) by (apply Rinv_0_lt_compat; lra). assert (X : x * / x = 1) by (field; lra).
    unfold Rdiv. split; nra.
Qed.

Lemma amount32_spec m n : well_formed m -> (1 <= n < two32)%Z ->
  is_finite (amount32 m n) = true /\ 0 <= B2R (amount32 m n) /\
  B2R (amount32 m n) = rnd32 (rnd32 (IZR (largest_swing m)) / rnd32 (IZR n)) /\
  Rabs (B2R (amount32 m n) - IZR (largest_swing m) / IZR n) <= bpow radix2 (-22) * (IZR (largest_swing m) / IZR n).
Proof.
  intros W Hn. unfold well_formed in W. rewrite two64_val in W.
  assert (HP : (0 <= largest_swing m < 18446744073709551616)%Z) by (unfold largest_swing; lia).
  set (P := largest_swing m) in *. destruct (of_int32_spec P) as [FP EP]; [lia|].
  destruct (n32_pos n Hn) as [Fn Bn]. rewrite two32_val in Hn.
  destruct (of_int32_spec n) as [_ En]; [lia|]. rewrite En in Bn.
  assert (BP : 0 <= rnd32 (IZR P) <= bpow radix2 65).
  { split; [apply rnd_ge_0; try exact _; apply IZR_le; lia|]. apply round_le_generic; try exact _.
    - apply generic_format_bpow. unfold SpecFloat.fexp, SpecFloat.emin. lia.
    - rewrite bpow65. apply IZR_le. lia. }
  assert (Q : 0 <= rnd32 (IZR P) / rnd32 (IZR n) <= bpow radix2 65).
  { assert (I : 0 < / rnd32 (IZR n) <= 1) by (split; [apply Rinv_0_lt_compat; lra|rewrite <- Rinv_1; apply Rinv_le; lra]).
    unfold Rdiv. split; [nra|]. apply Rle_trans with (rnd32 (IZR P) * 1); [apply Rmult_le_compat_l; lra|lra]. }
  pose proof (Bdiv_correct 24 128 _ _ mode_NE (f32_of_int P) (f32_of_int n)) as D.
  change (round_mode mode_NE) with ZnearestE in D. rewrite EP, En in D. specialize (D ltac:(lra)).
  rewrite Rlt_bool_true in D.
  2:{ apply Rle_lt_trans with (bpow radix2 65); [|apply M32_big]. apply abs_round_le_generic; try exact _.
      - apply generic_format_bpow. unfold SpecFloat.fexp, SpecFloat.emin. lia.
      - rewrite Rabs_pos_eq by lra. lra. }
  destruct D as (D1 & D2 & _). rewrite FP in D2.
  assert (E : B2R (amount32 m n) = rnd32 (rnd32 (IZR P) / rnd32 (IZR n))) by exact D1.
  split; [exact D2|]. rewrite E. split; [apply rnd_ge_0; try exact _; lra|]. split; [reflexivity|].
  destruct (Z.eq_dec P 0) as [Z0|Z0].
  { rewrite Z0. rewrite round_0 by exact _. unfold Rdiv. rewrite !Rmult_0_l, round_0 by exact _. rewrite Rminus_0_r, Rabs_R0. lra. }
  assert (P1 : 1 <= IZR P) by (apply IZR_le; lia). assert (N1 : 1 <= IZR n <= 4294967296) by (split; apply IZR_le; lia).
  assert (SM : bpow radix2 (-100) <= 1) by (change 1 with (bpow radix2 0); apply bpow_le; lia).
  destruct (rel32 (IZR P)) as (e1 & X1 & B1); [right; lra|]. destruct (rel32 (IZR n)) as (e2 & X2 & B2); [right; lra|].
  unfold u32f in *.
  assert (QQ : rnd32 (IZR P) / rnd32 (IZR n) = IZR P / IZR n * (e1 / e2)) by (rewrite X1, X2; field; lra).
  assert (T : bpow radix2 (-32) <= IZR P / IZR n).
  { change (bpow radix2 (-32)) with (/ 4294967296). apply Rmult_le_reg_r with (IZR n); [lra|]. unfold Rdiv. rewrite Rmult_assoc, Rinv_l by lra. lra. }
  assert (RR : / 2 <= e1 / e2 ).
  { apply Rmult_le_reg_r with e2; [lra|]. unfold Rdiv. rewrite Rmult_assoc, Rinv_l by lra. lra. }
  destruct (rel32 (rnd32 (IZR P) / rnd32 (IZR n))) as (e3 & X3 & B3).
  { right. rewrite QQ. apply Rle_trans with (bpow radix2 (-32) * / 2).
    - change (/ 2) with (bpow radix2 (-1)). rewrite <- bpow_plus. apply bpow_le. lia.
    - apply Rmult_le_compat; try lra. apply bpow_ge_0. }
  unfold u32f in *. rewrite X3, QQ. pose proof (bpow_ge_0 radix2 (-32)) as G0.
  set (t := IZR P / IZR n) in *.
  change (bpow radix2 (-22)) with (/ 4194304).
  assert (U : Rabs (e1 / e2 * e3 - 1) <= / 4194304).
  { assert (E3 : e1 / e2 * e3 - 1 = (e1 * e3 - e2) / e2) by (field; lra). rewrite E3. unfold Rdiv. rewrite Rabs_mult, Rabs_inv.
    rewrite (Rabs_pos_eq e2) by lra. apply Rmult_le_reg_r with e2; [lra|]. rewrite Rmult_assoc, Rinv_l by lra. rewrite Rmult_1_r.
    assert (M1 : (1 - / 16777216) * (1 - / 16777216) <= e1 * e3) by (apply Rmult_le_compat; lra).
    assert (M2 : e1 * e3 <= (1 + / 16777216) * (1 + / 16777216)) by (apply Rmult_le_compat; lra).
    apply Rabs_le. lra. }
  replace (t * (e1 / e2) * e3 - t) with (t * (e1 / e2 * e3 - 1)) by ring. rewrite Rabs_mult, (Rabs_pos_eq t) by lra.
  rewrite (Rmult_comm (/ 4194304)). apply Rmult_le_compat_l; [lra|exact U].
Qed.

(** the integer test of the decimals: exact for amounts up to 1024 *)
Lemma milli_spec : is_finite f32_milli = true /\ B2R f32_milli = 8589935 * bpow radix2 (-33).
Proof.
  pose proof (binary_normalize_correct 24 128 _ _ mode_NE 8589935 (-33) false) as H. cbv zeta in H.
  change (round_mode mode_NE) with ZnearestE in H.
  assert (E : F2R (Float radix2 8589935 (-33)) = 8589935 * bpow radix2 (-33)) by reflexivity. rewrite E in H.
  assert (G : rnd32 (8589935 * bpow radix2 (-33)) = 8589935 * bpow radix2 (-33)).
  { apply round_generic; try exact _. apply generic_format_FLT. apply (FLT_spec _ _ _ _ (Float radix2 8589935 (-33))).
    - reflexivity. - simpl; lia. - simpl. unfold SpecFloat.emin. lia. }
  rewrite G in H. rewrite Rlt_bool_true in H; [destruct H as (H1 & H2 & _); split; assumption|].
  rewrite Rabs_pos_eq by (pose proof (bpow_ge_0 radix2 (-33)); lra).
  apply Rle_lt_trans with (bpow radix2 65); [|apply M32_big]. rewrite bpow65. change (bpow radix2 (-33)) with (/ 8589934592). lra.
Qed.

Lemma round_away_spec (v : R) : Rabs (IZR (ZnearestA v) - v) <= / 2.
Proof. rewrite Rabs_minus_sym. apply Znearest_half. Qed.

Lemma integer_test (v : f32) : is_finite v = true -> 0 <= B2R v <= 1024 ->
  f32_ltb (f32_abs (f32_sub (f32_round v) v)) f32_milli = true <-> exists k : Z, Rabs (IZR k - B2R v) < 8589935 * bpow radix2 (-33).
Proof.
  intros F B.
  destruct (Bnearbyint_correct 24 128 _ mode_NA v) as (R1 & R2 & _). fold (f32_round v) in R1, R2.
  assert (RI : B2R (f32_round v) = IZR (ZnearestA (B2R v))).
  { rewrite R1. change (round_mode mode_NA) with ZnearestA. unfold round, F2R, scaled_mantissa, cexp, FIX_exp. cbn. rewrite Rmult_1_r, Rmult_1_r. reflexivity. }
  set (k0 := ZnearestA (B2R v)) in *. pose proof (round_away_spec (B2R v)) as H2. fold k0 in H2.
  assert (K0 : (0 <= k0 <= 1024)%Z).
  { apply Rabs_le_inv in H2. split; [apply Zlt_succ_le, lt_IZR; rewrite succ_IZR|apply Zlt_succ_le, lt_IZR; rewrite succ_IZR]; lra. }
  assert (FR : is_finite (f32_round v) = true) by (rewrite R2; exact F).
  pose proof (Bminus_correct 24 128 _ _ mode_NE (f32_round v) v FR F) as D. change (round_mode mode_NE) with ZnearestE in D.
  rewrite RI in D.
  assert (X : rnd32 (IZR k0 - B2R v) = IZR k0 - B2R v).
  { apply round_generic; try exact _.
    destruct (Z.eq_dec k0 0) as [E|E].
    - rewrite E. replace (0 - B2R v) with (- B2R v) by ring. apply generic_format_opp, generic_format_B2R.
    - assert (1 <= IZR k0) by (apply IZR_le; lia). apply Rabs_le_inv in H2.
      apply sterbenz; try exact _; try apply generic_format_B2R.
      + rewrite <- RI. apply generic_format_B2R.
      + lra. }
  rewrite X in D. rewrite Rlt_bool_true in D.
  2:{ apply Rle_lt_trans with (1 := H2). apply Rlt_trans with (2 := M32_big). rewrite bpow65. lra. }
  destruct D as (D1 & D2 & _). destruct milli_spec as [Fm Em].
  assert (A1 : B2R (f32_abs (f32_sub (f32_round v) v)) = Rabs (IZR k0 - B2R v)) by (unfold f32_abs; rewrite B2R_Babs; rewrite <- D1; reflexivity).
  assert (A2 : is_finite (f32_abs (f32_sub (f32_round v) v)) = true) by (unfold f32_abs; rewrite is_finite_Babs; exact D2).
  rewrite <- Em. split.
  - intros L. apply ltb_true in L; try exact _. destruct L as (_ & _ & L). rewrite !toR_fin in L by assumption. rewrite A1 in L. exists k0. exact L.
  - intros [k L]. apply ltb_intro; try exact _; try (apply fin_not_nan; assumption). rewrite !toR_fin by assumption. rewrite A1.
    destruct (Z.eq_dec k k0) as [<-|N]; [exact L|]. exfalso. rewrite Em in L. change (bpow radix2 (-33)) with (/ 8589934592) in L.
    assert (1 <= Rabs (IZR k - IZR k0)).
    { rewrite <- minus_IZR, <- abs_IZR. apply IZR_le. lia. }
    pose proof (Rabs_triang (IZR k - B2R v) (B2R v - IZR k0)) as T. replace (IZR k - B2R v + (B2R v - IZR k0)) with (IZR k - IZR k0) in T by ring.
    rewrite (Rabs_minus_sym (B2R v)) in T. lra.
Qed.
End Cell.

(** A memory cell shows the largest swing of the pass, divided by [n], to within 2^-22 of it,
    in the unit that keeps the number between 1 and 1024; it omits the decimals exactly when it
    shows bytes and the number is within the f32 closest to 0.001 of an integer. *)
Theorem C73_memory_cell : forall b m n s,
  well_formed m -> 1 <= n < two32 -> fmt_over_n b m n = Val s ->
  in_unit (sh_unit s) (B2R (sh_value s))
  /\ (Rabs (B2R (sh_value s) * unit_bytes (sh_unit s) - IZR (largest_swing m) / IZR n)
      <= bpow radix2 (-22) * (IZR (largest_swing m) / IZR n))%R
  /\ (sh_decimals s = 0%nat \/ sh_decimals s = 2%nat)
  /\ (sh_decimals s = 0%nat <->
      sh_unit s = "b"%string /\ exists k : Z, (Rabs (IZR k - B2R (sh_value s)) < 8589935 * bpow radix2 (-33))%R).
Proof.
  intros b m n s W Hn H. destruct (fmt_cell b m n s W ltac:(lia) H) as (E1 & E2 & E3).
  destruct (amount32_spec m n W Hn) as (F & P & _ & A).
  assert (Fa : is_finite (Babs (amount32 m n)) = true) by (rewrite is_finite_Babs; exact F).
  assert (Ea : B2R (Babs (amount32 m n)) = B2R (amount32 m n)) by (rewrite B2R_Babs; apply Rabs_pos_eq; exact P).
  destruct (unit_value (Babs (amount32 m n)) Fa ltac:(rewrite Ea; exact P)) as [U V].
  assert (FV : sh_unit (human_readable (Babs (amount32 m n))) = "b"%string -> sh_value (human_readable (Babs (amount32 m n))) = Babs (amount32 m n)).
  { unfold human_readable. cbn [sh_unit sh_value]. destruct (f32_ltb gib _); [discriminate|]. destruct (f32_ltb mib _); [discriminate|].
    destruct (f32_ltb kib _); [discriminate|]. reflexivity. }
  rewrite <- E1 in *. rewrite <- E2 in *. clear E1 E2. set (x := Babs (amount32 m n)) in *.
  split; [exact U|]. split; [rewrite V, Ea; exact A|].
  split; [rewrite E3; destruct (_ && _); auto|].
  rewrite E3. split.
  - destruct (f32_ltb _ _) eqn:L; [|discriminate]. destruct (String.eqb _ _) eqn:S; [|discriminate]. intros _.
    apply String.eqb_eq in S. split; [exact S|].
    destruct U as [[_ U]|[[U _]|[[U _]|[U _]]]]; [|congruence..].
    rewrite (FV S) in *. apply (integer_test x Fa U). exact L.
  - intros [S K]. destruct U as [[_ U]|[[U _]|[[U _]|[U _]]]]; [|congruence..].
    rewrite (FV S) in *. rewrite (proj2 (integer_test x Fa U) K). rewrite S. reflexivity.
Qed.
Print Assumptions C73_memory_cell.

(** The absolute cell ([n] = 1) of a pass that swung by at most 1 KiB shows the exact number of
    bytes, without decimals. *)
Theorem C73_small_amounts_are_exact : forall b m s,
  well_formed m -> largest_swing m <= 1024 -> fmt_over_n b m 1 = Val s ->
  sh_unit s = "b"%string /\ B2R (sh_value s) = IZR (largest_swing m) /\ sh_decimals s = 0%nat.
Proof.
  intros b m s W L H. assert (N : 1 <= 1 < two32) by (rewrite two32_val; lia).
  assert (NN : 0 <= largest_swing m) by (unfold well_formed in W; unfold largest_swing; lia).
  destruct (fmt_cell b m 1 s W ltac:(rewrite two32_val; lia) H) as (E1 & E2 & _).
  destruct (amount32_spec m 1 W N) as (F & P & E & _).
  assert (R1 : rnd32 (IZR 1) = 1%R).
  { destruct (of_int32_spec 1) as [_ <-]; [lia|]. rewrite of_int32_exact by lia. reflexivity. }
  assert (RP : rnd32 (IZR (largest_swing m)) = IZR (largest_swing m)).
  { destruct (of_int32_spec (largest_swing m)) as [_ <-]; [lia|]. apply of_int32_exact. lia. }
  rewrite R1, RP in E. unfold Rdiv in E. rewrite Rinv_1, Rmult_1_r, RP in E.
  assert (Fa : is_finite (Babs (amount32 m 1)) = true) by (rewrite is_finite_Babs; exact F).
  assert (Ea : B2R (Babs (amount32 m 1)) = IZR (largest_swing m)) by (rewrite B2R_Babs, Rabs_pos_eq by exact P; exact E).
  destruct (C73_memory_cell b m 1 s W N H) as (U & _ & _ & DD).
  assert (X : sh_unit s = "b"%string /\ sh_value s = Babs (amount32 m 1)).
  { rewrite E1, E2. unfold human_readable. cbn [sh_unit sh_value].
    assert (C : forall y k, (10 <= k <= 64) -> y = f32_of_int (2 ^ k) -> f32_ltb y (Babs (amount32 m 1)) = false).
    { intros y k Hk ->. destruct (pow2_32 k ltac:(lia)) as [Fk Ek].
      destruct (f32_ltb (f32_of_int (2 ^ k)) (Babs (amount32 m 1))) eqn:T; [|reflexivity]. exfalso.
      apply ltb_true in T; try exact _. destruct T as (_ & _ & T). rewrite !toR_fin in T by assumption. rewrite Ea, Ek in T.
      assert (bpow radix2 10 <= bpow radix2 k)%R by (apply bpow_le; lia). change (bpow radix2 10) with 1024%R in H0.
      assert (IZR (largest_swing m) <= 1024)%R by (apply IZR_le; lia). lra. }
    rewrite (C gib 30), (C mib 20), (C kib 10) by (lia || reflexivity). split; reflexivity. }
  destruct X as [X1 X2]. split; [exact X1|]. rewrite X2, Ea. split; [reflexivity|].
  apply DD. split; [exact X1|]. exists (largest_swing m). rewrite X2, Ea, Rminus_eq_0, Rabs_R0.
  pose proof (bpow_gt_0 radix2 (-33)). lra.
Qed.
Print Assumptions C73_small_amounts_are_exact.
(** 3 KiB used on top of 100 bytes and kept, over 2 elements: 1.5 KiB each *)
Example C73_example : well_formed (SpacePass 100 3172 3172 100) /\ largest_swing (SpacePass 100 3172 3172 100) = 3072
  /\ match fmt_over_n Debug (SpacePass 100 3172 3172 100) 2 with
     | Val s => String.eqb (sh_sign s) "+" && String.eqb (sh_unit s) "KiB" && (sh_decimals s =? 2)%nat
                && f32_ltb (sh_value s) (f32_of_int 2) && f32_ltb (f32_of_int 1) (sh_value s)
     | _ => false end = true.
Proof.
  unfold well_formed; cbn [used_memory_before used_memory_after max_used_memory min_used_memory]. rewrite two64_val.
  split; [lia|]. split; [reflexivity|]. vm_compute. reflexivity.
Qed.

(** ** C55: the summary line shows the absolute value of the total and the auxiliary space *)
Theorem C55_summary_amounts : forall b m1 m2 s,
  well_formed m1 -> well_formed m2 -> max_used_memory m1 < 2 ^ 62 -> max_used_memory m2 < 2 ^ 62 ->
  space_display b m1 m2 = Val s ->
  let total := (used_memory_after m1 - used_memory_before m1) + (used_memory_after m2 - used_memory_before m2) in
  let auxiliary := (max_used_memory m1 - Z.max (used_memory_before m1) (used_memory_after m1))
                   + (max_used_memory m2 - Z.max (used_memory_before m2) (used_memory_after m2)) in
  ss_op s = (if 0 <=? total then "allocated"%string else "freed"%string)
  /\ in_unit (sh_unit (ss_amount s)) (B2R (sh_value (ss_amount s)))
  /\ (B2R (sh_value (ss_amount s)) * unit_bytes (sh_unit (ss_amount s)) = rnd32 (IZR (Z.abs total)))%R
  /\ in_unit (sh_unit (ss_auxiliary s)) (B2R (sh_value (ss_auxiliary s)))
  /\ (B2R (sh_value (ss_auxiliary s)) * unit_bytes (sh_unit (ss_auxiliary s)) = rnd32 (IZR auxiliary))%R
  /\ sh_decimals (ss_amount s) = 2%nat /\ sh_decimals (ss_auxiliary s) = 2%nat.
Proof.
  intros b m1 m2 s W1 W2 S1 S2 H total auxiliary. unfold space_display in H.
  rewrite delta_ok, aux_ok in H by assumption. cbn [bind] in H. fold total in H. fold auxiliary in H.
  assert (BT : - (2 ^ 63) < total < 2 ^ 63 /\ 0 <= auxiliary < 2 ^ 64) by (unfold well_formed in *; unfold total, auxiliary; lia).
  rewrite checked_i64_in in H by (rewrite two63_val; lia). cbn [bind] in H. apply val_inj in H. rewrite <- H.
  cbn [ss_op ss_amount ss_auxiliary]. split; [reflexivity|].
  assert (C : forall z, 0 <= z < 2 ^ 64 -> in_unit (sh_unit (human_readable (f32_of_int z))) (B2R (sh_value (human_readable (f32_of_int z))))
    /\ (B2R (sh_value (human_readable (f32_of_int z))) * unit_bytes (sh_unit (human_readable (f32_of_int z))) = rnd32 (IZR z))%R).
  { intros z Hz. destruct (of_int32_spec z) as [F E]; [lia|]. rewrite <- E. apply unit_value; [exact F|]. rewrite E.
    apply rnd_ge_0; try exact _. apply IZR_le; lia. }
  destruct (C (Z.abs total)) as [C1 C2]; [lia|]. destruct (C auxiliary) as [C3 C4]; [lia|].
  split; [exact C1|]. split; [exact C2|]. split; [exact C3|]. split; [exact C4|]. split; reflexivity.
Qed.
Print Assumptions C55_summary_amounts.
(** 2 KiB freed, with 512 bytes of auxiliary space *)
Example C55_summary_example :
  match space_display Debug (SpacePass 4096 2048 4608 2048) (SpacePass 2048 2048 2048 2048) with
  | Val s => String.eqb (ss_op s) "freed" && String.eqb (sh_unit (ss_amount s)) "KiB" && String.eqb (sh_unit (ss_auxiliary s)) "b"
  | _ => false end = true.
Proof. vm_compute. reflexivity. Qed.

(** ** C74: the rows *)
(** what a row says about one pass: its measured time and memory, its size column, and the time
    per unit (rounded to the nanosecond); [per]: the number of units *)
Definition row_for (b : build) (r : row) (t : duration) (m : space_pass) (size per : Z) : Prop :=
  row_time r = t /\ fmt_over_n b m 1 = Val (row_space r) /\ row_n r = size /\
  (Rabs (IZR (row_per_n r) - IZR t / IZR per) <= / 2 + bpow radix2 (-50) * (IZR t / IZR per))%R.

Theorem C74_regular_rows : forall b n1 n2 t1 t2 m1 m2 rs,
  duration_sane t1 -> duration_sane t2 -> 1 <= n1 < two32 -> 1 <= n2 < two32 ->
  regular_rows b n1 n2 t1 t2 m1 m2 = Val rs ->
  exists r1 r2 p1 p2, rs = [r1; r2] /\ row_for b r1 t1 m1 n1 n1 /\ row_for b r2 t2 m2 n2 n2
    /\ fmt_over_n b m1 n1 = Val p1 /\ fmt_over_n b m2 n2 = Val p2 /\ row_detail r1 = [p1] /\ row_detail r2 = [p2]
    /\ row_repetitions r1 = [] /\ row_repetitions r2 = [].
Proof.
  intros b n1 n2 t1 t2 m1 m2 rs T1 T2 N1 N2 H. unfold regular_rows in H.
  apply bind_val in H. destruct H as (s1 & E1 & H). apply bind_val in H. destruct H as (s2 & E2 & H).
  apply bind_val in H. destruct H as (p1 & E3 & H). apply bind_val in H. destruct H as (p2 & E4 & H).
  apply bind_val in H. destruct H as (d1 & E5 & H). apply bind_val in H. destruct H as (d2 & E6 & H).
  apply val_inj in H. do 2 eexists. exists p1, p2. split; [symmetry; exact H|].
  destruct (C67_time_per_element t1 n1 T1 N1) as (v1 & V1 & A1). rewrite E5 in V1. apply val_inj in V1. subst v1.
  destruct (C67_time_per_element t2 n2 T2 N2) as (v2 & V2 & A2). rewrite E6 in V2. apply val_inj in V2. subst v2.
  unfold row_for. cbn [row_time row_space row_n row_per_n row_detail row_repetitions]. auto 20.
Qed.
Print Assumptions C74_regular_rows.

Theorem C74_constant_set_rows : forall b size1 size2 rep t1 t2 m1 m2 rs,
  duration_sane t1 -> duration_sane t2 -> 1 <= rep < two32 ->
  constant_set_rows b size1 size2 rep t1 t2 m1 m2 = Val rs ->
  exists r1 r2, rs = [r1; r2] /\ row_for b r1 t1 m1 size1 rep /\ row_for b r2 t2 m2 size2 rep
    /\ row_repetitions r1 = [rep] /\ row_repetitions r2 = [rep] /\ row_detail r1 = [] /\ row_detail r2 = [].
Proof.
  intros b n1 n2 rep t1 t2 m1 m2 rs T1 T2 N1 H. unfold constant_set_rows in H.
  apply bind_val in H. destruct H as (s1 & E1 & H). apply bind_val in H. destruct H as (s2 & E2 & H).
  apply bind_val in H. destruct H as (d1 & E5 & H). apply bind_val in H. destruct H as (d2 & E6 & H).
  apply val_inj in H. do 2 eexists. split; [symmetry; exact H|].
  destruct (C67_time_per_element t1 rep T1 N1) as (v1 & V1 & A1). rewrite E5 in V1. apply val_inj in V1. subst v1.
  destruct (C67_time_per_element t2 rep T2 N1) as (v2 & V2 & A2). rewrite E6 in V2. apply val_inj in V2. subst v2.
  unfold row_for. cbn [row_time row_space row_n row_per_n row_detail row_repetitions]. auto 20.
Qed.
Print Assumptions C74_constant_set_rows.

(** the second pass works on the second half of twice the elements: its size column shows the
    final size, its time per element divides by the elements it touched *)
Theorem C74_set_resizing_rows : forall b delta t1 t2 m1 m2 rs,
  duration_sane t1 -> duration_sane t2 -> 1 <= delta -> 2 * delta < two32 ->
  set_resizing_rows b delta t1 t2 m1 m2 = Val rs ->
  exists r1 r2, rs = [r1; r2] /\ row_for b r1 t1 m1 delta delta /\ row_for b r2 t2 m2 (2 * delta) delta
    /\ row_repetitions r1 = [] /\ row_repetitions r2 = [] /\ row_detail r1 = [] /\ row_detail r2 = [].
Proof.
  intros b n t1 t2 m1 m2 rs T1 T2 N1 N2 H. unfold set_resizing_rows in H.
  apply bind_val in H. destruct H as (s1 & E1 & H). apply bind_val in H. destruct H as (s2 & E2 & H).
  apply bind_val in H. destruct H as (d1 & E5 & H). apply bind_val in H. destruct H as (tw & E7 & H).
  apply bind_val in H. destruct H as (d2 & E6 & H).
  unfold u32_mul in E7. rewrite checked_in in E7 by (rewrite two32_val in *; lia). apply val_inj in E7.
  apply val_inj in H. do 2 eexists. split; [symmetry; exact H|].
  assert (NN : 1 <= n < two32) by lia.
  destruct (C67_time_per_element t1 n T1 NN) as (v1 & V1 & A1). rewrite E5 in V1. apply val_inj in V1. subst v1.
  destruct (C67_time_per_element t2 n T2 NN) as (v2 & V2 & A2). rewrite E6 in V2. apply val_inj in V2. subst v2.
  unfold row_for. cbn [row_time row_space row_n row_per_n row_detail row_repetitions].
  replace tw with (2 * n) by lia. auto 20.
Qed.
Print Assumptions C74_set_resizing_rows.
Example C74_nonvacuous :
  match set_resizing_rows Debug 1000 1000000 2000000 (SpacePass 100 200 300 50) (SpacePass 200 400 500 200) with
  | Val rs => Some (map row_n rs, map row_per_n rs) | _ => None end = Some ([1000; 2000], [1000; 2000]).
Proof. vm_compute. reflexivity. Qed.

(** ** C75: the report of an analysis shows its own verdicts, with the space summary of its own passes *)
Theorem C75_report_contents : forall b rows tc sc m1 m2 r,
  analysis_display b rows tc sc m1 m2 = Val r ->
  rows = Val (rep_rows r) /\ space_display b m1 m2 = Val (rep_summary r)
  /\ (forall c, rep_time r = as_time_pretty_str c <-> c = tc)
  /\ (forall c, rep_space r = as_space_pretty_str c <-> c = sc).
Proof.
  intros b rows tc sc m1 m2 r H. unfold analysis_display in H.
  apply bind_val in H. destruct H as (rs & E1 & H). apply bind_val in H. destruct H as (s & E2 & H).
  apply val_inj in H. rewrite <- H. cbn [rep_rows rep_time rep_space rep_summary].
  split; [exact E1|]. split; [exact E2|]. split; intros c; split; intros X.
  - symmetry. apply time_pretty_inj. exact X.
  - rewrite X. reflexivity.
  - symmetry. apply space_pretty_inj. exact X.
  - rewrite X. reflexivity.
Qed.
Print Assumptions C75_report_contents.
Example C75_example :
  match analysis_display Debug (regular_rows Debug 100 200 1000000 2000000 (SpacePass 0 0 4096 0) (SpacePass 0 0 8192 0)) ON OLogN (SpacePass 0 0 4096 0) (SpacePass 0 0 8192 0) with
  | Val r => String.eqb (rep_time r) "O(n)" && String.eqb (rep_space r) "O(log(n))" && (length (rep_rows r) =? 2)%nat
  | _ => false end = true.
Proof. vm_compute. reflexivity. Qed.
