(** * Theorems C46 (report part), C54-C56, C62, C63: reports, labels. *)
From Coq Require Import ZArith Reals Lra Lia Bool List String Psatz.
From Flocq Require Import Core.Core IEEE754.BinarySingleNaN.
From Verif Require Import Machine Complexity Floats Analysis AnalysisF64 AnalysisF64d AllocSpec Report ReportProofs.
Open Scope Z_scope.

(** ** C54: the sign *)
Theorem C54_sign_is_sound : forall b m n s,
  0 <= used_memory_before m < two64 -> 0 <= used_memory_after m < two64 -> 0 <= n < two32 ->
  fmt_over_n b m n = Val s ->
  (sh_sign s = "+"%string -> used_memory_before m < used_memory_after m)
  /\ (sh_sign s = "-"%string -> used_memory_after m < used_memory_before m).
Proof.
  intros b m n s Hb Ha Hn H. rewrite (fmt_sign b m n s H).
  destruct (delta32_sign m n Ha Hb Hn) as [P N].
  assert (MM : forall x y, 0 <= x < two64 -> 0 <= y < two64 -> (B2R (f32_of_int x) < B2R (f32_of_int y))%R -> x < y).
  { intros x y Hx Hy L. destruct (Z.ltb_spec x y) as [X|X]; [exact X|]. exfalso.
    rewrite two64_val in *.
    assert (Q : (B2R (f32_of_int y) <= B2R (f32_of_int x))%R) by (apply of_int32_mono; lia). lra. }
  destruct (f32_ltb f32_zero (delta32 m n)) eqn:E1.
  - split; [intros _; apply MM; try assumption; apply P; reflexivity|discriminate].
  - destruct (f32_ltb (delta32 m n) f32_zero) eqn:E2; split; try discriminate.
    intros _. apply MM; try assumption. apply N; reflexivity.
Qed.
Print Assumptions C54_sign_is_sound.

(** below 16 MiB of memory in use the sign is exact *)
Theorem C54_sign_is_exact_below_16MiB : forall b m n s,
  0 <= used_memory_before m <= 2 ^ 24 -> 0 <= used_memory_after m <= 2 ^ 24 -> 0 <= n < two32 ->
  fmt_over_n b m n = Val s ->
  (sh_sign s = "+"%string <-> used_memory_before m < used_memory_after m)
  /\ (sh_sign s = "-"%string <-> used_memory_after m < used_memory_before m)
  /\ (sh_sign s = ""%string <-> used_memory_after m = used_memory_before m).
Proof.
  intros b m n s Hb Ha Hn H. rewrite (fmt_sign b m n s H).
  destruct (delta32_sign m n) as [P N]; try (rewrite two64_val; lia); [assumption|].
  rewrite !of_int32_exact in P, N by lia.
  destruct (f32_ltb f32_zero (delta32 m n)) eqn:E1.
  - assert (L : used_memory_before m < used_memory_after m) by (apply lt_IZR, P; reflexivity).
    repeat split; intros; try reflexivity; try discriminate; try lia; exact L.
  - assert (L1 : ~ used_memory_before m < used_memory_after m).
    { intros L. apply IZR_lt in L. apply P in L. discriminate. }
    destruct (f32_ltb (delta32 m n) f32_zero) eqn:E2.
    + assert (L : used_memory_after m < used_memory_before m) by (apply lt_IZR, N; reflexivity).
      repeat split; intros; try reflexivity; try discriminate; try lia; exact L.
    + assert (L2 : ~ used_memory_after m < used_memory_before m).
      { intros L. apply IZR_lt in L. apply N in L. discriminate. }
      repeat split; intros; try reflexivity; try discriminate; lia.
Qed.
Print Assumptions C54_sign_is_exact_below_16MiB.
Example C54_example : 0 <= 100 <= 2 ^ 24 /\ 0 <= 5000 <= 2 ^ 24 /\
  match fmt_over_n Debug (SpacePass 100 5000 5000 100) 7, fmt_over_n Debug (SpacePass 5000 100 5000 100) 7 with
  | Val s, Val s' => String.eqb (sh_sign s) "+" && String.eqb (sh_sign s') "-"
  | _, _ => false end = true.
Proof. split; [lia|split; [lia|vm_compute; reflexivity]]. Qed.

(** the converse is false: 100 bytes leaked on top of 2 GiB are shown without a sign *)
Definition leak_100 : space_pass :=
  {| used_memory_before := 2147483648; used_memory_after := 2147483748; max_used_memory := 2147483748; min_used_memory := 2147483648 |}.
Theorem C54_converse_refuted : exists m s, well_formed m /\ used_memory_before m < used_memory_after m
  /\ fmt_over_n Debug m 1 = Val s /\ sh_sign s = ""%string.
Proof.
  exists leak_100. destruct (fmt_ok Debug leak_100 1) as [s Hs].
  { unfold well_formed, leak_100. cbn [used_memory_before used_memory_after max_used_memory min_used_memory]. rewrite two64_val. lia. }
  exists s. split; [|split; [|split]].
  - unfold well_formed, leak_100. cbn [used_memory_before used_memory_after max_used_memory min_used_memory]. rewrite two64_val. lia.
  - reflexivity.
  - exact Hs.
  - rewrite (fmt_sign _ _ _ _ Hs). vm_compute. reflexivity.
Qed.
Print Assumptions C54_converse_refuted.

(** ** C55: totals *)
Theorem C55_totals : forall b m1 m2,
  well_formed m1 -> well_formed m2 -> max_used_memory m1 < 2 ^ 62 -> max_used_memory m2 < 2 ^ 62 ->
  used_memory_delta b m1 m2 =
    Val ((used_memory_after m1 - used_memory_before m1) + (used_memory_after m2 - used_memory_before m2))
  /\ used_auxiliary_space b m1 m2 =
    Val ((max_used_memory m1 - Z.max (used_memory_before m1) (used_memory_after m1))
         + (max_used_memory m2 - Z.max (used_memory_before m2) (used_memory_after m2)))
  /\ exists s, space_display b m1 m2 = Val s
     /\ (ss_op s = "allocated"%string <->
         0 <= (used_memory_after m1 - used_memory_before m1) + (used_memory_after m2 - used_memory_before m2)).
Proof.
  intros b m1 m2 W1 W2 S1 S2. split; [apply delta_ok; assumption|]. split; [apply aux_ok; assumption|].
  unfold space_display. rewrite delta_ok, aux_ok by assumption. cbn [bind].
  unfold well_formed in *. rewrite checked_i64_in by (rewrite two63_val; lia). cbn [bind].
  eexists. split; [reflexivity|]. cbn [ss_op].
  destruct (Z.leb_spec 0 (used_memory_after m1 - used_memory_before m1 + (used_memory_after m2 - used_memory_before m2))); split; intros; try reflexivity; try lia; discriminate.
Qed.
Print Assumptions C55_totals.
Example C55_nonvacuous : exists m1 m2, well_formed m1 /\ well_formed m2 /\ max_used_memory m1 < 2 ^ 62 /\ max_used_memory m2 < 2 ^ 62
  /\ used_memory_delta Debug m1 m2 = Val (-50) /\ used_auxiliary_space Debug m1 m2 = Val 1000.
Proof.
  exists (SpacePass 100 150 1050 90), (SpacePass 150 50 250 40).
  unfold well_formed; cbn [used_memory_before used_memory_after max_used_memory min_used_memory]. rewrite two64_val.
  repeat split; lia.
Qed.

(** ** C46: the report of a regular algorithm *)
Theorem C46_zero_set_size_panics : forall b n1 n2 t1 t2 m1 m2 tc sc,
  duration_sane t1 -> duration_sane t2 -> n1 = 0 \/ n2 = 0 ->
  exists p, analysis_display b (regular_rows b n1 n2 t1 t2 m1 m2) tc sc m1 m2 = Panic p.
Proof.
  intros b n1 n2 t1 t2 m1 m2 tc sc T1 T2 H. destruct (regular_rows_zero b n1 n2 t1 t2 m1 m2 T1 T2 H) as [p E].
  exists p. unfold analysis_display. rewrite E. reflexivity.
Qed.
Print Assumptions C46_zero_set_size_panics.

Theorem C46_nonzero_set_sizes_do_not_panic : forall b n1 n2 t1 t2 m1 m2 tc sc,
  duration_sane t1 -> duration_sane t2 -> 1 <= n1 < two32 -> 1 <= n2 < two32 ->
  well_formed m1 -> well_formed m2 -> max_used_memory m1 < 2 ^ 62 -> max_used_memory m2 < 2 ^ 62 ->
  exists r, analysis_display b (regular_rows b n1 n2 t1 t2 m1 m2) tc sc m1 m2 = Val r.
Proof.
  intros b n1 n2 t1 t2 m1 m2 tc sc T1 T2 N1 N2 W1 W2 S1 S2.
  destruct (regular_rows_ok b n1 n2 t1 t2 m1 m2 W1 W2 T1 T2 N1 N2) as [rs E].
  destruct (space_display_ok b m1 m2 W1 W2 S1 S2) as [s Es].
  unfold analysis_display. rewrite E, Es. cbn [bind]. eexists; reflexivity.
Qed.
Print Assumptions C46_nonzero_set_sizes_do_not_panic.
Example C46_nonvacuous : duration_sane 1500000000 /\ (1 <= 1000 < two32).
Proof. unfold duration_sane, nanos_per_sec. rewrite two32_val. lia. Qed.

(** The other two kinds of reports: a constant-set report panics exactly with 0 repetitions, a
    set-resizing one exactly with an empty pass or, in a build with overflow checks, when the size
    after the second pass does not fit a u32 (without checks that size is then shown modulo 2^32). *)
Theorem C46_constant_set_reports : forall b size1 size2 repetitions t1 t2 m1 m2 tc sc,
  duration_sane t1 -> duration_sane t2 -> 0 <= repetitions < two32 ->
  well_formed m1 -> well_formed m2 -> max_used_memory m1 < 2 ^ 62 -> max_used_memory m2 < 2 ^ 62 ->
  let shown := analysis_display b (constant_set_rows b size1 size2 repetitions t1 t2 m1 m2) tc sc m1 m2 in
  ((exists r, shown = Val r) <-> repetitions <> 0) /\ ((exists p, shown = Panic p) <-> repetitions = 0).
Proof.
  intros b size1 size2 rep t1 t2 m1 m2 tc sc T1 T2 N W1 W2 S1 S2. cbv zeta.
  destruct (space_display_ok b m1 m2 W1 W2 S1 S2) as [s Es].
  destruct (Z.eq_dec rep 0) as [->|NZ].
  - assert (E : exists p, analysis_display b (constant_set_rows b size1 size2 0 t1 t2 m1 m2) tc sc m1 m2 = Panic p).
    { destruct (time_per_zero t1 T1) as [p Ep]. unfold constant_set_rows.
      destruct (fmt_ok b m1 1 W1) as [x1 ->]. destruct (fmt_ok b m2 1 W2) as [x2 ->]. rewrite Ep. exists p. reflexivity. }
    destruct E as [p E]. rewrite E. split; split; try (intros [? ?]; discriminate); try (intros ?; lia); eauto.
  - destruct (constant_set_rows_ok b size1 size2 rep t1 t2 m1 m2 W1 W2 T1 T2 ltac:(lia)) as [rs E].
    unfold analysis_display. rewrite E, Es. cbn [bind].
    split; split; try (intros [? ?]; discriminate); try (intros ?; lia); eauto.
Qed.
Print Assumptions C46_constant_set_reports.

Theorem C46_set_resizing_reports : forall b delta t1 t2 m1 m2 tc sc,
  duration_sane t1 -> duration_sane t2 -> 0 <= delta < two32 ->
  well_formed m1 -> well_formed m2 -> max_used_memory m1 < 2 ^ 62 -> max_used_memory m2 < 2 ^ 62 ->
  let shown := analysis_display b (set_resizing_rows b delta t1 t2 m1 m2) tc sc m1 m2 in
  let fine := delta <> 0 /\ (b = Debug -> 2 * delta < two32) in
  ((exists r, shown = Val r) <-> fine) /\ ((exists p, shown = Panic p) <-> ~ fine) /\
  (forall r, shown = Val r -> map row_n (rep_rows r) = [delta; (2 * delta) mod two32]).
Proof.
  intros b delta t1 t2 m1 m2 tc sc T1 T2 N W1 W2 S1 S2. cbv zeta.
  destruct (space_display_ok b m1 m2 W1 W2 S1 S2) as [s Es].
  unfold set_resizing_rows. destruct (fmt_ok b m1 1 W1) as [x1 ->]. destruct (fmt_ok b m2 1 W2) as [x2 ->]. cbn [bind].
  destruct (Z.eq_dec delta 0) as [->|NZ].
  - destruct (time_per_zero t1 T1) as [p Ep]. rewrite Ep. cbn [bind analysis_display].
    split; [|split]; [split; [intros [? ?]; discriminate|intros [H _]; lia]|split; [intros _ [H _]; lia|intros _; eauto]|intros r H; discriminate].
  - destruct (time_per_ok t1 delta T1 ltac:(lia)) as (d1 & -> & _). destruct (time_per_ok t2 delta T2 ltac:(lia)) as (d2 & -> & _).
    cbn [bind]. unfold u32_mul. rewrite (Z.mul_comm delta 2). unfold checked.
    destruct (Z.ltb_spec (2 * delta) two32) as [L|G].
    + replace (0 <=? 2 * delta) with true by (symmetry; apply Z.leb_le; lia). cbn [andb bind]. unfold analysis_display. cbn [bind]. rewrite Es. cbn [bind].
      split; [|split].
      * split; [intros _; split; [exact NZ|intros _; exact L]|eauto].
      * split; [intros [? ?]; discriminate|intros H; exfalso; apply H; split; [exact NZ|intros _; exact L]].
      * intros r H. injection H as <-. cbn [rep_rows map row_n]. rewrite (Z.mod_small (2 * delta)) by lia. reflexivity.
    + rewrite andb_false_r. destruct b; cbn [bind]; unfold analysis_display; cbn [bind]; try (rewrite Es; cbn [bind]).
      * split; [|split]; [split; [intros [? ?]; discriminate|intros [_ H]; specialize (H eq_refl); lia]|split; [intros _ [_ H]; specialize (H eq_refl); lia|eauto]|intros r H; discriminate].
      * split; [|split]; [split; [intros _; split; [exact NZ|discriminate]|eauto]|split; [intros [? ?]; discriminate|intros H; exfalso; apply H; split; [exact NZ|discriminate]]|].
        intros r H. injection H as <-. reflexivity.
Qed.
Print Assumptions C46_set_resizing_reports.
(** 3 000 000 000 elements per pass: a release build reports a second size of 1 705 032 704 *)
Example C46_set_resizing_wraps : 3000000000 <> 0 /\ (2 * 3000000000) mod two32 = 1705032704 /\ ~ 2 * 3000000000 < two32.
Proof. rewrite two32_val. repeat split; lia. Qed.

(** ** C62: a ring-buffer overflow in the first pass breaks the report of a debug build *)
Theorem C62_sentinel_in_first_pass : forall m2 rows tc sc,
  well_formed m2 ->
  Z.max (used_memory_before m2) (used_memory_after m2) < max_used_memory m2 ->
  max_used_memory m2 < 2 ^ 62 ->
  (forall p, rows <> Panic p) -> rows <> Spin ->
  analysis_display Debug rows tc sc sentinel_space m2 = Panic POverflow
  /\ used_auxiliary_space Release sentinel_space m2 = Val (max_used_memory m2 - Z.max (used_memory_before m2) (used_memory_after m2)).
Proof.
  intros m2 rows tc sc W A S RP RS. unfold well_formed in W.
  assert (D : used_memory_delta Debug sentinel_space m2 = Val (used_memory_after m2 - used_memory_before m2 - 1)).
  { unfold used_memory_delta, sentinel_space. cbn [used_memory_before used_memory_after].
    rewrite two64_val in *. rewrite !(as_isize_small (used_memory_after m2)), !(as_isize_small (used_memory_before m2)) by (rewrite two63_val; lia).
    change (usize_as_isize (18446744073709551616 - 1)) with (-1). change (usize_as_isize 0) with 0.
    rewrite checked_i64_in by (rewrite two63_val; lia). cbn [bind].
    rewrite checked_i64_in by (rewrite two63_val; lia). cbn [bind].
    rewrite checked_i64_in by (rewrite two63_val; lia). f_equal. lia. }
  assert (X : used_auxiliary_space Debug sentinel_space m2 = Panic POverflow).
  { unfold used_auxiliary_space, usize_sub, usize_add, sentinel_space. cbn [used_memory_before used_memory_after max_used_memory].
    rewrite two64_val in *. rewrite checked_in by lia. cbn [bind]. unfold checked.
    destruct (Z.ltb_spec (max_used_memory m2 - Z.max (used_memory_after m2) (used_memory_before m2) + (18446744073709551616 - 1)) 18446744073709551616) as [Y|Y]; [lia|].
    rewrite andb_false_r. reflexivity. }
  split.
  - unfold analysis_display. destruct rows as [rs|p|]; [|destruct (RP p eq_refl)|destruct (RS eq_refl)]. cbn [bind].
    unfold space_display. rewrite D. cbn [bind]. rewrite X. reflexivity.
  - unfold used_auxiliary_space, usize_sub, usize_add, sentinel_space. cbn [used_memory_before used_memory_after max_used_memory].
    rewrite two64_val in *. rewrite checked_in by lia. cbn [bind].
    set (a := max_used_memory m2 - Z.max (used_memory_after m2) (used_memory_before m2)).
    assert (Ha : 0 < a < 18446744073709551616) by (unfold a; lia).
    unfold checked at 1. replace ((0 <=? a + (18446744073709551616 - 1)) && (a + (18446744073709551616 - 1) <? 18446744073709551616)) with false by lia.
    cbn [bind].
    replace ((a + (18446744073709551616 - 1)) mod 18446744073709551616) with (a - 1).
    2:{ replace (a + (18446744073709551616 - 1)) with ((a - 1) + 1 * 18446744073709551616) by ring. rewrite Z.mod_add by lia. rewrite Z.mod_small by lia. reflexivity. }
    rewrite Z.max_l by lia. unfold checked.
    replace ((0 <=? a - 1 - (18446744073709551616 - 1)) && (a - 1 - (18446744073709551616 - 1) <? 18446744073709551616)) with false by lia.
    f_equal. replace (a - 1 - (18446744073709551616 - 1)) with (a + (-1) * 18446744073709551616) by ring.
    rewrite Z.mod_add by lia. rewrite Z.mod_small by lia. unfold a. lia.
Qed.
Print Assumptions C62_sentinel_in_first_pass.
(** the second pass below is ordinary: 1000 bytes of scratch memory *)
Example C62_nonvacuous : well_formed (SpacePass 100 100 1100 100) /\ Z.max 100 100 < 1100.
Proof. unfold well_formed; cbn [used_memory_before used_memory_after max_used_memory min_used_memory]. rewrite two64_val. lia. Qed.

(** ** C63: the memory units of the reports *)
Definition in_unit (u : string) (v : R) : Prop :=
  (u = "b"%string /\ (0 <= v <= 1024)%R) \/ (u = "KiB"%string /\ (1 < v <= 1024)%R) \/
  (u = "MiB"%string /\ (1 < v <= 1024)%R) \/ (u = "GiB"%string /\ (1 < v)%R).
Definition unit_bytes (u : string) : R :=
  if String.eqb u "GiB" then bpow radix2 30 else if String.eqb u "MiB" then bpow radix2 20
  else if String.eqb u "KiB" then bpow radix2 10 else 1%R.

Theorem C63_memory_units : forall z, 0 <= z < two64 ->
  let s := human_readable (f32_of_int z) in
  in_unit (sh_unit s) (B2R (sh_value s))
  /\ (B2R (sh_value s) * unit_bytes (sh_unit s) = B2R (f32_of_int z))%R.
Proof.
  intros z Hz s. rewrite two64_val in Hz. destruct (of_int32_spec z) as [F E]; [lia|].
  set (x := f32_of_int z) in *. assert (P : (0 <= B2R x)%R) by (rewrite E; apply rnd_ge_0; try exact _; apply IZR_le; lia).
  destruct (pow2_32 10 ltac:(lia)) as [F10 E10]. destruct (pow2_32 20 ltac:(lia)) as [F20 E20]. destruct (pow2_32 30 ltac:(lia)) as [F30 E30].
  change (f32_of_int (2 ^ 10)) with kib in *. change (f32_of_int (2 ^ 20)) with mib in *. change (f32_of_int (2 ^ 30)) with gib in *.
  assert (LT : forall y k, is_finite y = true -> B2R y = bpow radix2 k -> f32_ltb y x = true <-> (bpow radix2 k < B2R x)%R).
  { intros y k Fy Ey. unfold f32_ltb. split; intros L.
    - apply ltb_true in L; try exact _. destruct L as (_ & _ & L). rewrite !toR_fin in L by assumption. lra.
    - apply ltb_intro; try exact _; try (apply fin_not_nan; assumption). rewrite !toR_fin by assumption. lra. }
  assert (V10 : bpow radix2 10 = 1024%R) by (simpl; lra).
  assert (V20 : bpow radix2 20 = 1048576%R) by (simpl; lra).
  assert (V30 : bpow radix2 30 = 1073741824%R) by (simpl; lra).
  assert (DIV : forall k y, (0 <= k <= 64) -> y = f32_of_int (2 ^ k) -> (bpow radix2 k < B2R x)%R -> B2R (f32_div x y) = (B2R x / bpow radix2 k)%R).
  { intros k y Hk -> L. apply div_pow2_exact; try assumption. rewrite Rabs_pos_eq by exact P. exact L. }
  pose proof (LT gib 30 F30 E30) as L30. pose proof (LT mib 20 F20 E20) as L20. pose proof (LT kib 10 F10 E10) as L10.
  unfold s, human_readable. cbn [sh_unit sh_value].
  destruct (f32_ltb gib x).
  - assert (L := proj1 L30 eq_refl). rewrite (DIV 30 gib) by (lia || reflexivity || exact L).
    unfold in_unit, unit_bytes. cbn [String.eqb Ascii.eqb Bool.eqb]. rewrite V30 in *. split; [|field].
    right; right; right. split; [reflexivity|]. apply Rmult_lt_reg_r with 1073741824%R; [lra|]. unfold Rdiv. rewrite Rmult_assoc, Rinv_l by lra. lra.
  - assert (N30 : ~ (bpow radix2 30 < B2R x)%R) by (intros L; apply L30 in L; discriminate).
    destruct (f32_ltb mib x).
    + assert (L := proj1 L20 eq_refl). rewrite (DIV 20 mib) by (lia || reflexivity || exact L).
      unfold in_unit, unit_bytes. cbn [String.eqb Ascii.eqb Bool.eqb]. rewrite V20, V30 in *. split; [|field].
      right; right; left. split; [reflexivity|]. split.
      * apply Rmult_lt_reg_r with 1048576%R; [lra|]. unfold Rdiv. rewrite Rmult_assoc, Rinv_l by lra. lra.
      * apply Rmult_le_reg_r with 1048576%R; [lra|]. unfold Rdiv. rewrite Rmult_assoc, Rinv_l by lra. lra.
    + assert (N20 : ~ (bpow radix2 20 < B2R x)%R) by (intros L; apply L20 in L; discriminate).
      destruct (f32_ltb kib x).
      * assert (L := proj1 L10 eq_refl). rewrite (DIV 10 kib) by (lia || reflexivity || exact L).
        unfold in_unit, unit_bytes. cbn [String.eqb Ascii.eqb Bool.eqb]. rewrite V10, V20 in *. split; [|field].
        right; left. split; [reflexivity|]. split.
        -- apply Rmult_lt_reg_r with 1024%R; [lra|]. unfold Rdiv. rewrite Rmult_assoc, Rinv_l by lra. lra.
        -- apply Rmult_le_reg_r with 1024%R; [lra|]. unfold Rdiv. rewrite Rmult_assoc, Rinv_l by lra. lra.
      * assert (N10 : ~ (bpow radix2 10 < B2R x)%R) by (intros L; apply L10 in L; discriminate).
        unfold in_unit, unit_bytes. cbn [String.eqb Ascii.eqb Bool.eqb]. rewrite V10 in *. split; [|ring].
        left. split; [reflexivity|]. lra.
Qed.
Print Assumptions C63_memory_units.
(** exactly 1 KiB is shown in bytes, one byte more in KiB *)
Example C63_boundary : sh_unit (human_readable (f32_of_int 1024)) = "b"%string /\ sh_unit (human_readable (f32_of_int 1025)) = "KiB"%string.
Proof. split; vm_compute; reflexivity. Qed.

(** ** C56: labels *)
Theorem C56_order_is_the_documented_one : forall i j a b,
  nth_error best_to_worst i = Some a -> nth_error best_to_worst j = Some b ->
  (cle a b <-> (i <= j)%nat) /\ (worse_than b a = true <-> (i < j)%nat).
Proof.
  intros i j a b Ha Hb. apply discr_position in Ha. apply discr_position in Hb.
  rewrite worse_than_spec. unfold cle, clt. rewrite Ha, Hb. split; lia.
Qed.
Print Assumptions C56_order_is_the_documented_one.
Theorem C56_labels_are_unambiguous : forall a b,
  (as_pretty_str a = as_pretty_str b -> a = b)
  /\ (as_time_pretty_str a = as_time_pretty_str b -> a = b)
  /\ (as_space_pretty_str a = as_space_pretty_str b -> a = b)
  /\ (cle a b \/ cle b a) /\ (cle a b -> cle b a -> a = b) /\ In a best_to_worst /\ NoDup best_to_worst.
Proof.
  intros a b. split; [apply pretty_inj|]. split; [apply time_pretty_inj|]. split; [apply space_pretty_inj|].
  unfold cle. split; [lia|]. split; [intros; apply discr_inj; lia|]. split; [apply best_to_worst_all|].
  unfold best_to_worst. repeat constructor; cbn [In]; intuition discriminate.
Qed.
Print Assumptions C56_labels_are_unambiguous.
