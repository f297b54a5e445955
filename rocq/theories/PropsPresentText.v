(** * Property theorems C99, C100: the texts of measurements can be read back. *)
From Coq Require Import ZArith Reals Lra Lia Bool List String Ascii.
From Flocq Require Import Core.Core IEEE754.BinarySingleNaN.
From Verif Require Import Machine Floats Analysis AnalysisF64 AnalysisF64d Report ReportProofs Present PropsPresent DurationProofs
  PropsDuration Format ReadSpec FormatProofs PresentText.
Import ListNotations.
Open Scope R_scope.

(** a non-negative number (and not the float [-0.0], which is shown with its sign) *)
Definition non_negative (v : f64) : Prop := is_finite v = true /\ Bsign v = false.

Lemma pos_Bsign (v : f64) : is_finite v = true -> 0 < B2R v -> Bsign v = false.
Proof.
  destruct v as [s|s| |s m e B]; try discriminate; intros _ H; [cbn in H; lra|].
  destruct s; [exfalso|reflexivity]. cbn [B2R cond_Zopp] in H.
  pose proof (F2R_lt_0 radix2 (Float radix2 (Z.neg m) e) ltac:(cbn; lia)) as N. cbn in N, H. lra.
Qed.
Lemma sign_nonneg (v : f64) : non_negative v -> 0 <= B2R v.
Proof.
  intros [F S]. destruct v as [s|s| |s m e B]; try discriminate; [cbn; lra|].
  cbn in S. subst s. apply F2R_ge_0. cbn. lia.
Qed.
Lemma zero_or_pos (v : f64) : non_negative v -> v = B754_zero false \/ 0 < B2R v.
Proof.
  intros [F S]. destruct v as [s|s| |s m e B]; try discriminate; cbn in S; subst s; [left; reflexivity|right].
  apply F2R_gt_0. cbn. lia.
Qed.
(** reading a fixed-point number with its unit *)
Lemma fixed_amount (k : nat) (x : f64) u : non_negative x -> unit_like u ->
  exists q, read_amount (fixed k x ++ u)%string = Some (q, u) /\ Rabs (q - B2R x) <= / 2 / 10 ^ k /\
    exists n, q = quantity (n, k) /\ (0 <= n)%Z.
Proof.
  intros [F S] U. destruct (fixed_spec 53 1024 k x F S) as (n & -> & N & R).
  exists (quantity (n, k)). split; [apply read_amount_decimals; assumption|]. split; [exact R|]. exists n. auto.
Qed.

(** ** C99: amounts of bytes *)
Theorem C99_bytes : forall c v, non_negative v ->
  exists s x, to_string c (bytes_measurement v) = Some (Val s) /\
    read_bytes s = Some x /\ Rabs (x - B2R v) <= Rmax (1 / 2) (B2R v / 200).
Proof.
  intros c v NN. pose proof (sign_nonneg v NN) as V0. destruct NN as [F S].
  destruct (zero_or_pos v (conj F S)) as [Z|P].
  { subst v. exists "0b"%string, (quantity (0%Z, 0%nat) * 1). split; [vm_compute; reflexivity|]. split.
    - unfold read_bytes, read_with. change "0b"%string with (decimals 0 0 ++ "b")%string.
      rewrite (read_amount_decimals 0 0 "b") by (try reflexivity; lia). reflexivity.
    - unfold quantity. cbn [fst snd B2R]. replace (0 / 10 ^ 0 * 1 - 0) with 0 by (cbn; field). rewrite Rabs_R0.
      apply Rle_trans with (1 / 2); [lra|apply Rmax_l]. }
  destruct (C52_bytes c v F V0) as (u & size & scaled & D & (I & SZ & _) & SF & SR & _ & _).
  assert (SP : 0 < size) by (cbn in I; decompose [or] I; try contradiction; match goal with H : (_, _) = _ |- _ => injection H as _ <- end; lra).
  assert (SS : Bsign scaled = false). { apply pos_Bsign; [exact SF|]. rewrite SR. apply Rdiv_lt_0_compat; assumption. }
  unfold to_string. rewrite D. cbn [bind text_string].
  assert (UL : unit_like u /\ bytes_of u = Some size).
  { clear - I. cbn in I. decompose [or] I; try contradiction; match goal with H : (_, _) = (u, size) |- _ => injection H as <- <- end; split; reflexivity. }
  destruct UL as [UL BU].
  set (k := if String.eqb u "b" then 0%nat else 2%nat).
  destruct (fixed_amount k scaled u (conj SF SS) UL) as (q & RA & RE & _).
  exists (fixed k scaled ++ u)%string, (q * size). split; [reflexivity|]. split.
  - unfold read_bytes, read_with. rewrite RA, BU. reflexivity.
  - replace (q * size - B2R v) with ((q - B2R scaled) * size) by (rewrite SR; field; lra).
    rewrite Rabs_mult, (Rabs_pos_eq size) by lra.
    apply Rle_trans with (/ 2 / 10 ^ k * size); [apply Rmult_le_compat_r; [lra|exact RE]|].
    unfold k. destruct (String.eqb_spec u "b") as [->|NB].
    + cbn in BU. injection BU as <-. apply Rle_trans with (1 / 2); [cbn [pow]; lra|apply Rmax_l].
    + apply Rle_trans with (B2R v / 200); [|apply Rmax_r]. destruct SZ as [SZ|[_ SZ]].
      * replace (/ 2 / 10 ^ 2 * size) with (size / 200) by (cbn [pow]; field). lra.
      * exfalso. subst size. unfold bytes_of in BU. destruct (String.eqb_spec u "b"); [contradiction|].
        repeat match goal with H : (if ?b then _ else _) = _ |- _ => destruct b; [injection H as H; lra|] end. discriminate.
Qed.
Print Assumptions C99_bytes.

(** ** C99: rates of bytes.  Below one byte per hour the text says zero. *)
Lemma tiny_quantity n k x : (0 <= n)%Z -> k = 0%nat -> Rabs (quantity (n, k) - x) <= / 2 / 10 ^ k -> 0 <= x < 1 / 2 -> quantity (n, k) = 0.
Proof.
  intros N -> R X. unfold quantity in *. cbn [fst snd pow] in *. unfold Rdiv in *. rewrite Rinv_1, Rmult_1_r in *.
  apply Rabs_le_inv in R. assert (n < 1)%Z by (apply lt_IZR; lra). replace n with 0%Z by lia. reflexivity.
Qed.
Lemma rate_bounds scaled x w q : 1 <= w -> 1 <= scaled -> 0 < x ->
  Rabs (scaled - x * w) <= bpow radix2 (-50) * (x * w) -> Rabs (q - scaled) <= / 2 / 10 ^ 2 ->
  Rabs (q * (1 / w) - x) <= x / 199.
Proof.
  intros W S X R Q. assert (B : bpow radix2 (-50) <= 1 / 1000000) by (cbn; lra).
  assert (XW : 0 < x * w) by (apply Rmult_lt_0_compat; lra).
  assert (R' : Rabs (scaled - x * w) <= x * w / 1000000).
  { eapply Rle_trans; [exact R|]. replace (x * w / 1000000) with (1 / 1000000 * (x * w)) by field. apply Rmult_le_compat_r; lra. }
  apply Rabs_le_inv in R', Q. cbn [pow] in Q.
  replace (q * (1 / w) - x) with ((q - x * w) * / w) by (field; lra).
  rewrite Rabs_mult, (Rabs_pos_eq (/ w)) by (apply Rlt_le, Rinv_0_lt_compat; lra).
  apply Rle_trans with (x * w / 199 * / w); [|apply Req_le; field; lra].
  apply Rmult_le_compat_r; [apply Rlt_le, Rinv_0_lt_compat; lra|]. apply Rabs_le. lra.
Qed.
Theorem C99_byte_rates : forall c v, non_negative v ->
  exists s x, to_string c (bytes_per_second_measurement v) = Some (Val s) /\
    read_byte_rate s = Some x /\
    (B2R per_hour <= B2R v -> Rabs (x - B2R v) <= B2R v / 199) /\
    (B2R v < B2R per_hour -> x = 0).
Proof.
  intros c v NN. pose proof (sign_nonneg v NN) as V0.
  destruct (C52_byte_rates c v (proj1 NN) V0) as (k & scaled & u & D & SF & C). cbv zeta in C.
  unfold to_string. rewrite D. cbn [bind text_string]. clear D.
  pose proof pm_R as PM. pose proof ph_R as PH.
  assert (DONE : forall w, unit_like u -> rate_units u = Some w -> non_negative scaled ->
    exists q, read_byte_rate (fixed k scaled ++ u)%string = Some (q * w) /\ Rabs (q - B2R scaled) <= / 2 / 10 ^ k /\
      exists n, q = quantity (n, k) /\ (0 <= n)%Z).
  { intros w UL RU SN. destruct (fixed_amount k scaled u SN UL) as (q & RA & RE & n & N).
    exists q. split; [|split; [exact RE|exists n; exact N]]. unfold read_byte_rate, read_with. rewrite RA, RU. reflexivity. }
  assert (SPOS : 1 <= B2R scaled -> non_negative scaled).
  { intros H. split; [exact SF|]. apply pos_Bsign; [exact SF|lra]. }
  destruct C as [(X1 & -> & size & (I & SZ & _) & SR & S1 & _)|[(X & -> & -> & (S1 & _) & SR)|[(X & -> & -> & (S1 & _) & SR)|(X & -> & -> & SE)]]].
  - destruct SZ as [SZ|[SZ _]]; [|lra].
    assert (UL : unit_like u /\ rate_units u = Some (size / 1) /\ 0 < size).
    { clear - I. cbn in I. decompose [or] I; try contradiction; match goal with H : (_, _) = (u, size) |- _ => injection H as <- <- end;
        (split; [reflexivity|split; [reflexivity|lra]]). }
    destruct UL as (UL & RU & SP). destruct (DONE _ UL RU (SPOS S1)) as (q & Q1 & Q2 & _).
    exists (fixed 2 scaled ++ u)%string, (q * (size / 1)). split; [reflexivity|]. split; [exact Q1|]. split; [|intros; lra]. intros _.
    replace (q * (size / 1) - B2R v) with ((q - B2R scaled) * size) by (rewrite SR; field; lra).
    rewrite Rabs_mult, (Rabs_pos_eq size) by lra.
    apply Rle_trans with (/ 2 / 10 ^ 2 * size); [apply Rmult_le_compat_r; [lra|exact Q2]|].
    replace (/ 2 / 10 ^ 2 * size) with (size / 200) by (cbn [pow]; field). lra.
  - destruct (DONE (1 / 60) eq_refl eq_refl (SPOS S1)) as (q & Q1 & Q2 & _).
    exists (fixed 2 scaled ++ "b/min")%string, (q * (1 / 60)). split; [reflexivity|]. split; [exact Q1|]. split; [|intros; lra]. intros _.
    apply (rate_bounds (B2R scaled)); try assumption; lra.
  - destruct (DONE (1 / 3600) eq_refl eq_refl (SPOS S1)) as (q & Q1 & Q2 & _).
    exists (fixed 2 scaled ++ "b/hr")%string, (q * (1 / 3600)). split; [reflexivity|]. split; [exact Q1|]. split; [|intros; lra]. intros _.
    apply (rate_bounds (B2R scaled)); try assumption; lra.
  - subst scaled. destruct (DONE (1 / 1) eq_refl eq_refl NN) as (q & Q1 & Q2 & n & -> & N).
    exists (fixed 0 v ++ "b/s")%string, (quantity (n, 0%nat) * (1 / 1)). split; [reflexivity|]. split; [exact Q1|]. split; [intros; lra|]. intros _.
    rewrite (tiny_quantity n 0 (B2R v) N eq_refl Q2) by lra. ring.
Qed.
Print Assumptions C99_byte_rates.

(** ** C99: quantities in a unit of the user's: the text is a number and the unit *)
Definition unit_text (v : f64) (u : string) : option (res string) :=
  let (p, c) := custom_unit_measurement no_caches v u in to_string c p.
Definition unit_rate_text (v : f64) (u : string) : option (res string) :=
  let (p, c) := custom_unit_per_second_measurement no_caches v u in to_string c p.

Lemma fixed_decimal (k : nat) (x : f64) : non_negative x ->
  exists n, read_decimal (fixed k x) = Some (n, k) /\ (0 <= n)%Z /\ Rabs (quantity (n, k) - B2R x) <= / 2 / 10 ^ k.
Proof.
  intros [F S]. destruct (fixed_spec 53 1024 k x F S) as (n & -> & N & R). exists n. rewrite read_decimals by exact N. auto.
Qed.
Theorem C99_custom_units : forall v u, non_negative v ->
  exists num, unit_text v u = Some (Val (num ++ u)%string) /\
    (100000 <= B2R v -> exists x, read_scientific num = Some x /\ Rabs (x - B2R v) <= B2R v / 2000) /\
    (1 <= B2R v < 100000 -> exists x, read_decimal num = Some (x, 2%nat) /\ Rabs (quantity (x, 2%nat) - B2R v) <= 5 / 1000) /\
    (B2R v < 1 -> exists x, read_decimal num = Some (x, 0%nat) /\ Rabs (IZR x - B2R v) <= 1 / 2).
Proof.
  intros v u NN. pose proof (sign_nonneg v NN) as V0.
  destruct (C52_custom_units v u (proj1 NN) V0) as (A & B & C).
  assert (E : forall t, first_unit_display v u = Some (Val t) -> unit_text v u = Some (Val (text_string t))).
  { intros t H. unfold first_unit_display in H. unfold unit_text, to_string. destruct (custom_unit_measurement no_caches v u) as [p c].
    rewrite H. reflexivity. }
  destruct (Rle_lt_dec 100000 (B2R v)) as [L|L]; [|destruct (Rle_lt_dec 1 (B2R v)) as [L'|L']].
  - exists (exponential 3 v). split; [exact (E _ (A L))|]. split; [|split; intros; lra]. intros _.
    destruct (exponential_spec 53 1024 3 v (proj1 NN) ltac:(lra)) as (n & e & -> & HE & HN & R).
    eexists. split; [apply read_scientific_spec; [|exact HE]|].
    + assert (0 < 10 ^ Z.of_nat 3)%Z by reflexivity. lia.
    + eapply Rle_trans; [exact R|]. apply Req_le. cbn [pow]. field.
  - exists (fixed 2 v). split; [exact (E _ (B (conj L' L)))|]. split; [intros; lra|]. split; [|intros; lra]. intros _.
    destruct (fixed_decimal 2 v NN) as (n & RD & _ & R). exists n. split; [exact RD|]. cbn [pow] in R. lra.
  - exists (fixed 0 v). split; [exact (E _ (C L'))|]. split; [intros; lra|]. split; [intros; lra|]. intros _.
    destruct (fixed_decimal 0 v NN) as (n & RD & _ & R). exists n. split; [exact RD|].
    unfold quantity in R. cbn [fst snd pow] in R. unfold Rdiv in R. rewrite Rinv_1, !Rmult_1_r in R. lra.
Qed.
Print Assumptions C99_custom_units.

Theorem C99_custom_unit_rates : forall v u, non_negative v ->
  exists num per seconds, unit_rate_text v u = Some (Val (num ++ u ++ "/" ++ per)%string) /\ per_seconds per = Some seconds /\
    (100000 <= B2R v -> exists x, read_scientific num = Some x /\ Rabs (x / seconds - B2R v) <= B2R v / 2000) /\
    (B2R per_hour <= B2R v < 100000 -> exists x, read_decimal num = Some (x, 2%nat) /\ Rabs (quantity (x, 2%nat) / seconds - B2R v) <= B2R v / 199) /\
    (B2R v < B2R per_hour -> num = "0"%string).
Proof.
  intros v u NN. pose proof (sign_nonneg v NN) as V0.
  destruct (C52_custom_unit_rates v u (proj1 NN) V0) as (A & B & C & D & E0). cbv zeta in *.
  pose proof pm_R as PM. pose proof ph_R as PH.
  assert (E : forall t, first_unit_rate_display v u = Some (Val t) -> unit_rate_text v u = Some (Val (text_string t))).
  { intros t H. unfold first_unit_rate_display in H. unfold unit_rate_text, to_string. destruct (custom_unit_per_second_measurement no_caches v u) as [p c].
    rewrite H. reflexivity. }
  assert (SPOS : forall scaled : f64, is_finite scaled = true -> 1 <= B2R scaled -> non_negative scaled).
  { intros s SF H. split; [exact SF|]. apply pos_Bsign; [exact SF|lra]. }
  destruct (Rle_lt_dec 100000 (B2R v)) as [L|L]; [|destruct (Rle_lt_dec 1 (B2R v)) as [L1|L1];
    [|destruct (Rle_lt_dec (B2R per_minute) (B2R v)) as [L2|L2]; [|destruct (Rle_lt_dec (B2R per_hour) (B2R v)) as [L3|L3]]]].
  - exists (exponential 3 v), "s"%string, 1. split; [exact (E _ (A L))|]. split; [reflexivity|]. split; [|split; intros; lra]. intros _.
    destruct (exponential_spec 53 1024 3 v (proj1 NN) ltac:(lra)) as (n & e & -> & HE & HN & R).
    eexists. split; [apply read_scientific_spec; [|exact HE]|].
    + assert (0 < 10 ^ Z.of_nat 3)%Z by reflexivity. lia.
    + unfold Rdiv at 1. rewrite Rinv_1, Rmult_1_r. eapply Rle_trans; [exact R|]. apply Req_le. cbn [pow]. field.
  - exists (fixed 2 v), "s"%string, 1. split; [exact (E _ (B (conj L1 L)))|]. split; [reflexivity|]. split; [intros; lra|]. split; [|intros; lra]. intros _.
    destruct (fixed_decimal 2 v NN) as (n & RD & _ & R). exists n. split; [exact RD|]. cbn [pow] in R. unfold Rdiv at 1. rewrite Rinv_1, Rmult_1_r. lra.
  - destruct (C (conj L2 L1)) as (s & F & SF & (S1 & _) & SR). destruct (fixed_decimal 2 s (SPOS s SF S1)) as (n & RD & _ & R).
    exists (fixed 2 s), "min"%string, 60. split; [exact (E _ F)|]. split; [reflexivity|]. split; [intros; lra|]. split; [|intros; lra]. intros _.
    exists n. split; [exact RD|]. replace (quantity (n, 2%nat) / 60) with (quantity (n, 2%nat) * (1 / 60)) by field.
    apply (rate_bounds (B2R s)); try assumption; lra.
  - destruct (D (conj L3 L2)) as (s & F & SF & (S1 & _) & SR). destruct (fixed_decimal 2 s (SPOS s SF S1)) as (n & RD & _ & R).
    exists (fixed 2 s), "hr"%string, 3600. split; [exact (E _ F)|]. split; [reflexivity|]. split; [intros; lra|]. split; [|intros; lra]. intros _.
    exists n. split; [exact RD|]. replace (quantity (n, 2%nat) / 3600) with (quantity (n, 2%nat) * (1 / 3600)) by field.
    apply (rate_bounds (B2R s)); try assumption; lra.
  - exists "0"%string, "s"%string, 1. split; [|split; [reflexivity|split; [intros; lra|split; [intros; lra|reflexivity]]]].
    rewrite (E _ (E0 L3)). cbn [text_string]. destruct (fixed_spec 53 1024 0 v (proj1 NN) (proj2 NN)) as (n & -> & N & R).
    pose proof (tiny_quantity n 0 (B2R v) N eq_refl R ltac:(lra)) as Q. unfold quantity in Q. cbn [fst snd pow] in Q.
    assert (Z : n = 0%Z) by (apply eq_IZR; lra). rewrite Z. reflexivity.
Qed.
Print Assumptions C99_custom_unit_rates.

(** ** C100: the text of a duration is exact: it can be read back, so different durations have different texts *)
Theorem C100_duration_text : forall d, (0 <= d)%Z -> read_duration (duration_debug d) = Some (IZR d).
Proof. exact read_duration_debug. Qed.
Print Assumptions C100_duration_text.
Theorem C100_duration_texts_differ : forall d d', (0 <= d)%Z -> (0 <= d')%Z -> duration_debug d = duration_debug d' -> d = d'.
Proof.
  intros d d' H H' E. apply eq_IZR. pose proof (read_duration_debug d H) as A. rewrite E, read_duration_debug in A by exact H'. congruence.
Qed.
Print Assumptions C100_duration_texts_differ.
(** a duration measurement is shown exactly below 2^50 ns (13 days), and to 2^-51 above *)
Theorem C100_duration_measurement : forall c d, duration_sane d ->
  exists s x, to_string c (duration_measurement d) = Some (Val s) /\ read_duration s = Some x /\
    Rabs (x - IZR d) <= / 2 + bpow radix2 (-51) * IZR d /\ ((d < 2 ^ 50)%Z -> x = IZR d).
Proof.
  intros c d H. destruct (C66_duration_measurement c d H) as (d' & E & R & X).
  assert (D0 : (0 <= d')%Z).
  { unfold display in E. cbn in E. destruct H as [H0 H1].
    destruct (Z.le_gt_cases 0 d') as [|C]; [assumption|exfalso].
    apply Rabs_le_inv in R. assert (IZR d' <= -1) by (apply IZR_le; lia). assert (0 <= IZR d) by (apply IZR_le; lia).
    assert (B : bpow radix2 (-51) <= 1 / 1000000) by (cbn; lra).
    assert (bpow radix2 (-51) * IZR d <= 1 / 1000000 * IZR d) by (apply Rmult_le_compat_r; assumption). lra. }
  exists (duration_debug d'), (IZR d'). unfold to_string. rewrite E. split; [reflexivity|]. split; [apply read_duration_debug, D0|].
  split; [exact R|]. intros L. f_equal. exact (X L).
Qed.
Print Assumptions C100_duration_measurement.

(** ** The expectations of the code's own tests (presentable_measurements.rs:185-268), as examples *)
Definition shown_as (r : option (res string)) (s : string) : bool :=
  match r with Some (Val t) => String.eqb t s | _ => false end.
Definition ten_15 : f64 := f64_div (lit 1015) (lit 100).                    (* the literal 10.15 *)
Definition kilo (x : f64) : f64 := f64_mul (lit 1024) x.
Example C100_tests_duration :
  forallb (fun x : Z * string => shown_as (to_string no_caches (duration_measurement (fst x))) (snd x))
    [ (3600000000000, "3600s"); (60000000000, "60s"); (0, "0ns"); (1000000, "1ms"); (1000, "1µs") ]%Z%string = true.
Proof. vm_compute. reflexivity. Qed.
Example C99_tests_bytes :
  forallb (fun x : f64 * string => shown_as (to_string no_caches (bytes_measurement (fst x))) (snd x))
    [ (lit 0, "0b"); (ten_15, "10b"); (kilo ten_15, "10.15KiB"); (kilo (kilo ten_15), "10.15MiB");
      (kilo (kilo (kilo ten_15)), "10.15GiB"); (kilo (kilo (kilo (kilo ten_15))), "10.15TiB") ]%string = true.
Proof. vm_compute. reflexivity. Qed.
Example C99_tests_byte_rates :
  forallb (fun x : f64 * string => shown_as (to_string no_caches (bytes_per_second_measurement (fst x))) (snd x))
    [ (lit 0, "0b/s"); (f64_div (lit 11) (lit 1000), "39.60b/hr"); (f64_div (lit 921) (lit 1000), "55.26b/min");
      (ten_15, "10.15b/s"); (kilo ten_15, "10.15KiB/s"); (kilo (kilo ten_15), "10.15MiB/s");
      (kilo (kilo (kilo ten_15)), "10.15GiB/s"); (kilo (kilo (kilo (kilo ten_15))), "10.15TiB/s") ]%string = true.
Proof. vm_compute. reflexivity. Qed.
Definition tenth (n : Z) : f64 := f64_div (lit n) (lit 10).
Example C99_tests_custom_units :
  forallb (fun x : f64 * string => shown_as (unit_text (fst x) "req") (snd x))
    [ (lit 0, "0req"); (ten_15, "10.15req"); (tenth 103936, "10393.60req"); (tenth 106430464, "1.064e7req");
      (tenth 108984795136, "1.090e10req"); (tenth 111600430219264, "1.116e13req") ]%string = true.
Proof. vm_compute. reflexivity. Qed.
Example C99_tests_custom_unit_rates :
  forallb (fun x : f64 * string => shown_as (unit_rate_text (fst x) "req") (snd x))
    [ (lit 0, "0req/s"); (f64_div (lit 11) (lit 1000), "39.60req/hr"); (f64_div (lit 92) (lit 100), "55.20req/min");
      (ten_15, "10.15req/s"); (tenth 103936, "10393.60req/s"); (tenth 106430464, "1.064e7req/s");
      (tenth 108984795136, "1.090e10req/s"); (tenth 111600430219264, "1.116e13req/s") ]%string = true.
Proof. vm_compute. reflexivity. Qed.
(** the floats of these tests meet the hypotheses *)
Example C99_example : non_negative ten_15 /\ non_negative (kilo ten_15) /\ non_negative (f64_div (lit 11) (lit 1000)).
Proof. unfold non_negative. vm_compute. auto. Qed.
(** [-0.0] is the exception: its text has a sign *)
Example C99_negative_zero : to_string no_caches (bytes_measurement (B754_zero true)) = Some (Val "-0b"%string).
Proof. vm_compute. reflexivity. Qed.
