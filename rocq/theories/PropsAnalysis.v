(** * Property theorems C01-C11, C28, C44: the complexity analyses.

    Vocabulary: [analyse64 t l u1 u2 n1 n2] is the crate's [analyse_complexity]
    in IEEE binary64 with tolerance [t] and math library [l]; [resizing64] is
    [analyse_set_resizing_iterator_complexity]; the [analyse_time_...] and
    [analyse_space_...] functions are the public entry points on durations
    (nanoseconds) and pass measurements.  [analyseR]/[resizingR] are the same
    code over the real numbers.  [cle a b] / [clt a b]: "a is not worse / strictly
    better than b".  [growth m] = max_used_memory - used_memory_before. *)
From Coq Require Import ZArith Reals Lra Lia Bool List.
From Flocq Require Import Core.Core IEEE754.BinarySingleNaN.
From Verif Require Import Machine Complexity Floats Analysis GrowthSpec AnalysisF64 AnalysisF64b
  AnalysisF64c AnalysisF64d AnalysisF64e AnalysisR Demo.
Import ListNotations.
Open Scope R_scope.

(** ** C01 *)
Theorem C01_monotone : forall (t : tolerance) (l : libm) (u1 u2 u2' n1 n2 : f64),
  is_finite u1 = true -> 0 < B2R u1 -> 0 <= toR64 u2 -> f64_leb u2 u2' = true ->
  cle (analyse64 t l u1 u2 n1 n2) (analyse64 t l u1 u2' n1 n2).
Proof. exact analyse64_mono. Qed.
Print Assumptions C01_monotone.

Theorem C01_monotone_time : forall t l (n1 n2 : Z) (t1 t2 t2' : duration),
  duration_sane t1 -> (0 < t1)%Z -> duration_sane t2 -> duration_sane t2' -> (t2 <= t2')%Z ->
  cle (analyse_time_complexity t l n1 n2 t1 t2) (analyse_time_complexity t l n1 n2 t1 t2') /\
  cle (analyse_time_complexity_constant_set t l n1 n2 t1 t2)
      (analyse_time_complexity_constant_set t l n1 n2 t1 t2').
Proof.
  exact (fun t l n1 n2 t1 t2 t2' a b c d e =>
    conj (time_mono t l n1 n2 t1 t2 t2' a b c d e) (time_mono_constant t l n1 n2 t1 t2 t2' a b c d e)).
Qed.
Print Assumptions C01_monotone_time.

Theorem C01_monotone_space : forall b t l (n1 n2 : Z) (m1 m2 m2' : space_pass),
  space_ok m1 -> (0 < growth m1)%Z -> space_ok m2 -> space_ok m2' -> (growth m2 <= growth m2')%Z ->
  (exists c c', analyse_space_complexity b t l n1 n2 m1 m2 = Val c /\
                analyse_space_complexity b t l n1 n2 m1 m2' = Val c' /\ cle c c') /\
  (exists c c', analyse_space_complexity_constant_set b t l n1 n2 m1 m2 = Val c /\
                analyse_space_complexity_constant_set b t l n1 n2 m1 m2' = Val c' /\ cle c c') /\
  (exists c c', analyse_space_complexity_set_resizing b t l n1 m1 m2 = Val c /\
                analyse_space_complexity_set_resizing b t l n1 m1 m2' = Val c' /\ cle c c').
Proof. exact space_mono. Qed.
Print Assumptions C01_monotone_space.

(** 1 s, then 2 s (resp. 4 s), sets of 1024 and 2048: O(n), then O(n^2). *)
Example C01_example :
  duration_sane 1000000000 /\ (0 < 1000000000)%Z /\ duration_sane 2000000000 /\ duration_sane 4000000000 /\
  analyse_time_complexity Tol10 demo_libm 1024 2048 1000000000 2000000000 = ON /\
  analyse_time_complexity Tol10 demo_libm 1024 2048 1000000000 4000000000 = ON2.
Proof. unfold duration_sane. rewrite nps_val. repeat split; try lia; vm_compute; reflexivity. Qed.

(** ** C02 *)
Theorem C02_equal_usage : forall t l (u n1 n2 : f64), is_finite u = true -> B2R u <> 0 ->
  analyse64 t l u u n1 n2 = O1.
Proof. exact analyse64_equal. Qed.
Print Assumptions C02_equal_usage.

Theorem C02_equal_usage_space : forall b t l (n1 n2 : Z) (m1 m2 : space_pass),
  space_ok m1 -> space_ok m2 -> (0 < growth m1)%Z -> growth m1 = growth m2 ->
  analyse_space_complexity b t l n1 n2 m1 m2 = Val O1 /\
  analyse_space_complexity_constant_set b t l n1 n2 m1 m2 = Val O1 /\
  analyse_space_complexity_set_resizing b t l n1 m1 m2 = Val O1.
Proof. exact space_equal. Qed.
Print Assumptions C02_equal_usage_space.

Theorem C02_equal_usage_time : forall t l (n1 n2 : Z) (d : duration), duration_sane d -> (0 < d)%Z ->
  analyse_time_complexity t l n1 n2 d d = O1 /\
  analyse_time_complexity_constant_set t l n1 n2 d d = O1 /\
  analyse_time_complexity_set_resizing t l n1 d d = O1.
Proof.
  intros t l n1 n2 d H P. destruct (as_secs_spec d H) as [F _]. pose proof (as_secs_pos d H ltac:(lia)) as Q.
  unfold analyse_time_complexity, analyse_time_complexity_constant_set, analyse_time_complexity_set_resizing.
  rewrite !analyse64_equal, resizing64_equal by (assumption || lra). auto.
Qed.
Print Assumptions C02_equal_usage_time.

Definition ex_m1 : space_pass := SpacePass 100 100 356 90.
Definition ex_m2 : space_pass := SpacePass 7000 7100 7256 6000.
Example C02_example : space_ok ex_m1 /\ space_ok ex_m2 /\ (0 < growth ex_m1)%Z /\ growth ex_m1 = growth ex_m2.
Proof. unfold space_ok, growth, two64; cbn; repeat split; lia. Qed.

(** ** C03 *)
Theorem C03_no_false_alarm : forall (t : tolerance) (f : law) (u1 u2 n1 n2 : R),
  1 < n1 -> 1 < n2 ->
  u2 / u1 <= (1 + tolR t) * (law_fun f n2 / law_fun f n1) ->
  cle (analyseR t u1 u2 n1 n2) (law_class f).
Proof. exact no_false_alarm. Qed.
Print Assumptions C03_no_false_alarm.

Example C03_example : 1 < 10 /\ 1 < 20 /\ 108 / 50 <= (1 + tolR Tol10) * (law_fun Ln 20 / law_fun Ln 10).
Proof. unfold tolR, law_fun. lra. Qed.

(** ** C04 *)
Theorem C04_no_missed_regression : forall (t : tolerance) (f : law) (u1 u2 : R) (n1 n2 : Z),
  (2 <= n1 <= n2)%Z -> ~ (n1 = 2 /\ n2 = 3)%Z ->
  (1 + tolR t) * (law_fun f (IZR n2) / law_fun f (IZR n1)) < u2 / u1 ->
  clt (law_class f) (analyseR t u1 u2 (IZR n1) (IZR n2)).
Proof. exact (fun t f u1 u2 n1 n2 a b => no_missed_regression t f u1 u2 n1 n2 (conj a b)). Qed.
Print Assumptions C04_no_missed_regression.

Theorem C04_refuted_at_2_3 : forall t : tolerance, exists u1 u2, 0 < u1 /\
  (1 + tolR t) * (law_fun Ln 3 / law_fun Ln 2) < u2 / u1 /\ analyseR t u1 u2 2 3 = OLogN.
Proof. exact small_sizes_hide. Qed.
Print Assumptions C04_refuted_at_2_3.

Example C04_example : (2 <= 100 <= 200)%Z /\ ~ (100 = 2 /\ 200 = 3)%Z /\
  (1 + tolR Tol25) * (law_fun Ln2 (IZR 200) / law_fun Ln2 (IZR 100)) < 600 / 100.
Proof. unfold tolR, law_fun. repeat split; try lia; lra. Qed.

(** ** C05 *)
Theorem C05_exact_recognition : forall (t : tolerance) (f : law) (c n1 n2 : R),
  0 < c -> 4 <= n1 -> 2 * n1 <= n2 ->
  (f = Llog \/ f = Lnlogn -> 1 + tolR t < ln n2 / ln n1) ->
  analyseR t (c * law_fun f n1) (c * law_fun f n2) n1 n2 = law_class f.
Proof. exact exact_recognition'. Qed.
Print Assumptions C05_exact_recognition.

Theorem C05_logarithms_invisible : forall (t : tolerance) (c n1 : R), 0 < c -> 1024 <= n1 ->
  analyseR t (c * ln n1) (c * ln (2 * n1)) n1 (2 * n1) = O1 /\
  analyseR t (c * (n1 * ln n1)) (c * (2 * n1 * ln (2 * n1))) n1 (2 * n1) = ON.
Proof. exact logs_invisible_1024. Qed.
Print Assumptions C05_logarithms_invisible.

Example C05_example : 0 < 3 /\ 4 <= 4 /\ 2 * 4 <= 16 /\ 1 + tolR Tol25 < ln 16 / ln 4.
Proof.
  repeat split; try lra. pose proof ln2_pos as P.
  assert (E16 : ln 16 = 4 * ln 2) by (replace 16 with (2 ^ 4) by ring; rewrite ln_pow by lra; simpl; ring).
  assert (E4 : ln 4 = 2 * ln 2) by (replace 4 with (2 ^ 2) by ring; rewrite ln_pow by lra; simpl; ring).
  rewrite E16, E4. replace (4 * ln 2 / (2 * ln 2)) with 2 by (field; lra). unfold tolR. lra.
Qed.

(** ** C06 *)
Theorem C06_unit_independent : forall t (k u1 u2 n1 n2 : R), 0 < k -> 0 < u1 ->
  cle (analyseR t u1 u2 n1 n2) ON4 ->
  analyseR t (k * u1) (k * u2) n1 n2 = analyseR t u1 u2 n1 n2.
Proof. exact unit_independent. Qed.
Print Assumptions C06_unit_independent.

Theorem C06_exponential_classes_depend_on_units : forall t,
  analyseR t 100 10000 10 20 = OkN /\
  analyseR t (1 / 100 * 100) (1 / 100 * 10000) 10 20 = WorseThanExponential /\
  analyseR t (100 * 100) (100 * 10000) 10 20 = BetweenON4AndOkN.
Proof. exact exponential_units. Qed.
Print Assumptions C06_exponential_classes_depend_on_units.

Example C06_example : 0 < 1000 /\ 0 < 50 /\ cle (analyseR Tol10 50 105 10 20) ON4.
Proof.
  repeat split; try lra.
  assert (H : cle (analyseR Tol10 50 105 10 20) (law_class Ln)).
  { apply no_false_alarm; unfold law_ratio, law_fun, tolR; lra. }
  unfold cle in *. cbn [law_class discr] in *. lia.
Qed.

(** ** C07 *)
Theorem C07_zero_usage : forall b t l (n1 n2 : Z) (m1 m2 : space_pass),
  powf_zero_ok l -> (1 <= n1 < two32)%Z -> (1 <= n2 < two32)%Z ->
  space_ok m1 -> growth m1 = 0%Z -> space_ok m2 -> growth m2 = 0%Z ->
  analyse_space_complexity b t l n1 n2 m1 m2 = Val WorseThanExponential /\
  analyse_space_complexity_constant_set b t l n1 n2 m1 m2 = Val WorseThanExponential /\
  analyse_space_complexity_set_resizing b t l n1 m1 m2 = Val BetweenOLogNAndON.
Proof. exact space_zero_both. Qed.
Print Assumptions C07_zero_usage.

Theorem C07_zero_first_pass : forall b t l (n1 n2 : Z) (m1 m2 : space_pass),
  powf_zero_ok l -> log2_sign_ok l -> powi_sign_ok l ->
  (1 <= n1 < two32)%Z -> (1 <= n2 < two32)%Z ->
  space_ok m1 -> growth m1 = 0%Z -> space_ok m2 -> (0 < growth m2)%Z ->
  analyse_space_complexity b t l n1 n2 m1 m2 = Val WorseThanExponential /\
  analyse_space_complexity_constant_set b t l n1 n2 m1 m2 = Val WorseThanExponential /\
  analyse_space_complexity_set_resizing b t l n1 m1 m2 = Val BetweenONAndONLogN.
Proof. exact space_zero_first. Qed.
Print Assumptions C07_zero_first_pass.

Theorem C07_zero_time : forall t l (n1 n2 : Z) (t2 : duration),
  powf_zero_ok l -> log2_sign_ok l -> powi_sign_ok l ->
  (1 <= n1 < two32)%Z -> (1 <= n2 < two32)%Z -> duration_sane t2 ->
  analyse_time_complexity t l n1 n2 0%Z t2 = WorseThanExponential /\
  analyse_time_complexity_constant_set t l n1 n2 0%Z t2 = WorseThanExponential /\
  analyse_time_complexity_set_resizing t l n1 0%Z t2 =
    (if (t2 =? 0)%Z then BetweenOLogNAndON else BetweenONAndONLogN).
Proof. exact time_zero. Qed.
Print Assumptions C07_zero_time.

Definition ex_none1 : space_pass := SpacePass 5000 5000 5000 5000.
Definition ex_none2 : space_pass := SpacePass 9000 8000 9000 7000.
Example C07_example :
  powf_zero_ok demo_libm /\ log2_sign_ok demo_libm /\ powi_sign_ok demo_libm /\
  space_ok ex_none1 /\ growth ex_none1 = 0%Z /\ space_ok ex_none2 /\ growth ex_none2 = 0%Z /\
  space_ok ex_m2 /\ (0 < growth ex_m2)%Z.
Proof.
  split; [exact demo_powf_zero|]. split; [exact demo_log2_sign|]. split; [exact demo_powi_sign|].
  unfold space_ok, growth, two64; cbn; repeat split; lia.
Qed.

(** ** C08 *)
Theorem C08_size_one_time : forall t l (n2 : Z) (t1 t2 : duration),
  log2_one_ok l -> log2_pos_ok l ->
  duration_sane t1 -> (0 < t1)%Z -> duration_sane t2 -> (2 <= n2 < two32)%Z ->
  cle (analyse_time_complexity t l 1%Z n2 t1 t2) BetweenO1AndOLogN /\
  cle (analyse_time_complexity_constant_set t l 1%Z n2 t1 t2) BetweenO1AndOLogN /\
  cle (analyse_time_complexity_set_resizing t l 1%Z t1 t2) BetweenO1AndOLogN.
Proof. exact time_size_one. Qed.
Print Assumptions C08_size_one_time.

Theorem C08_size_one_space : forall b t l (n2 : Z) (m1 m2 : space_pass),
  log2_one_ok l -> log2_pos_ok l ->
  space_ok m1 -> (0 < growth m1)%Z -> space_ok m2 -> (2 <= n2 < two32)%Z ->
  (exists c, analyse_space_complexity b t l 1%Z n2 m1 m2 = Val c /\ cle c BetweenO1AndOLogN) /\
  (exists c, analyse_space_complexity_constant_set b t l 1%Z n2 m1 m2 = Val c /\ cle c BetweenO1AndOLogN) /\
  (exists c, analyse_space_complexity_set_resizing b t l 1%Z m1 m2 = Val c /\ cle c BetweenO1AndOLogN).
Proof. exact space_size_one. Qed.
Print Assumptions C08_size_one_space.

(** growth by a factor of 3600 with n from 1 to 2 *)
Example C08_example : log2_one_ok demo_libm /\ log2_pos_ok demo_libm /\
  duration_sane 1000000000 /\ duration_sane 3600000000000 /\ (2 <= 2 < two32)%Z /\
  analyse_time_complexity Tol10 demo_libm 1 2 1000000000 3600000000000 = BetweenO1AndOLogN.
Proof.
  split; [exact demo_log2_one|]. split; [exact demo_log2_pos|].
  unfold duration_sane. rewrite nps_val, two32_val. repeat split; try lia.
Qed.

(** ** C09 *)
Theorem C09_resizing_monotone : forall (t : tolerance) (l : libm) (n u1 u2 u2' : f64),
  is_finite u1 = true -> 0 < B2R u1 ->
  is_nan u2 = false /\ Bsign u2 = false -> is_nan u2' = false /\ Bsign u2' = false ->
  f64_leb u2 u2' = true ->
  cle (resizing64 t l u1 u2 n) (resizing64 t l u1 u2' n).
Proof. exact resizing64_mono. Qed.
Print Assumptions C09_resizing_monotone.

Theorem C09_resizing_monotone_time : forall t l (n : Z) (t1 t2 t2' : duration),
  duration_sane t1 -> (0 < t1)%Z -> duration_sane t2 -> duration_sane t2' -> (t2 <= t2')%Z ->
  cle (analyse_time_complexity_set_resizing t l n t1 t2)
      (analyse_time_complexity_set_resizing t l n t1 t2').
Proof. exact time_mono_resizing. Qed.
Print Assumptions C09_resizing_monotone_time.

Example C09_example :
  analyse_time_complexity_set_resizing Tol10 demo_libm 1024 1000000000 1000000000 = O1 /\
  analyse_time_complexity_set_resizing Tol10 demo_libm 1024 1000000000 3000000000 = ON /\
  duration_sane 1000000000 /\ duration_sane 3000000000.
Proof. unfold duration_sane. rewrite nps_val. repeat split; try lia; vm_compute; reflexivity. Qed.

(** ** C10 *)
Theorem C10_saturates : forall (t : tolerance) (l : libm) (u1 u2 n : f64),
  cle (resizing64 t l u1 u2 n) BetweenONAndONLogN.
Proof. exact resizing64_saturates. Qed.
Print Assumptions C10_saturates.

(** 1 s then one year: still only BetweenONAndONLogN *)
Example C10_example :
  analyse_time_complexity_set_resizing Tol10 demo_libm 1024 1000000000 31536000000000000 = BetweenONAndONLogN.
Proof. vm_compute. reflexivity. Qed.

(** ** C11 *)
Theorem C11_constant_cost : forall t c (n : nat), 0 < c -> (1 <= n)%nat ->
  resizingR t (total_cost (fun _ => c) 0 n) (total_cost (fun _ => c) n n) (INR n) = O1.
Proof. exact resizingR_const. Qed.
Print Assumptions C11_constant_cost.

Theorem C11_linear_cost : forall t c (n : nat), 0 < c -> (6 <= n)%nat ->
  resizingR t (total_cost (fun i => c * INR (S i)) 0 n)
              (total_cost (fun i => c * INR (S i)) n n) (INR n) = ON.
Proof. exact resizingR_linear. Qed.
Print Assumptions C11_linear_cost.

Theorem C11_linear_cost_missed_at_5 :
  resizingR Tol10 (total_cost (fun i => INR (S i)) 0 5) (total_cost (fun i => INR (S i)) 5 5) (INR 5)
    = BetweenOLogNAndON.
Proof. exact resizingR_linear_5. Qed.
Print Assumptions C11_linear_cost_missed_at_5.

Example C11_example : 0 < 2 /\ (6 <= 1000)%nat /\ total_cost (fun i => 2 * INR (S i)) 1 2 = 10.
Proof. repeat split; try lra; try lia. simpl. ring. Qed.

(** ** C28 *)
Theorem C28_sentinel_both : forall b t l (n1 n2 : Z),
  analyse_space_complexity b t l n1 n2 sentinel_space sentinel_space = Val O1 /\
  analyse_space_complexity_constant_set b t l n1 n2 sentinel_space sentinel_space = Val O1 /\
  analyse_space_complexity_set_resizing b t l n1 sentinel_space sentinel_space = Val O1.
Proof. exact sentinel_both. Qed.
Print Assumptions C28_sentinel_both.

Theorem C28_sentinel_first : forall b t l (n1 n2 : Z) (m2 : space_pass),
  space_ok m2 -> (growth m2 < 2 ^ 63)%Z ->
  analyse_space_complexity b t l n1 n2 sentinel_space m2 = Val BetterThanO1 /\
  analyse_space_complexity_constant_set b t l n1 n2 sentinel_space m2 = Val BetterThanO1 /\
  analyse_space_complexity_set_resizing b t l n1 sentinel_space m2 = Val BetterThanO1.
Proof. exact sentinel_first. Qed.
Print Assumptions C28_sentinel_first.

Theorem C28_sentinel_second : forall b t l (n1 n2 : Z) (m1 m2 : space_pass),
  space_ok m1 -> (0 < growth m1)%Z -> space_ok m2 ->
  (exists c s, analyse_space_complexity b t l n1 n2 m1 m2 = Val c /\
     analyse_space_complexity b t l n1 n2 m1 sentinel_space = Val s /\ cle c s) /\
  (exists c s, analyse_space_complexity_constant_set b t l n1 n2 m1 m2 = Val c /\
     analyse_space_complexity_constant_set b t l n1 n2 m1 sentinel_space = Val s /\ cle c s) /\
  (exists c s, analyse_space_complexity_set_resizing b t l n1 m1 m2 = Val c /\
     analyse_space_complexity_set_resizing b t l n1 m1 sentinel_space = Val s /\ cle c s).
Proof. exact sentinel_second. Qed.
Print Assumptions C28_sentinel_second.

Example C28_example : space_ok ex_m2 /\ (growth ex_m2 < 2 ^ 63)%Z /\ (0 < growth ex_m2)%Z /\
  analyse_space_complexity Debug Tol10 demo_libm 1024 2048 ex_m1 sentinel_space = Val WorseThanExponential.
Proof.
  unfold space_ok, growth; cbn [ex_m2 max_used_memory used_memory_before]. rewrite two64_val.
  repeat split; try lia.
Qed.

(** ** C44 *)
Theorem C44_no_creates_time : forall t l (t1 t2 : duration),
  powf_nan_ok l -> log2_zero_ok l -> powi_nan_ok l ->
  duration_sane t1 -> (0 < t1)%Z -> duration_sane t2 ->
  In (analyse_time_complexity_constant_set t l 0%Z 0%Z t1 t2) [BetterThanO1; O1; WorseThanExponential].
Proof. exact time_zero_sizes. Qed.
Print Assumptions C44_no_creates_time.

Theorem C44_no_creates_space : forall b t l (m1 m2 : space_pass),
  powf_nan_ok l -> log2_zero_ok l -> powi_nan_ok l ->
  space_ok m1 -> (0 < growth m1)%Z -> space_ok m2 ->
  exists c, analyse_space_complexity_constant_set b t l 0%Z 0%Z m1 m2 = Val c /\
            In c [BetterThanO1; O1; WorseThanExponential].
Proof. exact space_zero_sizes. Qed.
Print Assumptions C44_no_creates_space.

Example C44_example : powf_nan_ok demo_libm /\ log2_zero_ok demo_libm /\ powi_nan_ok demo_libm /\
  analyse_time_complexity_constant_set Tol10 demo_libm 0 0 1000000000 1200000000 = WorseThanExponential.
Proof.
  split; [exact demo_powf_nan|]. split; [exact demo_log2_zero|]. split; [exact demo_powi_nan|].
  vm_compute. reflexivity.
Qed.
