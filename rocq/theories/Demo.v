(** * A concrete libm, used only to show that hypotheses are satisfiable.

    log2 is exact on powers of two (it is the floor of the logarithm elsewhere),
    powi is repeated multiplication, powf handles the IEEE special cases and is
    otherwise exact for the exponents 1 and 2 (the only ones the examples use). *)
From Coq Require Import ZArith Reals Lra Lia Bool List.
From Flocq Require Import Core.Core IEEE754.BinarySingleNaN.
From Verif Require Import Machine Complexity Floats Analysis AnalysisF64 AnalysisF64b.
Open Scope Z_scope.

Definition demo_log2 (x : f64) : f64 :=
  match x with
  | B754_zero _ => B754_infinity true
  | B754_infinity false => B754_infinity false
  | B754_finite false m e _ =>
      if f64_leb one64 x then
        if f64_leb x one64 then B754_zero false
        else f64_of_int (Z.max 1 (Z.min 1024 (Z.log2 (Zpos m) + e)))
      else f64_of_int (-1)
  | _ => B754_nan
  end.

Definition demo_powi (x : f64) (k : Z) : f64 :=
  let r := Nat.iter (Z.to_nat (k - 1)) (f64_mul x) x in
  if is_nan r then (if is_nan x then r else x) else if Bsign r then x else r.

Definition demo_powf (x y : f64) : f64 :=
  if is_nan y then (if Beqb x one64 then one64 else B754_nan)
  else match x with
       | B754_zero _ => B754_zero false
       | _ => if Beqb y (f64_of_int 2) then f64_mul x x else x
       end.

Definition demo_libm : libm := Libm demo_log2 demo_powi demo_powf.

Lemma demo_powf_zero : powf_zero_ok demo_libm.
Proof. intros y [N _] _. cbn [lm_powf demo_libm]. unfold demo_powf. rewrite N. reflexivity. Qed.

Lemma demo_log2_range k : 1 <= k <= 1024 -> is_finite (f64_of_int k) = true /\ (0 < B2R (f64_of_int k))%R
  /\ Bsign (f64_of_int k) = false.
Proof.
  intros H. split; [apply of_int_fin; lia|]. split.
  - rewrite of_int_exact by lia. apply IZR_lt; lia.
  - apply of_int_sign; lia.
Qed.

Lemma demo_log2_sign : log2_sign_ok demo_libm.
Proof.
  intros x H. cbn [lm_log2 demo_libm]. unfold pos_sign, demo_log2.
  pose proof M64_big as MB. rewrite bpow70 in MB.
  destruct x as [s|s| |s m e Hm].
  - exfalso. simpl in H. lra.
  - destruct s; [exfalso; simpl in H; lra|split; reflexivity].
  - exfalso. simpl in H. lra.
  - set (x := B754_finite s m e Hm) in *.
    assert (F : is_finite x = true) by reflexivity.
    rewrite toR_fin in H by exact F.
    destruct s.
    { exfalso. unfold x, B2R, F2R in H. simpl in H.
      pose proof (bpow_gt_0 radix2 e).
      assert (IZR (Z.neg m) < 0)%R by (apply IZR_lt; lia). nra. }
    assert (L : f64_leb one64 x = true).
    { apply leb_intro; try exact _; try reflexivity. rewrite (toR_fin _ _ x F), toR_fin by apply one_fin.
      rewrite one_R. exact H. }
    rewrite L. destruct (f64_leb x one64); [split; reflexivity|].
    destruct (demo_log2_range (Z.max 1 (Z.min 1024 (Z.log2 (Zpos m) + e)))) as (A & _ & B); [lia|].
    split; [apply fin_not_nan; exact A|exact B].
Qed.

Lemma demo_powi_sign : powi_sign_ok demo_libm.
Proof.
  intros x k [N S]. cbn [lm_powi demo_libm]. unfold demo_powi. cbv zeta.
  generalize (Nat.iter (Z.to_nat (k - 1)) (f64_mul x) x). intros r.
  destruct (is_nan r) eqn:E; [rewrite N; split; assumption|].
  destruct (Bsign r) eqn:E'; split; assumption.
Qed.

Lemma demo_log2_one : log2_one_ok demo_libm.
Proof. unfold log2_one_ok. apply B2SF_inj. vm_compute. reflexivity. Qed.

Lemma demo_log2_pos : log2_pos_ok demo_libm.
Proof.
  intros x F H. cbn [lm_log2 demo_libm]. unfold demo_log2.
  destruct x as [s|s| |s m e Hm]; try discriminate; [simpl in H; lra|].
  set (x := B754_finite s m e Hm) in *.
  destruct s.
  { exfalso. unfold x, B2R, F2R in H. simpl in H.
    pose proof (bpow_gt_0 radix2 e).
    assert (IZR (Z.neg m) < 0)%R by (apply IZR_lt; lia). nra. }
  assert (L : f64_leb one64 x = true).
  { apply leb_intro; try exact _; try reflexivity. rewrite (toR_fin _ _ x F), toR_fin by apply one_fin.
    rewrite one_R. lra. }
  rewrite L. destruct (f64_leb x one64) eqn:L2.
  { exfalso. apply leb_true in L2; try exact _. destruct L2 as (_ & _ & L2).
    rewrite (toR_fin _ _ x F), toR_fin in L2 by apply one_fin. rewrite one_R in L2. lra. }
  destruct (demo_log2_range (Z.max 1 (Z.min 1024 (Z.log2 (Zpos m) + e)))) as (A & B & _); [lia|].
  split; assumption.
Qed.

Lemma demo_powf_nan : powf_nan_ok demo_libm.
Proof. intros u. reflexivity. Qed.

Lemma demo_log2_zero : log2_zero_ok demo_libm.
Proof. unfold log2_zero_ok. apply B2SF_inj. vm_compute. reflexivity. Qed.

Lemma demo_powi_nan : powi_nan_ok demo_libm.
Proof.
  intros k _. cbn [lm_powi demo_libm]. unfold demo_powi. cbv zeta.
  assert (E : forall q, Nat.iter q (f64_mul B754_nan) B754_nan = B754_nan).
  { intros [|q]; reflexivity. }
  rewrite E. reflexivity.
Qed.
