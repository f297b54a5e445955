(** * Machine integers and outcomes of Rust computations.

    Shared vocabulary of every model file.  Nothing here models a function of
    /repo; it models the Rust semantics the functions of /repo are written in. *)
From Coq Require Export List ZArith Lia Bool Permutation.
From Coq Require Import ZifyBool ZifyNat ZifyN.
Export ListNotations.
Open Scope Z_scope.

(** Cargo profile: [Debug] has overflow checks on (the profile [cargo test]
    uses), [Release] has them off and wraps. *)
Inductive build := Debug | Release.

(** Why a computation stopped abnormally. *)
Inductive panic :=
| POverflow          (* "attempt to add/subtract/multiply with overflow" (Debug only) *)
| PDivZero           (* "attempt to divide by zero" / "remainder with a divisor of zero" *)
| PDivOverflow       (* "attempt to divide with overflow" (i32::MIN / -1) *)
| PIndex             (* index or slice bound out of range *)
| PBugLoop           (* ring_buffer.rs:73 panic!("BUG: Infinite loop detected ...") *)
| PDuration          (* Duration::from_secs_f64 on a negative, NaN, infinite or too big value *)
| PExpect            (* Option::expect / unwrap on None *)
| PClosure           (* a user-provided closure panicked *)
| PAssert            (* an explicit panic!(..) reporting a complexity mismatch *)
| PFormat            (* presentable_measurements.rs:38 panic!("Unknown format ...") *)
| PMeasurer.         (* measurer.rs:136 panic!("BUG! ... no before event measurer took place") *)

(** Result of a (sequential) Rust computation: a value, a panic, or a loop that
    never exits when nothing else runs. *)
Inductive res (A : Type) :=
| Val (a : A)
| Panic (p : panic)
| Spin.
Arguments Val {A} a.
Arguments Panic {A} p.
Arguments Spin {A}.

Definition bind {A B} (m : res A) (k : A -> res B) : res B :=
  match m with
  | Val a => k a
  | Panic p => Panic p
  | Spin => Spin
  end.
Notation "x <- m ;; k" := (bind m (fun x => k))
  (at level 61, m at next level, right associativity).

Definition is_val {A} (m : res A) : bool :=
  match m with Val _ => true | _ => false end.

(** ** Unsigned 32-bit and 64-bit arithmetic ([usize] is 64 bits: trusted base) *)
Definition two32 : Z := 2 ^ 32.
Definition two31 : Z := 2 ^ 31.
Definition two64 : Z := 2 ^ 64.

Definition wrap32 (z : Z) : Z := z mod two32.
Definition wrap64 (z : Z) : Z := z mod two64.

(** [x + y], [x - y], [x * y] on an unsigned type of modulus [m]. *)
Definition checked (b : build) (m : Z) (z : Z) : res Z :=
  if (0 <=? z) && (z <? m) then Val z
  else match b with Debug => Panic POverflow | Release => Val (z mod m) end.

Definition u32_add b x y := checked b two32 (x + y).
Definition u32_sub b x y := checked b two32 (x - y).
Definition u32_mul b x y := checked b two32 (x * y).
Definition usize_add b x y := checked b two64 (x + y).
Definition usize_sub b x y := checked b two64 (x - y).

(** ** Signed 32-bit arithmetic *)
Definition to_i32 (z : Z) : Z :=
  let w := z mod two32 in if w <? two31 then w else w - two32.
Definition checked_i32 (b : build) (z : Z) : res Z :=
  if (- two31 <=? z) && (z <? two31) then Val z
  else match b with Debug => Panic POverflow | Release => Val (to_i32 z) end.
Definition i32_add b x y := checked_i32 b (x + y).
Definition i32_sub b x y := checked_i32 b (x - y).
Definition i32_mul b x y := checked_i32 b (x * y).
(** Division truncates toward zero; both checks are on in every profile. *)
Definition i32_div (x y : Z) : res Z :=
  if y =? 0 then Panic PDivZero
  else if (x =? - two31) && (y =? -1) then Panic PDivOverflow
  else Val (Z.quot x y).
(** Signed 64-bit ([isize]) *)
Definition two63 : Z := 2 ^ 63.
Definition to_i64 (z : Z) : Z :=
  let w := z mod two64 in if w <? two63 then w else w - two64.
Definition checked_i64 (b : build) (z : Z) : res Z :=
  if (- two63 <=? z) && (z <? two63) then Val z
  else match b with Debug => Panic POverflow | Release => Val (to_i64 z) end.

(** [as] casts *)
Definition u32_as_i32 (z : Z) : Z := to_i32 z.
Definition i32_as_u32 (z : Z) : Z := z mod two32.
Definition usize_as_isize (z : Z) : Z := to_i64 z.

(** ** Lemmas used everywhere *)
Lemma two32_val : two32 = 4294967296. Proof. reflexivity. Qed.
Lemma two31_val : two31 = 2147483648. Proof. reflexivity. Qed.
Lemma two64_val : two64 = 18446744073709551616. Proof. reflexivity. Qed.
Lemma two63_val : two63 = 9223372036854775808. Proof. reflexivity. Qed.

Lemma checked_in b m z : 0 <= z < m -> checked b m z = Val z.
Proof.
  intros H; unfold checked.
  destruct (0 <=? z) eqn:E1; destruct (z <? m) eqn:E2; simpl; try reflexivity; lia.
Qed.

Lemma checked_i32_in b z : - two31 <= z < two31 -> checked_i32 b z = Val z.
Proof.
  intros H; unfold checked_i32.
  destruct (- two31 <=? z) eqn:E1; destruct (z <? two31) eqn:E2; simpl; try reflexivity; lia.
Qed.

Lemma checked_i64_in b z : - two63 <= z < two63 -> checked_i64 b z = Val z.
Proof.
  intros H; unfold checked_i64.
  destruct (- two63 <=? z) eqn:E1; destruct (z <? two63) eqn:E2; simpl; try reflexivity; lia.
Qed.

Lemma to_i32_in z : 0 <= z < two31 -> to_i32 z = z.
Proof.
  intros H; unfold to_i32. rewrite Z.mod_small by (rewrite two31_val in H; rewrite two32_val; lia).
  destruct (z <? two31) eqn:E; lia.
Qed.

Lemma to_i64_in z : 0 <= z < two63 -> to_i64 z = z.
Proof.
  intros H; unfold to_i64. rewrite Z.mod_small by (rewrite two63_val in H; rewrite two64_val; lia).
  destruct (z <? two63) eqn:E; lia.
Qed.

Lemma bind_val {A B} (m : res A) (k : A -> res B) v :
  bind m k = Val v -> exists a, m = Val a /\ k a = Val v.
Proof. destruct m as [a| |]; simpl; intros H; try discriminate; eauto. Qed.

(** [l[i := x]] *)
Fixpoint upd {A} (i : nat) (x : A) (l : list A) : list A :=
  match l, i with
  | [], _ => []
  | _ :: t, O => x :: t
  | y :: t, S j => y :: upd j x t
  end.

Lemma upd_length {A} i (x : A) l : length (upd i x l) = length l.
Proof. revert i; induction l as [|y t IH]; intros [|i]; simpl; auto. Qed.

Lemma nth_error_upd_eq {A} i (x : A) l :
  (i < length l)%nat -> nth_error (upd i x l) i = Some x.
Proof.
  revert i; induction l as [|y t IH]; intros [|i] H; simpl in *; try lia; auto.
  apply IH; lia.
Qed.

Lemma nth_error_upd_neq {A} i j (x : A) l :
  i <> j -> nth_error (upd i x l) j = nth_error l j.
Proof.
  revert i j; induction l as [|y t IH]; intros [|i] [|j] H; simpl; auto; try congruence.
Qed.

Lemma nth_error_upd {A} i j (x : A) l :
  nth_error (upd i x l) j =
  if Nat.eqb i j then (if Nat.ltb i (length l) then Some x else None) else nth_error l j.
Proof.
  destruct (Nat.eqb_spec i j) as [->|H]; [|apply nth_error_upd_neq; assumption].
  destruct (Nat.ltb_spec j (length l)) as [H|H].
  - apply nth_error_upd_eq; assumption.
  - apply nth_error_None; rewrite upd_length; assumption.
Qed.

(** Consecutive integers [a, a+1, ..., a+n-1]. *)
Fixpoint zseq (a : Z) (n : nat) : list Z :=
  match n with O => [] | S k => a :: zseq (a + 1) k end.

Lemma zseq_length a n : length (zseq a n) = n.
Proof. revert a; induction n as [|n IH]; intros a; simpl; auto. Qed.

Lemma zseq_app a n m : zseq a (n + m) = zseq a n ++ zseq (a + Z.of_nat n) m.
Proof.
  revert a; induction n as [|n IH]; intros a; cbn [Nat.add zseq app].
  - f_equal; lia.
  - rewrite IH. do 2 f_equal. f_equal. lia.
Qed.

Lemma zseq_snoc a n : zseq a (S n) = zseq a n ++ [a + Z.of_nat n].
Proof. replace (S n) with (n + 1)%nat by lia. rewrite zseq_app. reflexivity. Qed.

Lemma in_zseq a n x : In x (zseq a n) <-> a <= x < a + Z.of_nat n.
Proof.
  revert a; induction n as [|n IH]; intros a; cbn [zseq In].
  - lia.
  - rewrite IH. lia.
Qed.

Lemma zseq_nodup a n : NoDup (zseq a n).
Proof.
  revert a; induction n as [|n IH]; intros a; cbn [zseq]; constructor; auto.
  rewrite in_zseq; lia.
Qed.

Lemma nth_error_zseq a n i : (i < n)%nat -> nth_error (zseq a n) i = Some (a + Z.of_nat i).
Proof.
  revert a i; induction n as [|n IH]; intros a [|i] H; try lia; cbn [zseq nth_error].
  - f_equal; lia.
  - rewrite IH by lia. f_equal; lia.
Qed.
