(** * Vocabulary for the end-to-end theorems (C77, C78). *)
From Coq Require Import List ZArith Reals.
From Verif Require Import Machine Complexity Analysis AnalysisF64d GrowthSpec Alloc AllocSpec Crud Free Standard StandardSpec EndToEnd.
Import ListNotations.
Open Scope Z_scope.

(** the documented number of save points that are kept (features.rs:43-44) *)
Definition kept_slots : nat := 1024.

(** the truth about the memory used while [ops] ran, everything before being [pre];
    if the closure itself took more save points than the ring has slots, the sentinel *)
Definition true_measurement (slots : nat) (pre ops : list aop) (m : space_pass) : Prop :=
  (saves ops <= Z.of_nat slots /\
   used_memory_before m = used pre /\ used_memory_after m = used (pre ++ ops) /\
   is_min (min_used_memory m) (levels pre ops) /\ is_max (max_used_memory m) (levels pre ops))
  \/ (Z.of_nat slots < saves ops /\ m = sentinel_space).

(** the call [c] found in a trace, in terms of what the closure really did *)
Definition true_call {U} (slots : nat) (closure : behaviour U) (history : list aop) (c : scall) : Prop :=
  let really q d m r := exists u u' pre ops rest,
    history = pre ++ OSave :: ops ++ rest /\ closure u q u' ops d r /\ true_measurement slots pre ops m in
  match c with
  | CReset (Some m) => exists r, really SReset (pr_time m) (pr_space m) r
  | CPass1 (Some x) => really SPass1 (pr_time (fst x)) (pr_space (fst x)) (snd x)
  | CPass2 (Some x) => really SPass2 (pr_time (fst x)) (pr_space (fst x)) (snd x)
  | _ => False
  end.

(** the largest amount of memory a closure holds over what was in use when it was called *)
Definition peak (ops : list aop) (p : Z) : Prop := is_max p (levels [] ops).

(** [x] is within 2% of [c * f(n)] *)
Definition follows (c : R) (f : law) (n : Z) (x : Z) : Prop :=
  (98 / 100 * (c * law_fun f (IZR n)) <= IZR x <= 102 / 100 * (c * law_fun f (IZR n)))%R.

(** Every call of a pass takes time [ct * ft(n)] ns and at its peak holds [cs * fs(n)] bytes, within 2%. *)
Definition obeys {U} (closure : behaviour U) (slots : nat) (n1 n2 : Z) (ct : R) (ft : law) (cs : R) (fs : law) : Prop :=
  forall u q n u' ops d r, (q, n) = (SPass1, n1) \/ (q, n) = (SPass2, n2) -> closure u q u' ops d r ->
    follows ct ft n d /\ saves ops <= Z.of_nat slots /\ exists p, peak ops p /\ follows cs fs n p.
(** durations are below 2^53 s *)
Definition clock_ok {U} (closure : behaviour U) : Prop :=
  forall u q u' ops d r, closure u q u' ops d r -> duration_sane d.
(** a call to reset does not exhaust the save points *)
Definition reset_ok {U} (closure : behaviour U) (slots : nat) : Prop :=
  forall u u' ops d r, closure u SReset u' ops d r -> saves ops <= Z.of_nat slots.

(** a history during which less than 2^62 bytes are in use *)
Definition roomy (history : list aop) : Prop :=
  feasible history /\ forall x, In x (levels [] history) -> x < 2 ^ 62.
