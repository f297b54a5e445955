(** * Vocabulary for the theorems about the async builder on the allocator (C94, C95). *)
From Coq Require Import List ZArith String Reals.
From Verif Require Import Machine Complexity Analysis AnalysisF64d GrowthSpec Alloc AllocSpec Crud Free Present Builder BuilderSpec BuilderAlloc EndToEnd EndToEndSpec.
Import ListNotations.
Open Scope Z_scope.

Section Spec.
Context {F D X U : Type}.
Local Notation builder := (builder F X).

(** A measured call found in the trace, in terms of what the closure really did while its
    future was awaited; an unmeasured call needs nothing. *)
Definition true_async_call (slots : nat) (closure : async_behaviour F D X U) (history : list aop) (c : @bcall F D X) : Prop :=
  match c with
  | Ran f data (Some (m, v)) => exists u u' pre ops rest,
      history = pre ++ OSave :: ops ++ rest /\
      closure u (BRun f data) u' ops (pr_time m) (Some v) /\
      true_measurement slots pre ops (pr_space m)
  | _ => True
  end.

(** the closures (and the printing) return *)
Definition never_panics (closure : async_behaviour F D X U) : Prop :=
  forall u q u' ops d r, closure u q u' ops d r -> r <> None.
(** durations are below 2^53 s and no measured call takes more save points than the ring has slots *)
Definition well_behaved (slots : nat) (closure : async_behaviour F D X U) : Prop :=
  forall u f data u' ops d r, closure u (BRun f data) u' ops d r -> duration_sane d /\ saves ops <= Z.of_nat slots.
(** Every call of [f] takes [ct * ft(n)] ns and at its peak holds [cs * fs(n)] bytes, within 2%. *)
Definition pass_obeys (closure : async_behaviour F D X U) (f : F) (n : Z) (ct : R) (ft : law) (cs : R) (fs : law) : Prop :=
  forall u data u' ops d r, closure u (BRun f data) u' ops d r ->
    follows ct ft n d /\ exists p, peak ops p /\ follows cs fs n p.
(** no call of [f] holds more memory than there was in use when it was called *)
Definition pass_never_grows (closure : async_behaviour F D X U) (f : F) : Prop :=
  forall u data u' ops d r, closure u (BRun f data) u' ops d r -> peak ops 0.

(** how many reattempts were asked for *)
Definition reattempts (b : builder) : Z := match b_max_reattempts b with Some n => n | None => 0 end.
(** how the test must end if every attempt finds time class [TC] and space class [SC];
    [runs] is the number of attempts *)
Definition b_must_end (b : builder) (TC SC : complexity) (o : res b_end) (runs : Z) : Prop :=
  (exists e, b_space b = Some e /\ clt e SC /\
     o = Val (BPanicked [] (BError (b_name b) Space e SC)) /\ runs = 1)
  \/ (within SC (b_space b) /\ exists e, b_time b = Some e /\ clt e TC /\
     o = Val (BPanicked (repeat (BError (b_name b) Time e TC) (Z.to_nat (reattempts b))) (BError (b_name b) Time e TC)) /\
     runs = 1 + reattempts b)
  \/ (within SC (b_space b) /\ within TC (b_time b) /\ o = Val BPassed /\ runs = 1).
(** the number of user functions an attempt calls: both passes, the assertions that were
    given, the warm-up, and the reset function once before the warm-up, once after it and
    once between the passes *)
Definition given {A} (o : option A) : Z := match o with Some _ => 1 | None => 0 end.
Definition calls_per_attempt (b : builder) : Z :=
  2 + given (b_assert1 b) + given (b_assert2 b) + given (b_warmup b) + given (b_reset b) * (2 + given (b_warmup b)).
End Spec.
