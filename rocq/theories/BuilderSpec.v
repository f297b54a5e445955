(** * What the async builder is specified to do: vocabulary for C47-C51, C69. *)
From Coq Require Import List ZArith String.
From Verif Require Import Machine Complexity Analysis AnalysisF64d AllocSpec Report Crud CrudSpec Free Present Builder.
Import ListNotations.
Open Scope Z_scope.

Section Spec.
Context {F D X : Type}.
Local Notation bans := (@bans F D X).
Local Notation builder := (builder F X).

(** the calls of user functions, in order, with argument, measurement and result
    ([None]: the function panicked) *)
Inductive bcall :=
| Ran (f : F) (data : option D) (answer : option (pass_result * D))
| Asserted (f : F) (data : D) (answer : option unit)
| Before (f : F) (data : option D) (answer : option X)
| After (f : F) (data : option D) (x : X) (answer : option presentable).
Definition bcall_of (e : fevent bans) : list bcall :=
  match e with
  | FEv q a =>
      match q as q' return option (bans q') -> list bcall with
      | BRun f d => fun a => [Ran f d a]
      | BAssert f d => fun a => [Asserted f d a]
      | BBefore f d => fun a => [Before f d a]
      | BAfter f d x => fun a => [After f d x a]
      | BOut _ => fun _ => []
      end a
  end.
Definition bcalls (tr : list (fevent bans)) : list bcall := flat_map bcall_of tr.

(** an optional function called on [arg]: it yields what the function returns, or,
    if there is no such function, [otherwise] *)
Definition optionally (f : option F) (arg otherwise : option D) (calls : list bcall) (out : option D) : Prop :=
  match f with
  | Some f => exists m d, calls = [Ran f arg (Some (m, d))] /\ out = Some d
  | None => calls = [] /\ out = otherwise
  end.
Definition asserted (f : option F) (d : D) : list bcall :=
  match f with Some f => [Asserted f d (Some tt)] | None => [] end.

(** the calls of an attempt up to (not including) pass 1: [previous] is the data of the
    previous attempt, [d] what pass 1 will receive *)
Definition preparation (b : builder) (previous : option D) (calls : list bcall) (d : option D) : Prop :=
  exists c0 d0,
    optionally (b_reset b) previous None c0 d0 /\
    match b_warmup b with
    | None => calls = c0 /\ d = d0
    | Some warmup => exists m dw c1,
        optionally (b_reset b) None (Some dw) c1 d /\
        calls = c0 ++ [Ran warmup d0 (Some (m, dw))] ++ c1
    end.

(** an attempt that ran to its end: the calls, the measurements of the two passes and
    the data left at the end *)
Definition attempt (b : builder) (previous : option D) (calls : list bcall) (m1 m2 : pass_result) (last : D) : Prop :=
  exists c0 d0 pass1 pass2 d1 c1 d2,
    b_pass1 b = Some pass1 /\ b_pass2 b = Some pass2 /\
    preparation b previous c0 d0 /\
    optionally (b_reset b) (Some d1) (Some d1) c1 (Some d2) /\
    calls = c0 ++ [Ran pass1 d0 (Some (m1, d1))] ++ asserted (b_assert1 b) d1
               ++ c1 ++ [Ran pass2 (Some d2) (Some (m2, last))] ++ asserted (b_assert2 b) last.

Definition within (c : complexity) (expected : option complexity) : Prop := forall e, expected = Some e -> cle c e.
(** the verdict: space first and fatal, then time; only what was set counts *)
Definition b_verdict bd t l (b : builder) (m1 m2 : pass_result) (last : D) (v : retry_result (builder * D) (builder * D) b_error) : Prop :=
  exists tc sc,
    tc = analyse_time_complexity t l (b_n1 b) (b_n2 b) (pr_time m1) (pr_time m2) /\
    analyse_space_complexity bd t l (b_n1 b) (b_n2 b) (pr_space m1) (pr_space m2) = Val sc /\
    ( (exists e, b_space b = Some e /\ clt e sc /\ v = RFatal (b, last) (BError (b_name b) Space e sc))
    \/ (within sc (b_space b) /\ exists e, b_time b = Some e /\ clt e tc /\ v = RTransient (b, last) (BError (b_name b) Time e tc))
    \/ (within sc (b_space b) /\ within tc (b_time b) /\ v = ROk (b, last))).

Definition b_sane (tr : list (fevent bans)) : Prop :=
  forall f d m d', In (Ran f d (Some (m, d'))) (bcalls tr) -> sane m.
Definition usable (b : builder) : Prop :=
  b_pass1 b <> None /\ b_pass2 b <> None /\ 1 <= b_n1 b < two32 /\ 1 <= b_n2 b < two32.

(** successive attempts: each retry gets the data the failed attempt left *)
Inductive attempts bd t l (b : builder) : option D -> list b_error -> retry_result (builder * D) (builder * D) b_error -> list bcall -> Prop :=
| last_attempt previous calls m1 m2 last v :
    attempt b previous calls m1 m2 last -> b_verdict bd t l b m1 m2 last v ->
    attempts bd t l b previous [] v calls
| failed_attempt previous calls m1 m2 last e es v calls' :
    attempt b previous calls m1 m2 last -> b_verdict bd t l b m1 m2 last (RTransient (b, last) e) ->
    attempts bd t l b (Some last) es v calls' ->
    attempts bd t l b previous (e :: es) v (calls ++ calls').

(** what the settings ask for: the last value given by the settings [pick] selects *)
Fixpoint last_value {A} (pick : setting F -> option A) (ss : list (setting F)) : option A :=
  match ss with
  | [] => None
  | s :: r => match last_value pick r with Some a => Some a | None => pick s end
  end.
Inductive kind := KMax | KReset | KWarmup | KPass1 | KAssert1 | KPass2 | KAssert2 | KTime | KSpace | KAuxiliary | KCustom.
Definition kind_of (s : setting F) : kind :=
  match s with
  | WithMaxReattempts _ => KMax | WithResetFn _ => KReset | WarmupPass _ => KWarmup
  | FirstPass _ _ => KPass1 | FirstPassAssertion _ => KAssert1
  | SecondPass _ _ => KPass2 | SecondPassAssertion _ => KAssert2
  | WithTimeMeasurements _ => KTime | WithSpaceMeasurements _ => KSpace | WithAuxiliarySpaceMeasurements _ => KAuxiliary
  | AddCustomMeasurement _ _ _ _ _ | AddCustomMeasurementWithAverages _ _ _ _ _ => KCustom
  end.

(** the calls of the measurers before and after an event: [xs] are the values the before
    functions produced, [ps] the measurements, in declaration order *)
Definition befores (ms : list (measurer F X)) (d : option D) (xs : list X) : list bcall :=
  rev (map (fun mx => Before (me_before (fst mx)) d (Some (snd mx))) (combine ms xs)).
Definition afters (ms : list (measurer F X)) (d : option D) (xs : list X) (ps : list presentable) : list bcall :=
  map (fun mxp => After (me_after (fst mxp)) d (fst (snd mxp)) (Some (snd (snd mxp)))) (combine ms (combine xs ps)).
Definition reported (ms : list (measurer F X)) (ps : list presentable) : list custom_measurement :=
  map (fun mp => CustomMeasurement (me_name (fst mp)) (me_expected (fst mp)) (me_description (fst mp)) (snd mp)) (combine ms ps).
(** without remembered values, as when just created *)
Definition idle (m : measurer F X) : measurer F X :=
  Measurer (me_name m) (me_expected m) (me_description m) (me_before m) None (me_after m).
End Spec.
