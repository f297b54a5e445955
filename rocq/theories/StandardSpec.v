(** * What a run of test_algorithm is specified to do: vocabulary for C45, C46. *)
From Coq Require Import List ZArith.
From Verif Require Import Machine Complexity Analysis AnalysisF64d AllocSpec Report Crud CrudSpec Free Standard.
Import ListNotations.
Open Scope Z_scope.

Inductive scall :=
| CReset (m : option pass_result)
| CPass1 (a : option (pass_result * Z))
| CPass2 (a : option (pass_result * Z)).
(** the calls of user closures, in order, with what they measured and returned ([None]: panicked) *)
Definition scall_of (e : fevent sans) : list scall :=
  match e with
  | FEv q a =>
      match q as q' return option (sans q') -> list scall with
      | SReset => fun a => [CReset a]
      | SPass1 => fun a => [CPass1 a]
      | SPass2 => fun a => [CPass2 a]
      | SOut _ => fun _ => []
      end a
  end.
Definition scalls (tr : list (fevent sans)) : list scall := flat_map scall_of tr.
Definition sshown (tr : list (fevent sans)) : list sitem :=
  flat_map (fun e => match ev_query e with SOut i => [i] | _ => [] end) tr.

(** the verdict on a pair of measurements: space first and fatal, then time *)
Definition std_verdict b t l (cfg : std_cfg) (m1 m2 : pass_result) (r : Z) : retry_result unit Z std_error -> Prop :=
  fun v =>
  exists tc sc,
    tc = analyse_time_complexity t l (st_n1 cfg) (st_n2 cfg) (pr_time m1) (pr_time m2) /\
    analyse_space_complexity b t l (st_n1 cfg) (st_n2 cfg) (pr_space m1) (pr_space m2) = Val sc /\
    ( clt (st_max_space cfg) sc /\ v = RFatal tt (StdError Space (st_max_space cfg) sc)
    \/ cle sc (st_max_space cfg) /\ clt (st_max_time cfg) tc /\ v = RTransient tt (StdError Time (st_max_time cfg) tc)
    \/ cle sc (st_max_space cfg) /\ cle tc (st_max_time cfg) /\ v = ROk r).

(** closures and stdout always return *)
Definition returns {Q} {Ans : Q -> Type} {S} (w : world Ans S) : Prop := forall s q s' a, w s q s' a -> a <> None.
Definition s_sane (tr : list (fevent sans)) : Prop :=
  forall c, In c (scalls tr) ->
    match c with CReset (Some m) => sane m | CPass1 (Some x) | CPass2 (Some x) => sane (fst x) | _ => True end.
(** the measured durations are what a clock can measure *)
Definition s_durations_sane (tr : list (fevent sans)) : Prop :=
  forall c, In c (scalls tr) ->
    match c with CPass1 (Some x) | CPass2 (Some x) => duration_sane (pr_time (fst x)) | _ => True end.
