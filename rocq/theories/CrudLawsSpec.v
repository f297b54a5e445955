(** * When a CRUD container's costs follow growth laws: vocabulary for C79. *)
From Coq Require Import List ZArith Reals Lia.
From Verif Require Import Machine Complexity Analysis AnalysisF64d GrowthSpec IterPass IterSpec Crud CrudSpec.
Import ListNotations.
Open Scope Z_scope.

(** How many elements the container holds after [tr], if it held [k] before: every call
    of create adds one, every call of delete removes one, reset empties it. *)
Fixpoint elements_from (k : Z) (tr : list event) : Z :=
  match tr with
  | [] => k
  | EvPass _ Create _ _ log _ :: rest => elements_from (k + Z.of_nat (length log)) rest
  | EvPass _ Delete _ _ log _ :: rest => elements_from (k - Z.of_nat (length log)) rest
  | EvReset _ :: rest => elements_from 0 rest
  | _ :: rest => elements_from k rest
  end.
Definition elements (tr : list event) : Z := elements_from 0 tr.

(** the sizes of the container seen by [n] calls of [op] starting with [k] elements:
    a create counts the element it adds, a delete the one it removes *)
Definition sizes (op : operation) (k : Z) (n : nat) : list Z :=
  match op with
  | Create => map (fun j => k + 1 + Z.of_nat j) (seq 0 n)
  | Delete => map (fun j => k - Z.of_nat j) (seq 0 n)
  | Read | Update => repeat k n
  end.
Definition sumR (l : list R) : R := fold_right Rplus 0%R l.

(** what a pass of an operation costs, up to a constant factor:
    - [EachCall f]: every call costs f(size) (time; memory that is kept)
    - [WholePass f]: the pass costs f(size at its start) once (memory freed after every
      call; stacks of threads) *)
Inductive cost := EachCall (f : law) | WholePass (f : law).
Definition law_of (c : cost) : law := match c with EachCall f | WholePass f => f end.
Definition amount (c : cost) (op : operation) (k : Z) (n : nat) : R :=
  match c with
  | EachCall f => sumR (map (fun i => law_fun f (IZR i)) (sizes op k n))
  | WholePass f => law_fun f (IZR k)
  end.
(** the class this cost belongs to *)
Definition class (c : cost) : complexity := law_class (law_of c).

Record laws := Laws {
  time_cost : operation -> cost; time_unit : operation -> R;     (* nanoseconds *)
  space_cost : operation -> cost; space_unit : operation -> R }. (* bytes *)
Definition near (x : R) (y : Z) : Prop := (98 / 100 * x <= IZR y <= 102 / 100 * x)%R.

(** Every measured pass of [tr] took the time and, at its peak, the memory its law says,
    within 2%; the container held [k] elements before [tr]. *)
Definition lawful_from (L : laws) (k : Z) (tr : list event) : Prop :=
  forall pre ph op r T log m post,
    tr = pre ++ EvPass ph op r T log (Some m) :: post -> ph <> Warmup ->
    near (time_unit L op * amount (time_cost L op) op (elements_from k pre) (length log)) (pr_time m) /\
    near (space_unit L op * amount (space_cost L op) op (elements_from k pre) (length log)) (growth (pr_space m)).
Definition lawful (L : laws) (tr : list event) : Prop := lawful_from L 0 tr.

(** The laws a doubling of the set can tell apart exactly.  For reads and updates all but
    the two with a logarithm; creates and deletes: constant or linear per call. *)
Definition told_apart (op : operation) (c : cost) : Prop :=
  match op with
  | Read | Update => law_of c <> Llog /\ law_of c <> Lnlogn
  | Create | Delete => c = EachCall Lconst \/ c = EachCall Ln \/ c = WholePass Lconst
  end.
(** ... and those never taken for something worse than they are *)
Definition not_overrated (op : operation) (c : cost) : Prop :=
  match op with
  | Read | Update => True
  | Create | Delete => c = EachCall Lconst \/ c = EachCall Ln \/ c = WholePass Lconst
  end.

(** what the user asserts about an enabled operation *)
Definition complies (cfg : crud_cfg) (L : laws) (op : operation) : Prop :=
  is_enabled cfg op -> cle (class (time_cost L op)) (oc_max_time (cfg_of cfg op)) /\
                       cle (class (space_cost L op)) (oc_max_space (cfg_of cfg op)).
(** [op] is the first operation, in the order create, read, update, delete, that does not
    comply, and [w] what is wrong with it (time first) *)
Definition first_violation (cfg : crud_cfg) (L : laws) (op : operation) (w : what) : Prop :=
  is_enabled cfg op /\ (forall op', In op' (before op) -> complies cfg L op') /\
  match w with
  | Time => clt (oc_max_time (cfg_of cfg op)) (class (time_cost L op))
  | Space => cle (class (time_cost L op)) (oc_max_time (cfg_of cfg op)) /\
             clt (oc_max_space (cfg_of cfg op)) (class (space_cost L op))
  end.

(** reads and updates have elements to work on; linear deletes empty the container *)
Definition coherent (cfg : crud_cfg) (L : laws) : Prop :=
  (is_enabled cfg Read \/ is_enabled cfg Update -> is_enabled cfg Create) /\
  (is_enabled cfg Delete -> time_cost L Delete = EachCall Ln \/ space_cost L Delete = EachCall Ln ->
   iterations cfg Delete = iterations cfg Create).
(** the threads of every operation divide its iterations, so that no iteration is dropped (C30) *)
Definition no_dropped (cfg : crud_cfg) : Prop :=
  forall op, is_enabled cfg op -> (oc_threads (cfg_of cfg op) | iterations cfg op).
