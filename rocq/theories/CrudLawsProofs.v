(** * Proofs for C79: where the passes of an analysis find the container, and what the
    analyses then answer. *)
From Coq Require Import List ZArith Lia Bool Reals Lra Psatz Permutation.
From Verif Require Import Machine Complexity Analysis AnalysisF64d AllocSpec GrowthSpec AnalysisR Bridge PropsBridge PropsEndToEnd IterPass IterSpec IterPassProofs PropsIter Report ReportProofs Crud CrudSpec CrudProofs CrudMain CrudRetry PropsCrud CrudLawsSpec.
Import ListNotations.
Open Scope Z_scope.

(** ** elements *)
Lemma elements_app k tr1 tr2 : elements_from k (tr1 ++ tr2) = elements_from (elements_from k tr1) tr2.
Proof.
  revert k. induction tr1 as [|e tr1 IH]; intros k; [reflexivity|]. destruct e as [ph [| | |] r T log m|n|i|d]; cbn [app elements_from]; apply IH.
Qed.
Lemma lawful_app L k tr1 tr2 : lawful_from L k (tr1 ++ tr2) -> lawful_from L k tr1 /\ lawful_from L (elements_from k tr1) tr2.
Proof.
  intros H. split; intros pre ph op r T log m post -> N.
  - apply (H pre ph op r T log m (post ++ tr2)); [rewrite <- app_assoc; reflexivity|exact N].
  - specialize (H (tr1 ++ pre) ph op r T log m post ltac:(rewrite <- app_assoc; reflexivity) N). rewrite elements_app in H. exact H.
Qed.

Lemma measurement_split tr ph op m : measurement tr ph op = Some m ->
  exists pre r T log post, tr = pre ++ EvPass ph op r T log (Some m) :: post /\ fresh ph op (acts pre).
Proof.
  induction tr as [|e tr IH]; intros E; [discriminate|]. destruct e as [ph' op' r T log m'|n|i|d]; cbn [measurement] in E.
  - destruct (phase_eqb ph' ph && operation_eqb op' op) eqn:B.
    + apply andb_true_iff in B. rewrite phase_eqb_eq, operation_eqb_eq in B. destruct B as [-> ->]. subst m'.
      exists [], r, T, log, tr. split; [reflexivity|constructor].
    + destruct (IH E) as (pre & r' & T' & log' & post & -> & F). exists (EvPass ph' op' r T log m' :: pre), r', T', log', post. split; [reflexivity|].
      constructor; [|exact F]. intros [-> ->]. rewrite phase_eqb_refl, operation_eqb_refl in B. discriminate.
  - destruct (IH E) as (pre & r' & T' & log' & post & -> & F). exists (EvReset n :: pre), r', T', log', post. split; [reflexivity|].
    constructor; [exact (fun x => x)|exact F].
  - destruct (IH E) as (pre & r' & T' & log' & post & -> & F). exists (EvOutput i :: pre), r', T', log', post. split; [reflexivity|exact F].
  - destruct (IH E) as (pre & r' & T' & log' & post & -> & F). exists (EvClock d :: pre), r', T', log', post. split; [reflexivity|exact F].
Qed.
Lemma fresh_unique ph op A r T B A' r' T' B' : fresh ph op A -> fresh ph op A' ->
  A ++ APass ph op r T :: B = A' ++ APass ph op r' T' :: B' -> A = A' /\ r = r' /\ T = T'.
Proof.
  revert A'. induction A as [|a A IH]; intros [|a' A'] F F' E; cbn [app] in E.
  - injection E as -> -> _. auto.
  - injection E as <- _. inversion F' as [|? ? N _]; subst. destruct N. split; reflexivity.
  - injection E as -> _. inversion F as [|? ? N _]; subst. destruct N. split; reflexivity.
  - injection E as -> E. inversion F; subst. inversion F'; subst. destruct (IH A') as (-> & -> & ->); auto.
Qed.

Section Sizes.
Context {S : Type}.
Variables (b : build) (t : tolerance) (l : libm) (cfg : crud_cfg) (u : user S).
Hypothesis CFG : cfg_ok cfg.
Hypothesis USE : usable cfg.
Hypothesis CLO : closures_return u.
Hypothesis DIV : no_dropped cfg.

Local Notation n_ op := (iterations cfg op).
Lemma n_nonneg op : 0 <= n_ op. Proof. destruct CFG as [_ C]. destruct (C op) as [[H _] _]. exact H. Qed.
Lemma n_enabled op : n_ op = 0 \/ is_enabled cfg op. Proof. pose proof (n_nonneg op). unfold is_enabled. lia. Qed.

(** a pass over one of [op]'s blocks makes all its calls *)
Definition full (op : operation) (r : range) : Prop := r = block1 cfg op \/ r = block2 cfg op \/ r = backwards (block1 cfg op) \/ r = backwards (block2 cfg op).
Lemma full_len op r : full op r -> len r = n_ op.
Proof. pose proof (n_nonneg op). intros [-> | [-> | [-> | ->]]]; unfold len, highest, lowest, backwards, block1, block2; cbn [r_start r_end]; lia. Qed.
Lemma full_calls ph op r log m : full op r -> is_enabled cfg op -> valid b u (EvPass ph op r (oc_threads (cfg_of cfg op)) log (Some m)) ->
  Z.of_nat (length log) = n_ op.
Proof.
  intros F EN (ty & s1 & s2 & v & P). destruct USE as [_ U]. destruct (U op EN) as [U1 U2].
  assert (FI : fits b r). { apply small_ranges_fit; pose proof (n_nonneg op); (destruct F as [-> | [-> | [-> | ->]]]; cbn [block1 block2 backwards r_start r_end]; unfold block1, block2, backwards; cbn [r_start r_end]); lia. }
  assert (D : (oc_threads (cfg_of cfg op) | len r)) by (rewrite (full_len op r F); apply DIV; exact EN).
  destruct (C30_skipped_indices _ _ _ _ _ _ _ _ _ _ (proj1 CLO op) FI U2 P) as (_ & K & _). unfold calls in K. rewrite map_length in K.
  rewrite K, <- (full_len op r F). destruct D as [q ->]. rewrite Z.div_mul by lia. lia.
Qed.

(** [tr] does nothing but the pass [a] (if [op] is enabled) *)
Lemma elements_pass tr ph op r k : Forall (valid b u) tr -> Forall no_none tr -> full op r -> acts tr = pass_on cfg ph op r ->
  elements_from k tr = match op with Create => k + n_ op | Delete => k - n_ op | _ => k end.
Proof.
  intros V NN F. unfold pass_on, enabled_. destruct (0 <? n_ op) eqn:EN.
  - apply Z.ltb_lt in EN. revert k. induction tr as [|e tr IH]; intros k E; [discriminate|]. inversion V as [|? ? V1 V2]; subst. inversion NN as [|? ? N1 N2]; subst.
    destruct e as [ph' op' r' T' log m|n|i|d].
    + cbn [acts flat_map act_of app] in E. injection E as -> -> -> -> E. fold (acts tr) in E.
      destruct m as [m|]; [|contradiction]. pose proof (full_calls ph op r log m F EN V1) as K.
      assert (Q : forall k, elements_from k tr = k).
      { clear - E. induction tr as [|e tr IH]; intros k; [reflexivity|]. destruct e; try discriminate; cbn [elements_from]; apply IH; exact E. }
      destruct op; cbn [elements_from]; rewrite Q; lia.
    + discriminate.
    + cbn [elements_from]. apply IH; auto.
    + cbn [elements_from]. apply IH; auto.
  - apply Z.ltb_ge in EN. pose proof (n_nonneg op). assert (n_ op = 0) as -> by lia. intros E.
    assert (Q : forall k, elements_from k tr = k).
    { clear - E. induction tr as [|e tr IH]; intros k; [reflexivity|]. destruct e; try discriminate; cbn [elements_from]; apply IH; exact E. }
    rewrite Q. destruct op; lia.
Qed.
Lemma elements_warm tr : acts tr = warmup_acts cfg -> elements_from 0 tr = 0.
Proof.
  unfold warmup_acts. destruct (0 <? cc_warmup cfg).
  - intros E. rewrite !app_assoc in E. apply acts_split in E. destruct E as (tr1 & tr2 & -> & _ & E). rewrite elements_app. generalize (elements_from 0 tr1).
    induction tr2 as [|e tr2 IH]; intros k; [discriminate|]. destruct e as [| |i|d]; [discriminate| |apply IH; exact E|apply IH; exact E].
    cbn [acts flat_map act_of app] in E. injection E as _ E. cbn [elements_from]. clear - E. generalize 0.
    induction tr2 as [|e tr IH]; intros k; [reflexivity|]. destruct e; try discriminate; cbn [elements_from]; apply IH; exact E.
  - intros E. generalize 0. induction tr as [|e tr IH]; intros k; [reflexivity|]. destruct e; try discriminate; cbn [elements_from]; apply IH; exact E.
Qed.

(** the passes before pass [ph] of [op] *)
Definition pre_acts (ph : phase) (op : operation) : list (phase * operation * range) :=
  let c1 := (First, Create, block1 cfg Create) in
  let r1 := (First, Read, block1 cfg Read) in
  let u1 := (First, Update, block1 cfg Update) in
  let c2 := (Second, Create, block2 cfg Create) in
  let r2 := (Second, Read, block2 cfg Read) in
  let u2 := (Second, Update, block2 cfg Update) in
  let d2 := (Second, Delete, backwards (block2 cfg Delete)) in
  match ph, op with
  | Second, Create => [c1; r1; u1]
  | Second, Read => [c1; r1; u1; c2]
  | Second, Update => [c1; r1; u1; c2; r2]
  | Second, Delete => [c1; r1; u1; c2; r2; u2]
  | _, Create => []
  | _, Read => [c1]
  | _, Update => [c1; r1]
  | _, Delete => [c1; r1; u1; c2; r2; u2; d2]
  end.
Definition range_of (ph : phase) (op : operation) : range :=
  let r := match ph with Second => block2 cfg op | _ => block1 cfg op end in
  match op with Delete => backwards r | _ => r end.
Definition on (x : phase * operation * range) : list act := pass_on cfg (fst (fst x)) (snd (fst x)) (snd x).
Lemma acts_located ph op : ph <> Warmup -> is_enabled cfg op -> exists rest,
  all_acts cfg = (warmup_acts cfg ++ flat_map on (pre_acts ph op)) ++ APass ph op (range_of ph op) (oc_threads (cfg_of cfg op)) :: rest.
Proof.
  intros N EN. pose proof (pass_on_enabled cfg ph op (range_of ph op) EN) as PE.
  assert (K : exists rest, all_acts cfg = (warmup_acts cfg ++ flat_map on (pre_acts ph op)) ++ pass_on cfg ph op (range_of ph op) ++ rest).
  { unfold all_acts, acts_until, first_acts. destruct ph; [contradiction| |]; destruct op; cbn [pre_acts flat_map]; unfold on, range_of; cbn [fst snd];
    first [exists []; rewrite ?app_nil_r, <- ?app_assoc; reflexivity | eexists; rewrite <- ?app_assoc; reflexivity]. }
  destruct K as [rest K]. exists rest. rewrite PE in K. exact K.
Qed.
Lemma fresh_pre ph op : ph <> Warmup -> fresh ph op (warmup_acts cfg ++ flat_map on (pre_acts ph op)).
Proof.
  intros N. apply fresh_app; [apply fresh_warmup; exact N|].
  destruct ph; [contradiction| |]; destruct op; cbn [pre_acts flat_map]; unfold on; cbn [fst snd]; repeat apply fresh_app;
    try (constructor); apply fresh_pass; intros [X Y]; discriminate.
Qed.
Fixpoint size_after (k : Z) (ps : list (phase * operation * range)) : Z :=
  match ps with
  | [] => k
  | x :: rest => size_after (match snd (fst x) with Create => k + n_ Create | Delete => k - n_ Delete | _ => k end) rest
  end.
Lemma elements_passes ps : Forall (fun x => full (snd (fst x)) (snd x)) ps -> forall k tr, Forall (valid b u) tr -> Forall no_none tr ->
  acts tr = flat_map on ps -> elements_from k tr = size_after k ps.
Proof.
  induction ps as [|x ps IH]; intros F k tr V NN E.
  - cbn [size_after]. cbn [flat_map] in E. revert k. induction tr as [|e tr IHtr]; intros k; [reflexivity|]. inversion V; inversion NN; subst.
    destruct e; try discriminate; cbn [elements_from]; apply IHtr; assumption.
  - cbn [flat_map] in E. apply acts_split in E. destruct E as (tr1 & tr2 & -> & E1 & E2). apply Forall_app in V. apply Forall_app in NN.
    inversion F as [|? ? F1 F2]; subst. rewrite elements_app. cbn [size_after].
    rewrite (elements_pass tr1 _ _ _ k (proj1 V) (proj1 NN) F1 E1). rewrite (IH F2 _ tr2 (proj2 V) (proj2 NN) E2). destruct (snd (fst x)); reflexivity.
Qed.
(** the number of elements when pass [ph] of [op] starts *)
Definition start_size (ph : phase) (op : operation) : Z :=
  match ph, op with
  | Second, Create => n_ Create
  | Second, _ => 2 * n_ Create
  | _, Create => 0
  | _, Delete => 2 * n_ Create - n_ Delete
  | _, _ => n_ Create
  end.
Lemma located tr ph op m : ph <> Warmup -> is_enabled cfg op -> Forall (valid b u) tr -> Forall no_none tr -> (exists rest, all_acts cfg = acts tr ++ rest) ->
  measurement tr ph op = Some m -> exists pre r T log post,
    tr = pre ++ EvPass ph op r T log (Some m) :: post /\ elements_from 0 pre = start_size ph op /\ Z.of_nat (length log) = n_ op.
Proof.
  intros N EN V NN [rest P] M. destruct (measurement_split _ _ _ _ M) as (pre & r & T & log & post & -> & F).
  destruct (acts_located ph op N EN) as [rest' L]. rewrite L in P. rewrite acts_app in P. cbn [acts flat_map act_of] in P. fold (acts post) in P.
  rewrite <- (app_assoc (acts pre)) in P. cbn [app] in P. symmetry in P.
  destruct (fresh_unique _ _ _ _ _ _ _ _ _ _ F (fresh_pre ph op N) P) as (A & -> & ->).
  apply Forall_app in V. destruct V as [V1 V2]. apply Forall_app in NN. destruct NN as [NN1 NN2]. inversion V2 as [|? ? V3 V4]; subst.
  exists pre, (range_of ph op), (oc_threads (cfg_of cfg op)), log, post. split; [reflexivity|]. split.
  - apply acts_split in A. destruct A as (p1 & p2 & -> & A1 & A2). rewrite elements_app, (elements_warm p1 A1).
    apply Forall_app in V1. apply Forall_app in NN1.
    rewrite (elements_passes (pre_acts ph op)) with (3 := proj2 NN1); [| |exact (proj2 V1)|exact A2].
    + destruct ph; [contradiction| |]; destruct op; cbn [pre_acts size_after fst snd start_size]; lia.
    + unfold full. destruct ph; [contradiction| |]; destruct op; cbn [pre_acts]; repeat (apply Forall_cons; [cbn [fst snd]; tauto|]); apply Forall_nil.
  - apply (full_calls ph op (range_of ph op) log m); auto. unfold full, range_of. destruct ph; [contradiction| |]; destruct op; tauto.
Qed.
End Sizes.

(** ** Sums *)
Local Open Scope R_scope.
Lemma sumR_app l1 l2 : sumR (l1 ++ l2) = sumR l1 + sumR l2.
Proof. induction l1 as [|x l1 IH]; cbn [app]; [unfold sumR at 2; cbn [fold_right]; lra|]. unfold sumR in *. cbn [fold_right]. rewrite IH. lra. Qed.
Lemma sum_repeat (g : Z -> R) k n : sumR (map g (repeat k n)) = INR n * g k.
Proof.
  induction n as [|n IH]; [cbn [seq map repeat]; unfold sumR; cbn [fold_right]; change (INR 0) with 0; lra|]. rewrite S_INR. cbn [repeat map]. unfold sumR in *. cbn [fold_right]. rewrite IH. lra.
Qed.
Lemma sum_ones (l : list Z) : sumR (map (fun i => law_fun Lconst (IZR i)) l) = INR (length l).
Proof. induction l as [|x l IH]; [reflexivity|]. cbn [length]. rewrite S_INR. cbn [map]. unfold sumR in *. cbn [fold_right]. rewrite IH. cbn [law_fun]. lra. Qed.
Lemma sum_up k n : sumR (map (fun i => law_fun Ln (IZR i)) (map (fun j => (k + 1 + Z.of_nat j)%Z) (seq 0 n))) = INR n * (IZR k + (INR n + 1) / 2).
Proof.
  induction n as [|n IH]; [cbn [seq map repeat]; unfold sumR; cbn [fold_right]; change (INR 0) with 0; lra|]. rewrite seq_S, !map_app, sumR_app, IH, S_INR. cbn [Nat.add map law_fun]. unfold sumR. cbn [fold_right].
  rewrite !plus_IZR, <- INR_IZR_INZ. lra.
Qed.
Lemma sum_down k n : sumR (map (fun i => law_fun Ln (IZR i)) (map (fun j => (k - Z.of_nat j)%Z) (seq 0 n))) = INR n * (IZR k - (INR n - 1) / 2).
Proof.
  induction n as [|n IH]; [cbn [seq map repeat]; unfold sumR; cbn [fold_right]; change (INR 0) with 0; lra|]. rewrite seq_S, !map_app, sumR_app, IH, S_INR. cbn [Nat.add map law_fun]. unfold sumR. cbn [fold_right].
  rewrite minus_IZR, <- INR_IZR_INZ. lra.
Qed.
Lemma sizes_length op k n : length (sizes op k n) = n.
Proof. destruct op; cbn [sizes]; rewrite ?map_length, ?seq_length, ?repeat_length; reflexivity. Qed.

Lemma near_ratio c a1 a2 x1 x2 : 0 < c -> 0 < a1 -> 0 < a2 -> near (c * a1) x1 -> near (c * a2) x2 ->
  (0 < x1)%Z /\ (0 < x2)%Z /\ 95 / 100 * (a2 / a1) <= IZR x2 / IZR x1 <= 105 / 100 * (a2 / a1).
Proof.
  intros Hc H1 H2 [A1 B1] [A2 B2].
  assert (Q1 : 0 < c * a1) by (apply Rmult_lt_0_compat; assumption). assert (Q2 : 0 < c * a2) by (apply Rmult_lt_0_compat; assumption).
  assert (P1 : 0 < IZR x1) by lra. assert (P2 : 0 < IZR x2) by lra. split; [apply lt_IZR; exact P1|]. split; [apply lt_IZR; exact P2|].
  replace (a2 / a1) with (c * a2 / (c * a1)) by (field; lra). set (p := c * a1) in *. set (q := c * a2) in *. clearbody p q.
  assert (D : forall x y z w, 0 < y -> 0 < w -> x * w <= z * y -> x / y <= z / w).
  { intros x y z w Hy Hw H. apply Rmult_le_reg_r with (y * w); [apply Rmult_lt_0_compat; assumption|].
    replace (x / y * (y * w)) with (x * w) by (field; lra). replace (z / w * (y * w)) with (z * y) by (field; lra). exact H. }
  split.
  - replace (95 / 100 * (q / p)) with (95 / 100 * q / p) by (field; lra). apply D; [exact Q1|exact P1|].
    apply Rle_trans with (95 / 100 * q * (102 / 100 * p)); [apply Rmult_le_compat_l; lra|].
    apply Rle_trans with (98 / 100 * q * p); [|apply Rmult_le_compat_r; lra]. nra.
  - replace (105 / 100 * (q / p)) with (105 / 100 * q / p) by (field; lra). apply D; [exact P1|exact Q1|].
    apply Rle_trans with (102 / 100 * q * p); [apply Rmult_le_compat_r; lra|].
    apply Rle_trans with (105 / 100 * q * (98 / 100 * p)); [nra|]. apply Rmult_le_compat_l; lra.
Qed.

(** ** Verdicts *)
Section Verdicts.
Variables (b : build) (t : tolerance) (l : libm) (cfg : crud_cfg).
Hypothesis LIBM : libm_accurate l.
Hypothesis USE : usable cfg.
Local Notation n_ op := (iterations cfg op).

Definition enough (op : operation) : Prop := (12 <= n_ op)%Z /\ match op with Read | Update => (12 <= n_ Create)%Z | _ => True end.
(** how much the second pass costs, compared to the first *)
Definition expected_ratio (op : operation) (c : cost) : R :=
  match op with
  | Read | Update => law_fun (law_of c) (IZR (2 * n_ Create)) / law_fun (law_of c) (IZR (n_ Create))
  | Create | Delete => match c with EachCall Ln => (3 * IZR (n_ op) + 1) / (IZR (n_ op) + 1) | _ => 1 end
  end.
Lemma pass_ratio op c unit n x1 x2 : not_overrated op c -> enough op -> (op = Delete -> c = EachCall Ln -> n_ Delete = n_ Create) -> 0 < unit ->
  Z.of_nat n = n_ op ->
  near (unit * amount c op (start_size cfg First op) n) x1 -> near (unit * amount c op (start_size cfg Second op) n) x2 ->
  (0 < x1)%Z /\ (0 < x2)%Z /\ 95 / 100 * expected_ratio op c <= IZR x2 / IZR x1 <= 105 / 100 * expected_ratio op c.
Proof.
  intros NO [E1 E2] D Hu Hn N1 N2.
  assert (In_ : INR n = IZR (n_ op)) by (rewrite INR_IZR_INZ, Hn; reflexivity).
  assert (Ip : 12 <= IZR (n_ op)) by (apply (IZR_le 12); exact E1).
  assert (GO : forall a1 a2, amount c op (start_size cfg First op) n = a1 -> amount c op (start_size cfg Second op) n = a2 -> 0 < a1 -> 0 < a2 ->
     a2 / a1 = expected_ratio op c -> (0 < x1)%Z /\ (0 < x2)%Z /\ 95 / 100 * expected_ratio op c <= IZR x2 / IZR x1 <= 105 / 100 * expected_ratio op c).
  { intros a1 a2 <- <- P1 P2 <-. exact (near_ratio _ _ _ _ _ Hu P1 P2 N1 N2). }
  assert (RU : forall op', op = op' -> op' = Read \/ op' = Update -> (0 < x1)%Z /\ (0 < x2)%Z /\ 95 / 100 * expected_ratio op c <= IZR x2 / IZR x1 <= 105 / 100 * expected_ratio op c).
  { intros op' <- W. assert (NC : (12 <= n_ Create)%Z) by (destruct W; subst op; exact E2).
    assert (S1 : start_size cfg First op = n_ Create) by (destruct W; subst op; reflexivity).
    assert (S2 : start_size cfg Second op = (2 * n_ Create)%Z) by (destruct W; subst op; reflexivity).
    assert (SZ : forall k, sizes op k n = repeat k n) by (intros k; destruct W; subst op; reflexivity).
    pose proof (law_fun_pos (law_of c) (n_ Create) ltac:(lia)) as L1. pose proof (law_fun_pos (law_of c) (2 * n_ Create) ltac:(lia)) as L2.
    rewrite S1, S2 in GO. assert (ER : expected_ratio op c = law_fun (law_of c) (IZR (2 * n_ Create)) / law_fun (law_of c) (IZR (n_ Create))) by (destruct W; subst op; reflexivity).
    destruct c as [f|f]; cbn [amount law_of] in *.
    - rewrite !SZ, !sum_repeat in GO. refine (GO _ _ eq_refl eq_refl _ _ _); try (apply Rmult_lt_0_compat; lra). rewrite ER. field. split; lra.
    - refine (GO _ _ eq_refl eq_refl L1 L2 _). symmetry. exact ER. }
  assert (CD : (op = Create \/ op = Delete) -> c = EachCall Lconst \/ c = EachCall Ln \/ c = WholePass Lconst).
  { intros [-> | ->]; exact NO. }
  destruct op; [|exact (RU Read eq_refl (or_introl eq_refl))|exact (RU Update eq_refl (or_intror eq_refl))|]; clear RU.
  - destruct (CD (or_introl eq_refl)) as [-> | [-> | ->]]; cbn [amount start_size] in *.
    + rewrite !sum_ones, !sizes_length in GO. refine (GO _ _ eq_refl eq_refl _ _ _); try lra. cbn [expected_ratio]. field. lra.
    + cbn [sizes] in GO. rewrite !sum_up, In_ in GO. refine (GO _ _ eq_refl eq_refl _ _ _); try nra. cbn [expected_ratio].
      set (z := IZR (n_ Create)) in *. field. split; lra.
    + refine (GO _ _ eq_refl eq_refl _ _ _); cbn [law_fun expected_ratio]; lra.
  - destruct (CD (or_intror eq_refl)) as [-> | [-> | ->]]; cbn [amount start_size] in *.
    + rewrite !sum_ones, !sizes_length in GO. refine (GO _ _ eq_refl eq_refl _ _ _); try lra. cbn [expected_ratio]. field. lra.
    + cbn [sizes] in GO. rewrite !sum_down, In_, minus_IZR, mult_IZR, <- (D eq_refl eq_refl) in GO. refine (GO _ _ eq_refl eq_refl _ _ _); try nra. cbn [expected_ratio].
      set (z := IZR (n_ Delete)) in *. field. split; lra.
    + refine (GO _ _ eq_refl eq_refl _ _ _); cbn [law_fun expected_ratio]; lra.
Qed.

Lemma size_bound op : enough op -> size_ok (n_ op) /\ (12 <= n_ op < two32)%Z.
Proof. intros [E _]. destruct USE as [U _]. destruct (U op) as [U1 _]. unfold size_ok. lia. Qed.
Lemma create_bound op : op = Read \/ op = Update -> enough op -> size_ok (n_ Create) /\ size_ok (2 * n_ Create) /\ (4 <= n_ Create)%Z /\ (2 * n_ Create <= 2 * n_ Create < two32)%Z.
Proof. intros W [_ E]. assert (12 <= n_ Create)%Z by (destruct W; subst op; exact E). destruct USE as [U _]. destruct (U Create) as [U1 _]. unfold size_ok. lia. Qed.
Lemma cle_refl c : cle c c. Proof. unfold cle. lia. Qed.

Section Op.
Variables (op : operation) (c : cost) (m1 m2 : pass_result).
Hypothesis EN : enough op.
Hypothesis SA1 : sane m1. Hypothesis SA2 : sane m2.
Lemma sane_space m : sane m -> space_ok (pr_space m).
Proof. intros (_ & (W1 & W2 & W3 & W4 & W5 & W6) & _). unfold space_ok. lia. Qed.

Lemma time_exact : told_apart op c -> (0 < pr_time m1)%Z -> (0 < pr_time m2)%Z ->
  95 / 100 * expected_ratio op c <= IZR (pr_time m2) / IZR (pr_time m1) <= 105 / 100 * expected_ratio op c ->
  observed_time t l cfg op m1 m2 = class c.
Proof.
  intros TA P1 P2 R. destruct (size_bound op EN) as [S1 S2]. pose proof (proj1 SA1) as D1. pose proof (proj1 SA2) as D2.
  assert (RU : forall o, op = o -> o = Read \/ o = Update -> analyse_time_complexity_constant_set t l (n_ Create) (2 * n_ Create) (pr_time m1) (pr_time m2) = class c).
  { intros o <- W. destruct (create_bound op W EN) as (Z1 & Z2 & Z3 & Z4).
    assert (NL : law_of c <> Llog /\ law_of c <> Lnlogn) by (destruct W; subst op; exact TA).
    refine (proj2 (C05_binary64_noisy_time t l (law_of c) _ _ _ _ LIBM Z3 Z4 _ D1 P1 D2 P2 _)); [intros [X|X]; destruct NL; contradiction|].
    destruct W; subst op; exact R. }
  destruct (C11_binary64_noisy_time t l (n_ op) (pr_time m1) (pr_time m2) LIBM D1 P1 D2 P2) as [K1 K2].
  assert (CD : (op = Create \/ op = Delete) -> analyse_time_complexity_set_resizing t l (n_ op) (pr_time m1) (pr_time m2) = class c).
  { intros W. assert (X : c = EachCall Lconst \/ c = EachCall Ln \/ c = WholePass Lconst) by (destruct W; subst op; exact TA).
    destruct X as [-> | [-> | ->]]; [apply K1; [exact S1|]|apply K2; [exact S2|]|apply K1; [exact S1|]];
    destruct W as [W|W]; rewrite W in R; cbn [expected_ratio] in R; rewrite ?W; try exact R; unfold time_ratio; lra. }
  destruct op; cbn [observed_time]; [apply CD; auto|apply (RU Read); auto|apply (RU Update); auto|apply CD; auto].
Qed.
Lemma space_exact : told_apart op c -> (0 < growth (pr_space m1))%Z -> (0 < growth (pr_space m2))%Z ->
  95 / 100 * expected_ratio op c <= IZR (growth (pr_space m2)) / IZR (growth (pr_space m1)) <= 105 / 100 * expected_ratio op c ->
  observed_space b t l cfg op m1 m2 = Val (class c).
Proof.
  intros TA P1 P2 R. destruct (size_bound op EN) as [S1 S2]. pose proof (sane_space _ SA1) as D1. pose proof (sane_space _ SA2) as D2.
  assert (RU : forall o, op = o -> o = Read \/ o = Update -> analyse_space_complexity_constant_set b t l (n_ Create) (2 * n_ Create) (pr_space m1) (pr_space m2) = Val (class c)).
  { intros o <- W. destruct (create_bound op W EN) as (Z1 & Z2 & Z3 & Z4).
    assert (NL : law_of c <> Llog /\ law_of c <> Lnlogn) by (destruct W; subst op; exact TA).
    refine (proj2 (C05_binary64_noisy_space b t l (law_of c) _ _ _ _ LIBM Z3 Z4 _ D1 P1 D2 P2 _)); [intros [X|X]; destruct NL; contradiction|].
    destruct W; subst op; exact R. }
  destruct (C11_binary64_noisy_space b t l (n_ op) (pr_space m1) (pr_space m2) LIBM D1 P1 D2 P2) as [K1 K2].
  assert (CD : (op = Create \/ op = Delete) -> analyse_space_complexity_set_resizing b t l (n_ op) (pr_space m1) (pr_space m2) = Val (class c)).
  { intros W. assert (X : c = EachCall Lconst \/ c = EachCall Ln \/ c = WholePass Lconst) by (destruct W; subst op; exact TA).
    destruct X as [-> | [-> | ->]]; [apply K1; [exact S1|]|apply K2; [exact S2|]|apply K1; [exact S1|]];
    destruct W as [W|W]; rewrite W in R; cbn [expected_ratio] in R; rewrite ?W; try exact R; unfold space_ratio; lra. }
  destruct op; cbn [observed_space]; [apply CD; auto|apply (RU Read); auto|apply (RU Update); auto|apply CD; auto].
Qed.
Lemma time_at_most : not_overrated op c -> (0 < pr_time m1)%Z -> (0 < pr_time m2)%Z ->
  95 / 100 * expected_ratio op c <= IZR (pr_time m2) / IZR (pr_time m1) <= 105 / 100 * expected_ratio op c ->
  cle (observed_time t l cfg op m1 m2) (class c).
Proof.
  intros NO P1 P2 R.
  assert (RU : forall o, op = o -> o = Read \/ o = Update -> cle (analyse_time_complexity_constant_set t l (n_ Create) (2 * n_ Create) (pr_time m1) (pr_time m2)) (class c)).
  { intros o <- W. destruct (create_bound op W EN) as (Z1 & Z2 & Z3 & Z4).
    apply (C03_binary64_time t l (law_of c) _ _ _ _ LIBM Z1 Z2 (proj1 SA1) P1 (proj1 SA2)). rewrite Z.max_r, Z.min_l by lia.
    assert (R' : time_ratio (pr_time m1) (pr_time m2) <= 105 / 100 * (law_fun (law_of c) (IZR (2 * n_ Create)) / law_fun (law_of c) (IZR (n_ Create)))) by (destruct W; subst op; apply R).
    apply Rle_trans with (1 := R'). apply Rmult_le_compat_r; [|pose proof (tolR_bounds t); unfold mg; nra].
    apply Rlt_le, Rdiv_lt_0_compat; apply law_fun_pos; lia. }
  assert (CD : op = Create \/ op = Delete -> cle (observed_time t l cfg op m1 m2) (class c)).
  { intros W. rewrite time_exact; [apply cle_refl| |exact P1|exact P2|exact R]. destruct W; subst op; exact NO. }
  destruct op; [apply CD; auto|apply (RU Read); auto|apply (RU Update); auto|apply CD; auto].
Qed.
Lemma space_at_most : not_overrated op c -> (0 < growth (pr_space m1))%Z -> (0 < growth (pr_space m2))%Z ->
  95 / 100 * expected_ratio op c <= IZR (growth (pr_space m2)) / IZR (growth (pr_space m1)) <= 105 / 100 * expected_ratio op c ->
  exists sc, observed_space b t l cfg op m1 m2 = Val sc /\ cle sc (class c).
Proof.
  intros NO P1 P2 R.
  assert (RU : forall o, op = o -> o = Read \/ o = Update -> exists sc, analyse_space_complexity_constant_set b t l (n_ Create) (2 * n_ Create) (pr_space m1) (pr_space m2) = Val sc /\ cle sc (class c)).
  { intros o <- W. destruct (create_bound op W EN) as (Z1 & Z2 & Z3 & Z4).
    apply (C03_binary64_space b t l (law_of c) _ _ _ _ LIBM Z1 Z2 (sane_space _ SA1) P1 (sane_space _ SA2)). rewrite Z.max_r, Z.min_l by lia.
    assert (R' : space_ratio (pr_space m1) (pr_space m2) <= 105 / 100 * (law_fun (law_of c) (IZR (2 * n_ Create)) / law_fun (law_of c) (IZR (n_ Create)))) by (destruct W; subst op; apply R).
    apply Rle_trans with (1 := R'). apply Rmult_le_compat_r; [|pose proof (tolR_bounds t); unfold mg; nra].
    apply Rlt_le, Rdiv_lt_0_compat; apply law_fun_pos; lia. }
  assert (CD : op = Create \/ op = Delete -> exists sc, observed_space b t l cfg op m1 m2 = Val sc /\ cle sc (class c)).
  { intros W. exists (class c). split; [|apply cle_refl]. apply space_exact; [|exact P1|exact P2|exact R]. destruct W; subst op; exact NO. }
  destruct op; [apply CD; auto|apply (RU Read); auto|apply (RU Update); auto|apply CD; auto].
Qed.
End Op.
End Verdicts.
