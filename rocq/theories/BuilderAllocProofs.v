(** * Proofs about the async builder on the metrics allocator. *)
From Coq Require Import List ZArith Lia Bool Reals Lra Psatz.
From Verif Require Import Machine Complexity Analysis AnalysisF64d GrowthSpec Alloc AllocSpec AllocProofs Report ReportProofs Crud CrudSpec Free StandardSpec Present Builder BuilderSpec EndToEnd EndToEndSpec EndToEndProofs BuilderAlloc BuilderAllocSpec.
Import ListNotations.
Open Scope Z_scope.

Lemma async_space b s ops : run_async_pass_space b s ops = run_sync_pass b s ops. Proof. reflexivity. Qed.

Section Trace.
Context {F D X U : Type} (b : build) (closure : async_behaviour F D X U) (sz : nat).
Hypothesis Hsz : (0 < sz)%nat.
Hypothesis HszB : Z.of_nat sz < two32.
Local Notation w := (async_world b closure).
Local Notation bans := (@bans F D X).

Lemma true_async_more h ext c : true_async_call sz closure h c -> true_async_call sz closure (h ++ ext) c.
Proof.
  unfold true_async_call. destruct c as [f data [[m v]|]| | |]; auto.
  intros (u & u' & pre & ops & rest & -> & H). exists u, u', pre, ops, (rest ++ ext). rewrite <- !app_assoc. cbn [app]. rewrite <- !app_assoc. auto.
Qed.
Lemma async_world_grows s q s' (a : option (bans q)) : w s q s' a -> exists ext, m_history s' = m_history s ++ ext.
Proof. unfold async_world. destruct q; intros (ops & d & r & _ & H & _); eauto. Qed.
Lemma async_grows {A} (m : fprog bans A) : forall s tr s' o, fexec w m s tr s' o -> exists ext, m_history s' = m_history s ++ ext.
Proof.
  induction m as [a|p|q k IH]; intros s tr s' o Y.
  - destruct Y as (_ & -> & _). exists []. symmetry. apply app_nil_r.
  - destruct Y as (_ & -> & _). exists []. symmetry. apply app_nil_r.
  - destruct Y as [(a & s1 & tr' & W & Y & _)|(W & _ & _)].
    + destruct (async_world_grows _ _ _ _ W) as [e1 E1]. destruct (IH a _ _ _ _ Y) as [e2 E2]. exists (e1 ++ e2). rewrite E2, E1, app_assoc. reflexivity.
    + exact (async_world_grows _ _ _ _ W).
Qed.

Lemma plain_ok q s s' x : ainv sz (m_history s) (m_alloc s) -> feasible (m_history s') -> plain b closure q s s' x ->
  ainv sz (m_history s') (m_alloc s') /\ exists ops d, closure (m_user s) q (m_user s') ops d x.
Proof.
  intros HI HF (ops & d & r & HC & HH & HM). rewrite HH in HF.
  destruct (arun_from b sz ops Hsz HszB _ _ HI HF) as (al & outs & E & I'). rewrite E in HM. destruct HM as [<- ->]. rewrite HH. eauto.
Qed.
Lemma awaited_ok f data s s' x : ainv sz (m_history s) (m_alloc s) -> feasible (m_history s') -> awaited b closure f data s s' x ->
  ainv sz (m_history s') (m_alloc s') /\
  exists ops d m r, x = option_map (fun v => (PassResult d m, v)) r /\ m_history s' = m_history s ++ OSave :: ops /\
    closure (m_user s) (BRun f data) (m_user s') ops d r /\ true_measurement sz (m_history s) ops m.
Proof.
  intros HI HF (ops & d & r & HC & HH & HM). rewrite HH in HF.
  destruct (run_sync_pass_ok b sz _ _ ops Hsz HszB HI HF) as (al & m & E & I' & T). rewrite async_space, E in HM. destruct HM as [<- ->].
  rewrite HH. split; [exact I'|]. exists ops, d, m, r. auto.
Qed.
Lemma async_world_ok s q s' (a : option (bans q)) : ainv sz (m_history s) (m_alloc s) -> feasible (m_history s') -> w s q s' a ->
  ainv sz (m_history s') (m_alloc s') /\ (never_panics closure -> a <> None) /\ Forall (true_async_call sz closure (m_history s')) (bcall_of (FEv q a)).
Proof.
  intros HI HF W. unfold async_world in W. destruct q as [f data|f data|f data|f data x|i].
  - destruct (awaited_ok _ _ _ _ _ HI HF W) as (I' & ops & d & m & r & -> & HH & HC & T). split; [exact I'|].
    split; [intros NP; specialize (NP _ _ _ _ _ _ HC); destruct r; [discriminate|destruct (NP eq_refl)]|].
    constructor; [|constructor]. destruct r as [v|]; [|exact I]. exists (m_user s), (m_user s'), (m_history s), ops, []. rewrite app_nil_r. auto.
  - destruct (plain_ok _ _ _ _ HI HF W) as (I' & ops & d & HC). split; [exact I'|]. split; [intros NP; exact (NP _ _ _ _ _ _ HC)|]. constructor; [exact I|constructor].
  - destruct (plain_ok _ _ _ _ HI HF W) as (I' & ops & d & HC). split; [exact I'|]. split; [intros NP; exact (NP _ _ _ _ _ _ HC)|]. constructor; [exact I|constructor].
  - destruct (plain_ok _ _ _ _ HI HF W) as (I' & ops & d & HC). split; [exact I'|]. split; [intros NP; exact (NP _ _ _ _ _ _ HC)|]. constructor; [exact I|constructor].
  - destruct (plain_ok _ _ _ _ HI HF W) as (I' & ops & d & HC). split; [exact I'|]. split; [intros NP; exact (NP _ _ _ _ _ _ HC)|]. constructor.
Qed.
Lemma async_exec_ok {A} (m : fprog bans A) : forall s tr s' o, fexec w m s tr s' o ->
  ainv sz (m_history s) (m_alloc s) -> feasible (m_history s') ->
  ainv sz (m_history s') (m_alloc s') /\ Forall (true_async_call sz closure (m_history s')) (bcalls tr).
Proof.
  induction m as [a|p|q k IH]; intros s tr s' o Y HI HF.
  - destruct Y as (-> & -> & _). split; [exact HI|constructor].
  - destruct Y as (-> & -> & _). split; [exact HI|constructor].
  - destruct Y as [(a & s1 & tr' & W & Y & ->)|(W & -> & _)].
    + destruct (async_grows _ _ _ _ _ Y) as [ext E]. pose proof HF as HF1. rewrite E in HF1. apply feasible_prefix in HF1.
      destruct (async_world_ok _ _ _ _ HI HF1 W) as (I1 & _ & T1). destruct (IH a _ _ _ _ Y I1 HF) as (I2 & T2). split; [exact I2|].
      unfold bcalls. cbn [flat_map]. apply Forall_app. split; [|exact T2]. rewrite E. revert T1. apply Forall_impl. intros c. apply true_async_more.
    + destruct (async_world_ok _ _ _ _ HI HF W) as (I1 & _ & T1). split; [exact I1|]. unfold bcalls. cbn [flat_map]. rewrite app_nil_r. exact T1.
Qed.

(** in a feasible execution nothing in the metrics panics *)
Definition returning_world : world bans (mstate U) := fun s q s' a => w s q s' a /\ a <> None.
Lemma returning_exec {A} (m : fprog bans A) : never_panics closure -> forall s tr s' o,
  fexec w m s tr s' o -> ainv sz (m_history s) (m_alloc s) -> feasible (m_history s') -> fexec returning_world m s tr s' o.
Proof.
  intros NP. induction m as [a|p|q k IH]; intros s tr s' o Y HI HF; [exact Y|exact Y|].
  destruct Y as [(a & s1 & tr' & W & Y & ->)|(W & -> & _)].
  - destruct (async_grows _ _ _ _ _ Y) as [ext E]. pose proof HF as HF1. rewrite E in HF1. apply feasible_prefix in HF1.
    destruct (async_world_ok _ _ _ _ HI HF1 W) as (I1 & N & _).
    left. exists a, s1, tr'. split; [split; [exact W|exact (N NP)]|]. split; [|reflexivity]. apply IH; assumption.
  - destruct (async_world_ok _ _ _ _ HI HF W) as (_ & N & _). destruct (N NP eq_refl).
Qed.
Lemma returning_returns : returns returning_world.
Proof. intros s q s' a [_ N]. exact N. Qed.
End Trace.

(** ** the calls of an attempt *)
Section Attempts.
Context {F D X : Type} (bd : build) (t : tolerance) (l : libm) (b : builder F X).
Lemma optionally_length (f : option F) (arg otherwise : option D) (c : list (@bcall F D X)) (out : option D) :
  optionally f arg otherwise c out -> Z.of_nat (length c) = given f.
Proof. unfold optionally. destruct f as [f|]; [intros (m & d & -> & _)|intros (-> & _)]; reflexivity. Qed.
Lemma attempt_length previous (calls : list (@bcall F D X)) m1 m2 last : attempt b previous calls m1 m2 last ->
  Z.of_nat (length calls) = calls_per_attempt b.
Proof.
  intros (c0 & d0 & pass1 & pass2 & d1 & c1 & d2 & P1 & P2 & PR & OP & ->). apply optionally_length in OP.
  assert (A : forall f (d : D), Z.of_nat (length (@asserted F D X f d)) = given f) by (intros [f|] d; reflexivity).
  assert (PRL : Z.of_nat (length c0) = given (b_reset b) * (1 + given (b_warmup b)) + given (b_warmup b)).
  { destruct PR as (c00 & d00 & O0 & PR). apply optionally_length in O0. destruct (b_warmup b) as [wu|].
    - destruct PR as (m & dw & c2 & O2 & ->). apply optionally_length in O2. rewrite !app_length, !Nat2Z.inj_add. cbn [length given]. lia.
    - destruct PR as (-> & _). cbn [given]. lia. }
  rewrite !app_length, !Nat2Z.inj_add, !A, OP, PRL. cbn [length]. unfold calls_per_attempt. lia.
Qed.
Lemma attempt_passes previous (calls : list (@bcall F D X)) m1 m2 last : attempt b previous calls m1 m2 last ->
  exists pass1 pass2 d0 d1 d2, b_pass1 b = Some pass1 /\ b_pass2 b = Some pass2 /\
    In (Ran pass1 d0 (Some (m1, d1))) calls /\ In (Ran pass2 d2 (Some (m2, last))) calls.
Proof.
  intros (c0 & d0 & pass1 & pass2 & d1 & c1 & d2 & P1 & P2 & PR & OP & ->). exists pass1, pass2, d0, d1, (Some d2). split; [exact P1|]. split; [exact P2|].
  split; rewrite !in_app_iff; cbn [In]; auto 8.
Qed.

Variables (TC SC : complexity) (good : @bcall F D X -> Prop).
Hypothesis verdicts : forall pass1 pass2 d0 d1 d2 m1 m2 last, b_pass1 b = Some pass1 -> b_pass2 b = Some pass2 ->
  good (Ran pass1 d0 (Some (m1, d1))) -> good (Ran pass2 d2 (Some (m2, last))) ->
  analyse_time_complexity t l (b_n1 b) (b_n2 b) (pr_time m1) (pr_time m2) = TC /\
  analyse_space_complexity bd t l (b_n1 b) (b_n2 b) (pr_space m1) (pr_space m2) = Val SC.
Definition v_expected (v : retry_result (builder F X * D) (builder F X * D) b_error) : Prop :=
  (exists e i, b_space b = Some e /\ clt e SC /\ v = RFatal i (BError (b_name b) Space e SC))
  \/ (within SC (b_space b) /\ exists e i, b_time b = Some e /\ clt e TC /\ v = RTransient i (BError (b_name b) Time e TC))
  \/ (within SC (b_space b) /\ within TC (b_time b) /\ exists i, v = ROk i).
Lemma attempt_verdict previous (calls : list (@bcall F D X)) m1 m2 last v :
  attempt b previous calls m1 m2 last -> b_verdict bd t l b m1 m2 last v -> Forall good calls -> v_expected v.
Proof.
  intros A (tc & sc & HT & HS & V) G. rewrite Forall_forall in G.
  destruct (attempt_passes _ _ _ _ _ A) as (pass1 & pass2 & d0 & d1 & d2 & P1 & P2 & I1 & I2).
  destruct (verdicts _ _ _ _ _ _ _ _ P1 P2 (G _ I1) (G _ I2)) as [E1 E2]. rewrite E1 in HT. subst tc. rewrite E2 in HS. apply val_inj in HS. subst sc.
  unfold v_expected. destruct V as [(e & V1 & V2 & V3)|[(V1 & e & V2 & V3 & V4)|(V1 & V2 & V3)]]; eauto 10.
Qed.
Lemma attempts_expected previous es v (calls : list (@bcall F D X)) : attempts bd t l b previous es v calls -> Forall good calls ->
  v_expected v /\ Z.of_nat (length calls) = calls_per_attempt b * (1 + Z.of_nat (length es)) /\
  (es = [] \/ within SC (b_space b) /\ exists e, b_time b = Some e /\ clt e TC /\ es = repeat (BError (b_name b) Time e TC) (length es)).
Proof.
  induction 1 as [previous calls m1 m2 last v A V|previous calls m1 m2 last e es v calls' A V _ IH]; intros G.
  - split; [exact (attempt_verdict _ _ _ _ _ _ A V G)|]. split; [rewrite (attempt_length _ _ _ _ _ A); cbn [length]; lia|left; reflexivity].
  - apply Forall_app in G. destruct G as [G1 G2]. destruct (IH G2) as (V' & L & R).
    split; [exact V'|]. split; [rewrite app_length, Nat2Z.inj_add, L, (attempt_length _ _ _ _ _ A); cbn [length]; lia|]. right.
    destruct (attempt_verdict _ _ _ _ _ _ A V G1) as [(e1 & i & _ & _ & Y)|[(W & e1 & i & T1 & T2 & Y)|(_ & _ & i & Y)]]; [discriminate| |discriminate].
    split; [exact W|]. exists e1. split; [exact T1|]. split; [exact T2|]. injection Y as _ ->. cbn [length repeat]. f_equal.
    destruct R as [-> | (_ & e2 & T3 & _ & ->)]; [reflexivity|]. rewrite T1 in T3. injection T3 as <-. rewrite repeat_length. reflexivity.
Qed.
End Attempts.
