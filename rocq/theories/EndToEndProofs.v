(** * Proofs about test_algorithm on the metrics allocator. *)
From Coq Require Import List ZArith Lia Bool Reals Lra Psatz.
From Verif Require Import Machine Complexity Analysis AnalysisF64d GrowthSpec Alloc AllocSpec AllocProofs Report ReportProofs Crud CrudSpec Free Standard StandardSpec PropsStandard EndToEnd EndToEndSpec.
Import ListNotations.
Open Scope Z_scope.

Lemma astep_from b sz h s op : (0 < sz)%nat -> Z.of_nat sz < two32 -> ainv sz h s -> feasible (h ++ [op]) ->
  exists s' out, astep b s op = Val (s', out) /\ ainv sz (h ++ [op]) s'.
Proof.
  intros Hsz HszB HI HF. destruct op.
  1-4: edestruct compute_ok as (s' & H1 & H2); [|exact HI|exact HF|]; [exact I|]; exists s', ANone; split; [exact H1|exact H2].
  - destruct (save_ok b sz h s Hsz HI HF) as (s' & H1 & H2). exists s', ANone. split; assumption.
  - destruct (delta_step_ok b sz h s k Hsz HszB HI HF) as (o & H1 & H2). exists s, o. split; assumption.
Qed.
Lemma arun_from b sz ops : (0 < sz)%nat -> Z.of_nat sz < two32 -> forall h s, ainv sz h s -> feasible (h ++ ops) ->
  exists s' outs, arun b s ops = Val (s', outs) /\ ainv sz (h ++ ops) s'.
Proof.
  intros Hsz HszB. induction ops as [|op ops IH]; intros h s HI HF.
  - exists s, []. rewrite app_nil_r. split; [reflexivity|exact HI].
  - rewrite <- app_cons_assoc in HF. destruct (astep_from b sz h s op Hsz HszB HI (feasible_prefix _ _ HF)) as (s1 & o & E1 & I1).
    destruct (IH _ _ I1 HF) as (s2 & outs & E2 & I2). exists s2, (o :: outs). cbn [arun]. rewrite E1. cbn [bind fst snd]. rewrite E2. cbn [bind fst snd].
    rewrite <- app_cons_assoc. split; [reflexivity|exact I2].
Qed.

Lemma used_save pre : used (pre ++ [OSave]) = used pre.
Proof. rewrite used_snoc. cbn [delta]. lia. Qed.
Lemma used_app p q : used (p ++ q) = used p + used q. Proof. apply total_app. Qed.
Lemma levels_save pre ops : levels (pre ++ [OSave]) ops = levels pre ops.
Proof. unfold levels. apply map_ext. intros i. rewrite !used_app. unfold used at 2. cbn. lia. Qed.
Lemma levels_shift pre ops : levels pre ops = map (fun x => used pre + x) (levels [] ops).
Proof. unfold levels. rewrite map_map. apply map_ext. intros i. rewrite used_app. reflexivity. Qed.

Lemma run_sync_pass_ok b sz h s ops : (0 < sz)%nat -> Z.of_nat sz < two32 -> ainv sz h s -> feasible (h ++ OSave :: ops) ->
  exists s' m, run_sync_pass b s ops = Val (s', m) /\ ainv sz (h ++ OSave :: ops) s' /\ true_measurement sz h ops m.
Proof.
  intros Hsz HszB HI HF. unfold run_sync_pass. pose proof HF as HF'. rewrite <- app_cons_assoc in HF'.
  destruct (astep_from b sz h s OSave Hsz HszB HI (feasible_prefix _ _ HF')) as (s1 & o & E1 & I1). rewrite E1. cbn [bind fst].
  destruct (arun_from b sz ops Hsz HszB _ _ I1 HF') as (s2 & outs & E2 & I2). rewrite E2. cbn [bind fst].
  rewrite app_cons_assoc in I2.
  destruct (AllocProofs.delta_ok b sz _ s2 h ops Hsz HszB I2 HF eq_refl) as (sp & r & Hsp & Hr & Hc & H1 & H2).
  assert (L : length (sps s) = Z.to_nat (saves h)). { destruct HI as (hist & _ & _ & _ & _ & L & _). lia. }
  rewrite L, Hsp, Hr. cbn [bind]. exists s2, (space_measurement sp r). split; [reflexivity|]. split; [exact I2|].
  destruct (Z_le_gt_dec (saves ops) (Z.of_nat sz)) as [Hle|Hgt].
  - left. split; [exact Hle|]. destruct (H2 Hle) as (d & -> & Hx). destruct Hx as (_ & _ & _ & _ & _ & _ & _ & _ & _ & X1 & X2 & X3).
    cbn [space_measurement used_memory_before used_memory_after min_used_memory max_used_memory]. rewrite levels_save in X2, X3.
    split; [exact Hc|]. split; [|split; assumption]. rewrite X1, <- !app_assoc, !used_app. unfold used at 2. cbn. lia.
  - right. split; [lia|]. rewrite H1 by lia. reflexivity.
Qed.

Lemma true_measurement_wf sz h ops m : feasible (h ++ OSave :: ops) -> true_measurement sz h ops m -> well_formed m.
Proof.
  intros HF [(_ & H1 & H2 & H3 & H4)|(_ & ->)].
  - assert (LB : forall x, In x (levels h ops) -> 0 <= x < two64).
    { intros x Hx. destruct HF as (_ & HL & _). apply HL. rewrite <- app_cons_assoc. apply levels_sub. rewrite levels_save. exact Hx. }
    destruct H3 as [I3 L3]. destruct H4 as [I4 L4]. pose proof (LB _ I3). pose proof (LB _ I4).
    pose proof (L3 _ (levels_first h ops)). pose proof (L3 _ (levels_last h ops)). pose proof (L4 _ (levels_first h ops)). pose proof (L4 _ (levels_last h ops)).
    unfold well_formed. rewrite H1, H2. lia.
  - unfold well_formed, sentinel_space. cbn. pose proof two64_val. lia.
Qed.
Lemma true_measurement_small sz h ops m : roomy (h ++ OSave :: ops) -> saves ops <= Z.of_nat sz -> true_measurement sz h ops m -> max_used_memory m < 2 ^ 62.
Proof.
  intros [HF HR] Hs [(_ & _ & _ & _ & [I4 _])|(X & _)]; [|lia]. apply HR. rewrite <- app_cons_assoc. apply levels_sub. rewrite levels_save. exact I4.
Qed.
Lemma true_measurement_growth sz h ops m p : saves ops <= Z.of_nat sz -> true_measurement sz h ops m -> peak ops p -> growth m = p.
Proof.
  intros Hs [(_ & H1 & _ & _ & H4)|(X & _)] HP; [|lia]. unfold growth. rewrite H1. rewrite levels_shift in H4.
  destruct H4 as [I4 L4]. destruct HP as [I5 L5]. apply in_map_iff in I4. destruct I4 as (x & Ex & Ix).
  pose proof (L5 _ Ix). pose proof (L4 (used h + p) (in_map _ _ _ I5)). cbn beta in *. lia.
Qed.

Lemma roomy_prefix p q : roomy (p ++ q) -> roomy p.
Proof. intros [H1 H2]. split; [exact (feasible_prefix _ _ H1)|]. intros x Hx. apply H2, levels_prefix, Hx. Qed.

Section Trace.
Context {U : Type} (b : build) (closure : behaviour U) (sz : nat).
Hypothesis Hsz : (0 < sz)%nat.
Hypothesis HszB : Z.of_nat sz < two32.
Local Notation w := (alloc_world b closure).

Lemma true_call_more h ext c : true_call sz closure h c -> true_call sz closure (h ++ ext) c.
Proof.
  unfold true_call. destruct c as [[m|]|[x|]|[x|]]; auto.
  - intros (r & u & u' & pre & ops & rest & -> & H). exists r, u, u', pre, ops, (rest ++ ext). rewrite <- !app_assoc. cbn [app]. rewrite <- !app_assoc. auto.
  - intros (u & u' & pre & ops & rest & -> & H). exists u, u', pre, ops, (rest ++ ext). rewrite <- !app_assoc. cbn [app]. rewrite <- !app_assoc. auto.
  - intros (u & u' & pre & ops & rest & -> & H). exists u, u', pre, ops, (rest ++ ext). rewrite <- !app_assoc. cbn [app]. rewrite <- !app_assoc. auto.
Qed.

Lemma measured_grows q s s' x : measured_call b closure q s s' x -> exists ext, m_history s' = m_history s ++ ext.
Proof. intros (ops & d & r & _ & H & _). eauto. Qed.
Lemma world_grows s q s' (a : option (sans q)) : w s q s' a -> exists ext, m_history s' = m_history s ++ ext.
Proof.
  unfold alloc_world. destruct q; intros H; [destruct H as (x & H & _)| | |].
  1-3: eapply measured_grows; exact H. destruct H as (ops & d & r & _ & H & _). eauto.
Qed.
Lemma exec_grows {A} (m : fprog sans A) : forall s tr s' o, fexec w m s tr s' o -> exists ext, m_history s' = m_history s ++ ext.
Proof.
  induction m as [a|p|q k IH]; intros s tr s' o X.
  - destruct X as (_ & -> & _). exists []. symmetry. apply app_nil_r.
  - destruct X as (_ & -> & _). exists []. symmetry. apply app_nil_r.
  - destruct X as [(a & s1 & tr' & W & X & _)|(W & _ & _)].
    + destruct (world_grows _ _ _ _ W) as [e1 E1]. destruct (IH a _ _ _ _ X) as [e2 E2]. exists (e1 ++ e2). rewrite E2, E1, app_assoc. reflexivity.
    + exact (world_grows _ _ _ _ W).
Qed.

(** one measured call *)
Lemma measured_ok q s s' x : ainv sz (m_history s) (m_alloc s) -> feasible (m_history s') -> measured_call b closure q s s' x ->
  ainv sz (m_history s') (m_alloc s') /\
  exists ops d m r, x = Some (PassResult d m, r) /\ m_history s' = m_history s ++ OSave :: ops /\
    closure (m_user s) q (m_user s') ops d r /\ true_measurement sz (m_history s) ops m.
Proof.
  intros HI HF (ops & d & r & HC & HH & HM). rewrite HH in HF.
  destruct (run_sync_pass_ok b sz _ _ ops Hsz HszB HI HF) as (al & m & E & I' & T). rewrite E in HM. destruct HM as [<- ->].
  rewrite HH. split; [exact I'|]. exists ops, d, m, r. auto.
Qed.
Lemma unmeasured_ok q s s' x : ainv sz (m_history s) (m_alloc s) -> feasible (m_history s') -> unmeasured_call b closure q s s' x ->
  ainv sz (m_history s') (m_alloc s') /\ x = Some tt.
Proof.
  intros HI HF (ops & d & r & HC & HH & HM). rewrite HH in HF.
  destruct (arun_from b sz ops Hsz HszB _ _ HI HF) as (al & outs & E & I'). rewrite E in HM. destruct HM as [<- ->]. rewrite HH. auto.
Qed.

Lemma world_ok s q s' (a : option (sans q)) : ainv sz (m_history s) (m_alloc s) -> feasible (m_history s') -> w s q s' a ->
  ainv sz (m_history s') (m_alloc s') /\ a <> None /\ Forall (true_call sz closure (m_history s')) (scall_of (FEv q a)).
Proof.
  intros HI HF W. unfold alloc_world in W. destruct q.
  - destruct W as (x & W & ->). destruct (measured_ok _ _ _ _ HI HF W) as (I' & ops & d & m & r & -> & HH & HC & T). split; [exact I'|]. split; [discriminate|].
    constructor; [|constructor]. exists r, (m_user s), (m_user s'), (m_history s), ops, []. rewrite app_nil_r. auto.
  - destruct (measured_ok _ _ _ _ HI HF W) as (I' & ops & d & m & r & -> & HH & HC & T). split; [exact I'|]. split; [discriminate|].
    constructor; [|constructor]. exists (m_user s), (m_user s'), (m_history s), ops, []. rewrite app_nil_r. auto.
  - destruct (measured_ok _ _ _ _ HI HF W) as (I' & ops & d & m & r & -> & HH & HC & T). split; [exact I'|]. split; [discriminate|].
    constructor; [|constructor]. exists (m_user s), (m_user s'), (m_history s), ops, []. rewrite app_nil_r. auto.
  - destruct (unmeasured_ok _ _ _ _ HI HF W) as (I' & ->). split; [exact I'|]. split; [discriminate|constructor].
Qed.

Lemma exec_ok {A} (m : fprog sans A) : forall s tr s' o, fexec w m s tr s' o ->
  ainv sz (m_history s) (m_alloc s) -> feasible (m_history s') ->
  ainv sz (m_history s') (m_alloc s') /\ Forall (true_call sz closure (m_history s')) (scalls tr).
Proof.
  induction m as [a|p|q k IH]; intros s tr s' o X HI HF.
  - destruct X as (-> & -> & _). split; [exact HI|constructor].
  - destruct X as (-> & -> & _). split; [exact HI|constructor].
  - destruct X as [(a & s1 & tr' & W & X & ->)|(W & -> & _)].
    + destruct (exec_grows _ _ _ _ _ X) as [ext E]. pose proof HF as HF1. rewrite E in HF1. apply feasible_prefix in HF1.
      destruct (world_ok _ _ _ _ HI HF1 W) as (I1 & _ & T1). destruct (IH a _ _ _ _ X I1 HF) as (I2 & T2). split; [exact I2|].
      unfold scalls. cbn [flat_map]. apply Forall_app. split; [|exact T2]. rewrite E. revert T1. apply Forall_impl. intros c. apply true_call_more.
    + destruct (world_ok _ _ _ _ HI HF W) as (_ & N & _). destruct (N eq_refl).
Qed.
End Trace.
