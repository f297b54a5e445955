(** * Proofs about CRUD tests on the metrics allocator. *)
From Coq Require Import List ZArith Lia Bool Reals Lra Psatz.
From Verif Require Import Machine Complexity Analysis AnalysisF64b AnalysisF64d AnalysisF64e PropsAnalysis GrowthSpec Alloc AllocSpec AllocProofs IterPass Report ReportProofs Crud CrudSpec CrudProofs CrudMain CrudRetry PropsCrud CrudLawsSpec EndToEnd EndToEndSpec EndToEndProofs CrudAlloc CrudAllocSpec.
Import ListNotations.
Open Scope Z_scope.

Lemma crud_slots_pos : (0 < crud_slots)%nat. Proof. unfold crud_slots. lia. Qed.
Lemma crud_slots_small : Z.of_nat crud_slots < two32. Proof. rewrite two32_val. unfold crud_slots. lia. Qed.
Lemma iterator_pass_space_same b s ops : run_iterator_pass_space b s ops = run_sync_pass b s ops.
Proof. reflexivity. Qed.

Lemma asked_cons x w : asked (x :: w) = (match fst x with EvPass _ _ _ _ _ (Some _) => OSave :: snd x | _ => snd x end) ++ asked w.
Proof. reflexivity. Qed.
Lemma asked_app w1 w2 : asked (w1 ++ w2) = asked w1 ++ asked w2.
Proof. unfold asked. apply flat_map_app. Qed.
Lemma events_app w1 w2 : events (w1 ++ w2) = events w1 ++ events w2.
Proof. apply map_app. Qed.

Section Run.
Context (b : build) (sz : nat).
Hypothesis Hsz : (0 < sz)%nat.
Hypothesis HszB : Z.of_nat sz < two32.

Lemma other_ok h s ops s1 outs rest : ainv sz h s -> feasible (h ++ ops ++ rest) -> arun b s ops = Val (s1, outs) -> ainv sz (h ++ ops) s1.
Proof.
  intros I HF E. rewrite app_assoc in HF. apply feasible_prefix in HF.
  destruct (arun_from b sz ops Hsz HszB _ _ I HF) as (s' & o & E' & I'). rewrite E in E'. injection E' as -> _. exact I'.
Qed.

Lemma on_allocator_truthful s w s' : on_allocator b s w s' -> forall h, ainv sz h s -> feasible (h ++ asked w) ->
  truthful sz h w /\ ainv sz (h ++ asked w) s'.
Proof.
  induction 1 as [s|s ph op r T log m ops s1 w s2 E X IH|s ph op r T log ops s1 outs w s2 E X IH|s n ops s1 outs w s2 E X IH|s i ops s1 outs w s2 E X IH|s d ops s1 outs w s2 E X IH]; intros h I HF;
    [rewrite app_nil_r; split; [|exact I]; intros [|? ?] ? ? ? ? ? ? ? ? Q; discriminate| | | | |]; rewrite asked_cons in HF |- *; cbn [fst snd] in HF |- *.
  2-5: pose proof (other_ok _ _ _ _ _ _ I HF E) as I1; rewrite app_assoc in HF |- *; destruct (IH _ I1 HF) as [T1 I2]; split; [|exact I2];
    intros [|x w1] ? ? ? ? ? ? ? ? Q; [discriminate|]; injection Q as <- Q; rewrite asked_cons; cbn [fst snd]; rewrite app_assoc; eapply T1; exact Q.
  pose proof HF as HF1. rewrite app_assoc in HF1 |- *. pose proof (feasible_prefix _ _ HF1) as HF0.
  rewrite iterator_pass_space_same in E.
  destruct (run_sync_pass_ok b sz h s ops Hsz HszB I HF0) as (s1' & m' & E' & I1 & T1). rewrite E in E'. injection E' as <- <-.
  destruct (IH _ I1 HF1) as [T2 I2]. split; [|exact I2].
  intros [|x w1] ph' op' r' T' log' m' ops' w2 Q.
  - injection Q as _ _ _ _ _ -> -> _. cbn [asked flat_map]. rewrite app_nil_r. exact T1.
  - injection Q as <- Q. rewrite asked_cons. cbn [fst snd]. rewrite app_assoc. eapply T2. exact Q.
Qed.
End Run.

(** ** consequences of truthful measurements *)
Lemma truthful_sane h w : truthful crud_slots h w -> EndToEndSpec.roomy (h ++ asked w) -> few_saves crud_slots w -> clocked w -> sane_measurements (events w).
Proof.
  intros T R F C. unfold sane_measurements, events. apply Forall_forall. intros e He. apply in_map_iff in He. destruct He as ([e' ops] & <- & Hx). cbn [fst].
  destruct e' as [ph op r TT log [m|]|n|i|d]; auto. unfold few_saves, clocked in *. rewrite Forall_forall in F, C. specialize (F _ Hx). specialize (C _ Hx). cbn [fst snd] in F, C.
  apply in_split in Hx. destruct Hx as (w1 & w2 & ->). specialize (T _ _ _ _ _ _ _ _ _ eq_refl).
  assert (RP : EndToEndSpec.roomy ((h ++ asked w1) ++ OSave :: ops)).
  { apply roomy_prefix with (asked w2). rewrite asked_app, asked_cons in R. cbn [fst snd] in R. rewrite <- !app_assoc in *. cbn [app] in *. exact R. }
  split; [exact C|]. split; [exact (true_measurement_wf _ _ _ _ (proj1 RP) T)|exact (true_measurement_small _ _ _ _ RP F T)].
Qed.
Lemma split_events w : forall pre e post, events w = pre ++ e :: post -> exists w1 ops w2, w = w1 ++ (e, ops) :: w2 /\ pre = events w1 /\ post = events w2.
Proof.
  induction w as [|[x o] w IH]; intros [|p pre] e post E; try discriminate.
  - injection E as -> <-. exists [], o, w. auto.
  - injection E as -> E. destruct (IH _ _ _ E) as (w1 & ops & w2 & -> & -> & ->). exists ((p, o) :: w1), ops, w2. auto.
Qed.
Lemma truthful_growth h w w1 ph op r T log m ops w2 p : truthful crud_slots h w -> few_saves crud_slots w ->
  w = w1 ++ (EvPass ph op r T log (Some m), ops) :: w2 -> peak ops p -> growth (pr_space m) = p.
Proof.
  intros TR F E P. specialize (TR _ _ _ _ _ _ _ _ _ E). unfold few_saves in F. rewrite Forall_forall in F.
  specialize (F (EvPass ph op r T log (Some m), ops)). cbn [fst snd] in F. eapply true_measurement_growth; [|exact TR|exact P].
  apply F. rewrite E. apply in_or_app. right. left. reflexivity.
Qed.
Lemma truthful_lawful h w L : truthful crud_slots h w -> few_saves crud_slots w -> lawful_work L w -> lawful L (events w).
Proof.
  intros TR F LW pre ph op r T log m post E N. destruct (split_events _ _ _ _ E) as (w1 & ops & w2 & EW & -> & ->).
  destruct (LW _ _ _ _ _ _ _ _ _ EW N) as [A (p & P & B)]. split; [exact A|]. rewrite (truthful_growth _ _ _ _ _ _ _ _ _ _ _ _ TR F EW P). exact B.
Qed.
Lemma measurement_in tr ph op m : measurement tr ph op = Some m -> exists r T log, In (EvPass ph op r T log (Some m)) tr.
Proof.
  induction tr as [|e tr IH]; intros E; [discriminate|]. destruct e as [ph' op' r T log m'|n|i|d]; cbn [measurement] in E.
  - destruct (phase_eqb ph' ph && operation_eqb op' op) eqn:Q.
    + subst m'. apply andb_prop in Q. destruct Q as [Q1 Q2]. exists r, T, log. left. f_equal; [destruct ph', ph; try discriminate; reflexivity|destruct op', op; try discriminate; reflexivity].
    + destruct (IH E) as (r' & T' & log' & H). exists r', T', log'. right. exact H.
  - destruct (IH E) as (r' & T' & log' & H). exists r', T', log'. right. exact H.
  - destruct (IH E) as (r' & T' & log' & H). exists r', T', log'. right. exact H.
  - destruct (IH E) as (r' & T' & log' & H). exists r', T', log'. right. exact H.
Qed.
