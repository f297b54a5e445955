(** * Property theorems C92, C93: test_crud_algorithms running on the metrics allocator. *)
From Coq Require Import List ZArith Lia Bool Reals Lra Psatz.
From Verif Require Import Machine Complexity Analysis AnalysisF64b AnalysisF64d AnalysisF64e PropsAnalysis GrowthSpec Bridge Bridge4 Alloc AllocSpec AllocProofs IterPass IterSpec Report ReportProofs Crud CrudSpec CrudProofs CrudMain CrudRetry PropsCrud CrudLawsSpec CrudLawsProofs PropsCrudLaws EndToEnd EndToEndSpec EndToEndProofs PropsEndToEnd CrudAlloc CrudAllocSpec CrudAllocProofs.
Import ListNotations.
Open Scope Z_scope.

(** ** C92: every measurement of a CRUD test is the truth about its pass, whatever happened
    before the test, whatever the closures, the threads and the printing allocate *)
Theorem C92_measurements_are_true :
  forall S b t l (u : user S) cfg max h al outs s w s' al' o,
  arun b (ainit crud_slots) h = Val (al, outs) ->
  exec b u (test_crud_algorithms b t l cfg max) s (events w) s' o -> on_allocator b al w al' ->
  feasible (h ++ asked w) ->
  truthful kept_slots h w.
Proof.
  change kept_slots with crud_slots. intros S b t l u cfg max h al outs s w s' al' o E _ X HF.
  exact (proj1 (on_allocator_truthful b crud_slots crud_slots_pos crud_slots_small _ _ _ X h (init_inv _ _ _ _ (feasible_prefix _ _ HF) E) HF)).
Qed.
Print Assumptions C92_measurements_are_true.

(** the metrics themselves never panic: a pass can always be measured *)
Theorem C92_metrics_never_panic :
  forall b h al outs ops,
  arun b (ainit crud_slots) h = Val (al, outs) -> feasible (h ++ OSave :: ops) ->
  exists al' m, run_iterator_pass_space b al ops = Val (al', m) /\ true_measurement kept_slots h ops m.
Proof.
  change kept_slots with crud_slots. intros b h al outs ops E HF.
  destruct (run_sync_pass_ok b crud_slots h al ops crud_slots_pos crud_slots_small (init_inv _ _ _ _ (feasible_prefix _ _ HF) E) HF) as (al' & m & E' & _ & T).
  exists al', m. split; [exact E'|exact T].
Qed.
Print Assumptions C92_metrics_never_panic.

Section Work.
Context {S : Type}.
Variables (b : build) (t : tolerance) (l : libm) (u : user S) (cfg : crud_cfg) (max : Z) (h : list aop) (al : astate) (outs : list aout)
          (s s' : S) (w : list (event * list aop)) (al' : astate) (o : res test_end).
Hypothesis E : arun b (ainit crud_slots) h = Val (al, outs).
Hypothesis X : exec b u (test_crud_algorithms b t l cfg max) s (events w) s' o.
Hypothesis ON : on_allocator b al w al'.
Hypothesis R : EndToEndSpec.roomy (h ++ asked w).
Hypothesis F : few_saves kept_slots w.
Hypothesis C : clocked w.
Lemma work_true : truthful crud_slots h w.
Proof. exact (C92_measurements_are_true S b t l u cfg max h al outs s w s' al' o E X ON (proj1 R)). Qed.
Lemma work_sane : sane_measurements (events w).
Proof. exact (truthful_sane h w work_true R F C). Qed.
Lemma work_lawful L : lawful_work L w -> lawful L (events w).
Proof. exact (truthful_lawful h w L work_true F). Qed.
End Work.

(** ** C92: containers whose operations' time and allocations follow growth laws that comply with
    the maxima pass at the first attempt ... *)
Theorem C92_compliant_containers_pass :
  forall S b t l (u : user S) cfg L max h al outs s w s' al' o,
  libm_accurate l -> closures_return u -> test_ready b cfg max L ->
  (forall op, is_enabled cfg op -> not_overrated op (time_cost L op) /\ not_overrated op (space_cost L op)) ->
  arun b (ainit crud_slots) h = Val (al, outs) ->
  exec b u (test_crud_algorithms b t l cfg max) s (events w) s' o -> on_allocator b al w al' ->
  EndToEndSpec.roomy (h ++ asked w) -> few_saves kept_slots w -> clocked w ->
  lawful_work L w -> (forall op, complies cfg L op) ->
  o = Val Passed /\ acts (events w) = all_acts cfg.
Proof.
  intros S b t l u cfg L max h al outs s w s' al' o HL CLO RD NO E X ON R F C LW CO.
  exact (C79_compliant_containers_pass S b t l u cfg L max s (events w) s' o HL CLO RD NO X
    (work_sane b t l u cfg max h al outs s s' w al' o E X ON R F C) (work_lawful b t l u cfg max h al outs s s' w al' o E X ON R F L LW) CO).
Qed.
Print Assumptions C92_compliant_containers_pass.
(** ... and those that do not comply fail, naming the first operation that does not *)
Theorem C92_violations_fail :
  forall S b t l (u : user S) cfg L max h al outs s w s' al' o op wh,
  libm_accurate l -> closures_return u -> test_ready b cfg max L ->
  (forall op, is_enabled cfg op -> told_apart op (time_cost L op) /\ told_apart op (space_cost L op)) ->
  arun b (ainit crud_slots) h = Val (al, outs) ->
  exec b u (test_crud_algorithms b t l cfg max) s (events w) s' o -> on_allocator b al w al' ->
  EndToEndSpec.roomy (h ++ asked w) -> few_saves kept_slots w -> clocked w ->
  lawful_work L w -> first_violation cfg L op wh ->
  let names_it e := ce_operation e = op /\ ce_analysis e = wh /\
    match wh with
    | Time => ce_complexity e = class (time_cost L op) /\ ce_max e = oc_max_time (cfg_of cfg op)
    | Space => ce_complexity e = class (space_cost L op) /\ ce_max e = oc_max_space (cfg_of cfg op)
    end in
  match wh with
  | Time => exists e c, o = Val (GaveUp e c) /\ Z.of_nat (length (c ++ [e])) = max /\ Forall names_it (c ++ [e])
  | Space => exists e, o = Val (SpaceMismatch 0 e) /\ names_it e /\ acts (events w) = acts_until cfg op
  end.
Proof.
  intros S b t l u cfg L max h al outs s w s' al' o op wh HL CLO RD NO E X ON R F C LW FV.
  exact (C79_violations_fail S b t l u cfg L max s (events w) s' o op wh HL CLO RD NO X
    (work_sane b t l u cfg max h al outs s s' w al' o E X ON R F C) (work_lawful b t l u cfg max h al outs s s' w al' o E X ON R F L LW) FV).
Qed.
Print Assumptions C92_violations_fail.

(** ** C93: operations that never hold more memory than at their start *)
Section NoGrowth.
Context {S : Type}.
Variables (b : build) (t : tolerance) (l : libm) (u : user S) (cfg : crud_cfg) (max : Z).
Hypothesis PZ : powf_zero_ok l.
Hypothesis CFG : cfg_ok cfg.
Hypothesis ROOM : CrudRetry.roomy cfg.
Hypothesis MAX : 0 < max < two32.
Hypothesis BIG : forall op, is_enabled cfg op -> 10 <= iterations cfg op.
Hypothesis ELEMENTS : is_enabled cfg Read \/ is_enabled cfg Update -> is_enabled cfg Create.

Definition flat (tr : list event) (op : operation) : Prop :=
  forall ph r T log m, In (EvPass ph op r T log (Some m)) tr -> ph <> Warmup -> growth (pr_space m) = 0.
Lemma adapted_same k cfg' : 0 <= k < max -> adapted b k cfg = Val cfg' ->
  cfg_ok cfg' /\ usable cfg' /\ (forall op, is_enabled cfg' op <-> is_enabled cfg op) /\
  (forall op, oc_max_space (cfg_of cfg' op) = oc_max_space (cfg_of cfg op)).
Proof.
  intros Hk E. pose proof (adapted_u32 b k cfg cfg' ltac:(lia) CFG E) as C'. pose proof (adapted_usable b k cfg cfg' ltac:(lia) CFG ROOM E) as U'.
  pose proof (adapted_spec _ _ _ _ E) as [W A]. split; [exact C'|]. split; [exact U'|].
  assert (B : forall op, iterations cfg op / 10 <= iterations cfg' op <= iterations cfg op + iterations cfg op / 2).
  { intros op. destruct (A op) as [A1 _]. destruct CFG as [_ C]. destruct (C op) as [[I1 I2] _]. destruct (ROOM op) as [R1 _].
    apply (adapt_bounds b k); auto; [lia|]. rewrite two31_val in R1. rewrite two32_val. lia. }
  split.
  - intros op. specialize (B op). unfold is_enabled in *. assert (NN : 0 <= iterations cfg op) by (destruct CFG as [_ C]; destruct (C op) as [[H _] _]; exact H). split; intros EN.
    + destruct (Z.eq_dec (iterations cfg op) 0) as [Z0|]; [|lia]. rewrite Z0 in B. cbn in B. lia.
    + specialize (BIG op EN). assert (1 <= iterations cfg op / 10) by (apply Z.div_le_lower_bound; lia). lia.
  - intros op. destruct (A op) as [_ ->]. reflexivity.
Qed.
Lemma observed_flat cfg' tr op m1 m2 tc sc : cfg_ok cfg' -> usable cfg' -> (is_enabled cfg' Read \/ is_enabled cfg' Update -> is_enabled cfg' Create) ->
  sane_measurements tr -> flat tr op -> is_enabled cfg' op -> observed b t l cfg' tr op m1 m2 tc sc -> sc = no_growth_class op.
Proof.
  intros C' U' EL SA FL EN (M1 & M2 & _ & OS).
  pose proof (sane_measured _ _ _ _ SA M1) as (_ & W1 & L1). pose proof (sane_measured _ _ _ _ SA M2) as (_ & W2 & L2).
  destruct (measurement_in _ _ _ _ M1) as (r1 & T1 & log1 & I1). destruct (measurement_in _ _ _ _ M2) as (r2 & T2 & log2 & I2).
  pose proof (FL _ _ _ _ _ I1 ltac:(discriminate)) as G1. pose proof (FL _ _ _ _ _ I2 ltac:(discriminate)) as G2.
  assert (RG : forall op', is_enabled cfg' op' -> 1 <= iterations cfg' op' < two32 /\ 1 <= 2 * iterations cfg' op' < two32).
  { intros op' EN'. destruct U' as [U' _]. specialize (U' op'). unfold is_enabled in EN'. lia. }
  assert (SO : forall m, well_formed m -> max_used_memory m < 2 ^ 62 -> space_ok m).
  { intros m (WA & WB & WC) LM. unfold space_ok. pose proof two64_val. lia. }
  unfold observed_space, no_growth_class in *. destruct op.
  - destruct (RG _ EN) as [R1 R2]. rewrite (proj2 (proj2 (C07_zero_usage b t l _ _ _ _ PZ R1 R2 (SO _ W1 L1) G1 (SO _ W2 L2) G2))) in OS. apply val_inj in OS. auto.
  - destruct (RG Create (EL (or_introl EN))) as [R1 R2]. rewrite (proj1 (proj2 (C07_zero_usage b t l _ _ _ _ PZ R1 R2 (SO _ W1 L1) G1 (SO _ W2 L2) G2))) in OS. apply val_inj in OS. auto.
  - destruct (RG Create (EL (or_intror EN))) as [R1 R2]. rewrite (proj1 (proj2 (C07_zero_usage b t l _ _ _ _ PZ R1 R2 (SO _ W1 L1) G1 (SO _ W2 L2) G2))) in OS. apply val_inj in OS. auto.
  - destruct (RG _ EN) as [R1 R2]. rewrite (proj2 (proj2 (C07_zero_usage b t l _ _ _ _ PZ R1 R2 (SO _ W1 L1) G1 (SO _ W2 L2) G2))) in OS. apply val_inj in OS. auto.
Qed.

Lemma session_flat k s0 outs tr s1 op : session b t l u cfg k s0 outs tr s1 -> 0 <= k -> k + Z.of_nat (length outs) <= max ->
  sane_measurements tr -> flat tr op -> is_enabled cfg op ->
  (forall r, In (Val (inl r)) outs -> cle (no_growth_class op) (oc_max_space (cfg_of cfg op))) /\
  (forall e, In (Val (inr e)) outs -> ce_operation e = op -> ce_analysis e = Space -> ce_complexity e = no_growth_class op /\ ce_max e = oc_max_space (cfg_of cfg op)).
Proof.
  assert (ONE : forall k cfg' s0 tr s1 x, 0 <= k < max -> adapted b k cfg = Val cfg' ->
    exec b u (internal_analyse_crud_algorithms b t l cfg') s0 tr s1 (Val x) -> sane_measurements tr -> flat tr op -> is_enabled cfg op ->
    match x with
    | inl _ => cle (no_growth_class op) (oc_max_space (cfg_of cfg op))
    | inr e => ce_operation e = op -> ce_analysis e = Space -> ce_complexity e = no_growth_class op /\ ce_max e = oc_max_space (cfg_of cfg op)
    end).
  { intros k0 cfg' s2 tr0 s3 x Hk E X SA FL EN. destruct (adapted_same k0 cfg' Hk E) as (C' & U' & EQ & MX).
    assert (EL : is_enabled cfg' Read \/ is_enabled cfg' Update -> is_enabled cfg' Create) by (rewrite !EQ; exact ELEMENTS).
    destruct x as [r|e].
    - destruct (proj1 (C36_success_iff_all_met _ _ _ _ _ _ _ _ _ _ C' (or_intror (proj1 U')) X) (ex_intro _ r eq_refl) op ltac:(apply EQ; exact EN)) as (m1 & m2 & tc & sc & O & _ & LS).
      rewrite (observed_flat cfg' _ op _ _ _ _ C' U' EL SA FL ltac:(apply EQ; exact EN) O), MX in LS. exact LS.
    - intros EO ES. destruct (C36_error _ _ _ _ _ _ _ _ _ _ C' (or_intror (proj1 U')) X) as (EN' & _ & (m1 & m2 & tc & sc & O & D) & _). cbv zeta in D.
      rewrite EO in *. rewrite ES in D. destruct D as [(D & _)|(_ & _ & _ & D & D2)]; [discriminate|]. rewrite D, D2, MX. split; [|reflexivity].
      exact (observed_flat cfg' _ op _ _ _ _ C' U' EL SA FL EN' O). }
  intros SS. induction SS as [k cfg' s2 tr s3 o E X|k cfg' s2 tr s3 e s4 v outs tr' s5 E X TM RS SS IH]; intros K0 KM SA FL EN; cbn [length] in KM.
  - split.
    + intros r [->|[]]. exact (ONE k cfg' _ _ _ (inl r) ltac:(lia) E X SA FL EN).
    + intros e [->|[]]. exact (ONE k cfg' _ _ _ (inr e) ltac:(lia) E X SA FL EN).
  - unfold sane_measurements in SA. apply Forall_app in SA. destruct SA as [SA1 SA2]. apply Forall_app in SA2. destruct SA2 as [_ SA3].
    assert (FL1 : flat tr op) by (intros ph r T log m I; apply (FL ph r T log m); apply in_or_app; left; exact I).
    assert (FL2 : flat tr' op) by (intros ph r T log m I; apply (FL ph r T log m); apply in_or_app; right; apply in_or_app; right; exact I).
    destruct (IH ltac:(lia) ltac:(lia) SA3 FL2 EN) as [IH1 IH2]. split.
    + intros r [Q|I]; [discriminate|eauto].
    + intros e0 [Q|I]; [|eauto]. apply val_inj in Q. injection Q as ->. exact (ONE k cfg' _ _ _ (inr e0) ltac:(lia) E X SA1 FL1 EN).
Qed.
Lemma session_enabled k s0 outs tr s1 : session b t l u cfg k s0 outs tr s1 -> 0 <= k -> k + Z.of_nat (length outs) <= max ->
  forall e, In (Val (inr e)) outs -> is_enabled cfg (ce_operation e).
Proof.
  assert (ONE : forall k cfg' s0 tr s1 e, 0 <= k < max -> adapted b k cfg = Val cfg' ->
    exec b u (internal_analyse_crud_algorithms b t l cfg') s0 tr s1 (Val (inr e)) -> is_enabled cfg (ce_operation e)).
  { intros k0 cfg' s2 tr0 s3 e Hk E X. destruct (adapted_same k0 cfg' Hk E) as (C' & U' & EQ & _). apply EQ.
    exact (proj1 (C36_error _ _ _ _ _ _ _ _ _ _ C' (or_intror (proj1 U')) X)). }
  intros SS. induction SS as [k cfg' s2 tr s3 o E X|k cfg' s2 tr s3 e s4 v outs tr' s5 E X TM RS SS IH]; intros K0 KM e0 HI; cbn [length] in KM.
  - destruct HI as [->|[]]. eapply ONE; [|exact E|exact X]. lia.
  - destruct HI as [Q|HI]; [|apply IH; [lia|lia|exact HI]]. apply val_inj in Q. injection Q as ->. eapply ONE; [|exact E|exact X]. lia.
Qed.
Lemma never_grows_flat h w op : truthful crud_slots h w -> few_saves crud_slots w -> never_grows w op -> flat (events w) op.
Proof.
  intros TR F NG ph r T log m I N. unfold events in I. apply in_map_iff in I. destruct I as ([e ops] & Q & I). cbn [fst] in Q. subst e.
  pose proof (NG _ _ _ _ _ _ I N) as P. apply in_split in I. destruct I as (w1 & w2 & EW). exact (truthful_growth h w _ _ _ _ _ _ _ _ _ _ TR F EW P).
Qed.
End NoGrowth.

Theorem C93_no_growth :
  forall S b t l (u : user S) cfg max h al outs s w s' al' o,
  powf_zero_ok l -> cfg_ok cfg -> CrudRetry.roomy cfg -> 0 < max < two32 ->
  (forall op, is_enabled cfg op -> 10 <= iterations cfg op) -> (is_enabled cfg Read \/ is_enabled cfg Update -> is_enabled cfg Create) ->
  arun b (ainit crud_slots) h = Val (al, outs) ->
  exec b u (test_crud_algorithms b t l cfg max) s (events w) s' o -> on_allocator b al w al' ->
  EndToEndSpec.roomy (h ++ asked w) -> few_saves kept_slots w -> clocked w ->
  forall op, is_enabled cfg op -> never_grows w op ->
  (* it passes only if the limit admits the class; *)
  (o = Val Passed -> cle (no_growth_class op) (oc_max_space (cfg_of cfg op))) /\
  (* if the test fails on its memory, that class is what the message names *)
  (forall a e, o = Val (SpaceMismatch a e) -> ce_operation e = op ->
     ce_complexity e = no_growth_class op /\ ce_max e = oc_max_space (cfg_of cfg op)).
Proof.
  intros S b t l u cfg max h al outs s w s' al' o PZ CFG ROOM MAX BIG EL E X ON R F C op EN NG.
  pose proof (work_true b t l u cfg max h al outs s s' w al' o E X ON R) as TR.
  pose proof (work_sane b t l u cfg max h al outs s s' w al' o E X ON R F C) as SA.
  pose proof (never_grows_flat h w op TR F NG) as FL.
  assert (SES : forall k outs0, session b t l u cfg 0 s outs0 (events w) s' -> Z.of_nat (length outs0) <= max -> k = 0 ->
    (forall r, In (Val (inl r)) outs0 -> cle (no_growth_class op) (oc_max_space (cfg_of cfg op))) /\
    (forall e, In (Val (inr e)) outs0 -> ce_operation e = op -> ce_analysis e = Space -> ce_complexity e = no_growth_class op /\ ce_max e = oc_max_space (cfg_of cfg op))).
  { intros k outs0 SS LE _. exact (session_flat b t l u cfg max PZ CFG ROOM MAX BIG EL 0 s outs0 (events w) s' op SS ltac:(lia) ltac:(lia) SA FL EN). }
  split.
  - intros ->. destruct (C40_retry_policy _ _ _ _ _ _ _ _ _ _ _ MAX X) as (errs & r & SS & _ & LE).
    apply (proj1 (SES 0 _ SS ltac:(rewrite app_length, map_length; cbn [length]; lia) eq_refl) r). apply in_or_app. right. left. reflexivity.
  - intros a e -> EO. destruct (C40_retry_policy _ _ _ _ _ _ _ _ _ _ _ MAX X) as (errs & SS & _ & OS & _ & LE).
    apply (proj2 (SES 0 _ SS ltac:(rewrite map_length, app_length; cbn [length]; lia) eq_refl) e); [|exact EO|exact OS].
    change (Val (inr e)) with (failed e). apply in_map, in_or_app. right. left. reflexivity.
Qed.
Print Assumptions C93_no_growth.

(** with the feature [no_allocator_metrics] nothing but the save points reaches the allocator: a test
    with an enabled read or update always fails unless its space limit is the worst class, one with an enabled create
    or delete always fails unless its limit is at least the class between O(log n) and O(n) *)
Lemma only_saves n : Z.of_nat n < two32 -> EndToEndSpec.roomy (repeat OSave n).
Proof.
  intros H. pose proof two32_val. pose proof two64_val.
  assert (T : forall f, f OSave = 0 -> AllocSpec.total f (repeat OSave n) = 0).
  { intros f Hf. unfold AllocSpec.total. clear H. induction n as [|n IH]; [reflexivity|]. cbn [repeat map sum fold_right] in *. unfold sum in *. cbn [fold_right]. rewrite Hf. lia. }
  assert (SV : saves (repeat OSave n) = Z.of_nat n).
  { clear H T. unfold saves, AllocSpec.total. induction n as [|n IH]; [reflexivity|]. cbn [repeat map]. unfold sum in *. cbn [fold_right is_save] in *. lia. }
  assert (LV : forall x, In x (levels [] (repeat OSave n)) -> x = 0).
  { intros x Hx. unfold levels in Hx. apply in_map_iff in Hx. destruct Hx as (i & <- & _). cbn [app]. unfold used, AllocSpec.total.
    assert (Z0 : forall l, Forall (eq OSave) l -> sum (map delta l) = 0). { induction 1 as [|x l <- _ IH]; [reflexivity|]. unfold sum in *. cbn [map fold_right delta]. lia. }
    apply Z0. apply Forall_forall. intros y Hy. apply In_nth_error in Hy. destruct Hy as [j Hj].
    assert (IY : In y (repeat OSave n)) by (rewrite <- (firstn_skipn i); apply in_or_app; left; eapply nth_error_In; exact Hj). symmetry. eapply repeat_spec. exact IY. }
  split; [|intros x Hx; rewrite (LV x Hx); lia].
  split; [apply Forall_forall; intros y Hy; apply repeat_spec in Hy; subst y; exact I|].
  split; [intros x Hx; rewrite (LV x Hx); lia|]. rewrite repeat_length, !T by reflexivity. rewrite SV. repeat split; lia.
Qed.
Theorem C93_no_allocator_metrics :
  forall S b t l (u : user S) cfg max s w s' al' o op,
  powf_zero_ok l -> cfg_ok cfg -> CrudRetry.roomy cfg -> 0 < max < two32 ->
  (forall op, is_enabled cfg op -> 10 <= iterations cfg op) -> (is_enabled cfg Read \/ is_enabled cfg Update -> is_enabled cfg Create) ->
  exec b u (test_crud_algorithms b t l cfg max) s (events w) s' o -> on_allocator b (ainit crud_slots) w al' ->
  Forall (fun x => snd x = []) w -> Z.of_nat (length (acts (events w))) < two32 -> clocked w ->
  closures_return u ->
  is_enabled cfg op -> clt (oc_max_space (cfg_of cfg op)) (no_growth_class op) ->
  (exists e c, o = Val (GaveUp e c)) \/
  (exists a e, o = Val (SpaceMismatch a e) /\ ce_complexity e = no_growth_class (ce_operation e)).
Proof.
  intros S b t l u cfg max s w s' al' o op PZ CFG ROOM MAX BIG EL X ON NIL LEN C CLO EN LT.
  assert (AS : exists n, asked w = repeat OSave n /\ (n <= length (acts (events w)))%nat).
  { clear - NIL. induction w as [|[e ops] w IH]; [exists 0%nat; auto|]. inversion NIL as [|? ? H1 H2]; subst. cbn [snd] in H1. subst ops. destruct (IH H2) as (n & E & L).
    rewrite asked_cons. unfold events, acts in *. cbn [map fst snd flat_map]. rewrite app_length. destruct e as [? ? ? ? ? [?|]|?|?|?]; rewrite E; cbn [act_of length]; [exists (Datatypes.S n)|exists n|exists n|exists n|exists n]; (split; [reflexivity|lia]). }
  destruct AS as (n & EA & LN).
  assert (R : EndToEndSpec.roomy ([] ++ asked w)) by (cbn [app]; rewrite EA; apply only_saves; lia).
  assert (F : few_saves kept_slots w).
  { unfold few_saves. apply Forall_forall. intros [e ops] Hx. rewrite Forall_forall in NIL. pose proof (NIL _ Hx) as Q. cbn [snd] in Q. subst ops. cbn [fst snd]. destruct e as [? ? ? ? ? [?|]|?|?|?]; auto. cbn. lia. }
  assert (NG : forall op', never_grows w op').
  { intros op' ph r T log m ops I0 _. rewrite Forall_forall in NIL. pose proof (NIL _ I0) as Q. cbn [snd] in Q. subst ops. split; [left; reflexivity|]. intros x [<-|[]]. cbn. lia. }
  pose proof (C93_no_growth S b t l u cfg max [] (ainit crud_slots) [] s w s' al' o PZ CFG ROOM MAX BIG EL eq_refl X ON R F C) as G.
  pose proof (work_sane b t l u cfg max [] (ainit crud_slots) [] s s' w al' o eq_refl X ON R F C) as SA.
  assert (M0 : 0 <= max < two32) by lia. destruct (C40_no_other_end _ _ _ _ _ _ _ _ _ _ _ M0 CFG ROOM CLO X SA) as [e ->].
  destruct e as [|e c|a e].
  - exfalso. destruct (G op EN (NG op)) as [G1 _]. specialize (G1 eq_refl). unfold cle, clt in *. lia.
  - left. eauto.
  - right. exists a, e. split; [reflexivity|].
    assert (EN' : is_enabled cfg (ce_operation e)).
    { destruct (C40_retry_policy _ _ _ _ _ _ _ _ _ _ _ MAX X) as (errs & SS & _ & _ & _ & LE).
      apply (session_enabled b t l u cfg max CFG ROOM MAX BIG 0 s _ _ s' SS ltac:(lia) ltac:(rewrite map_length, app_length; cbn [length]; lia)).
      change (Val (inr e)) with (failed e). apply in_map, in_or_app. right. left. reflexivity. }
    apply (proj2 (G _ EN' (NG _)) a e eq_refl eq_refl).
Qed.
Print Assumptions C93_no_allocator_metrics.
