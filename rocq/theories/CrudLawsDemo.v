(** * A container that meets the hypotheses of C79, retries included. *)
From Coq Require Import String List ZArith Lia Bool Reals Lra Psatz.
From Verif Require Import Machine Complexity Floats Analysis AnalysisF64d AllocSpec GrowthSpec Bridge Bridge4 PropsBridge IterPass IterSpec Report ReportProofs Crud CrudSpec CrudProofs CrudMain CrudRetry PropsCrud CrudLawsSpec CrudLawsProofs PropsCrudLaws.
Import ListNotations.
Open Scope Z_scope.

(** ** Executions in which the measurements depend on the range of the pass *)
Definition measures_by (M : phase -> operation -> range -> pass_result) (tr : list event) : Prop :=
  Forall (fun e => match e with EvPass ph op r _ _ (Some m) => m = M ph op r | _ => True end) tr.
Lemma exec_exists_by {S A} b (u : user S) M (m : prog A) : forall s, exists tr s' o, exec b u m s tr s' o /\ measures_by M tr.
Proof.
  induction m as [a|p|ph op ty r T c IH|n c IH|i c IH|c IH]; intros s.
  - eexists [], _, _. split; [constructor|constructor].
  - eexists [], _, _. split; [constructor|constructor].
  - destruct (pass_exists b (u_op u op) ty r T s) as (log & s1 & o & P & NS). destruct o as [v|p|]; [| |contradiction].
    + destruct (IH (M ph op r) v s1) as (tr & s2 & o & E & MM). eexists _, _, _. split; [eapply ex_pass; eassumption|]. constructor; [reflexivity|exact MM].
    + eexists _, _, _. split; [eapply ex_pass_panic; eassumption|]. repeat constructor.
  - destruct (u_reset u s n) as [s1 [v|]] eqn:R.
    + destruct (IH s1) as (tr & s2 & o & E & MM). eexists _, _, _. split; [eapply ex_reset; eassumption|]. constructor; [exact I|exact MM].
    + eexists _, _, _. split; [eapply ex_reset_panic; eassumption|]. repeat constructor.
  - destruct (IH s) as (tr & s2 & o & E & MM). eexists _, _, _. split; [eapply ex_output; eassumption|]. constructor; [exact I|exact MM].
  - destruct (IH 0 s) as (tr & s2 & o & E & MM). eexists _, _, _. split; [eapply ex_clock; [apply Z.le_refl|exact E]|]. constructor; [exact I|exact MM].
Qed.

(** ** Every pass of an analysis finds the container where [start_size] says *)
Lemma unique_label cfg A ph op r T B : ph <> Warmup -> all_acts cfg = A ++ APass ph op r T :: B -> fresh ph op A.
Proof.
  intros N E.
  assert (K : forall x, In x (all_acts cfg) -> True) by auto. clear K.
  assert (CNT : (length (filter (fun a => match a with APass ph' op' _ _ => phase_eqb ph' ph && operation_eqb op' op | AReset _ => false end) (all_acts cfg)) <= 1)%nat).
  { assert (PO : forall ph' op' r', length (filter (fun a => match a with APass ph1 op1 _ _ => phase_eqb ph1 ph && operation_eqb op1 op | AReset _ => false end) (pass_on cfg ph' op' r'))
        = if (phase_eqb ph' ph && operation_eqb op' op) && (0 <? iterations cfg op') then 1%nat else 0%nat).
    { intros ph' op' r'. unfold pass_on, enabled_. destruct (0 <? iterations cfg op'); cbn [filter length]; destruct (phase_eqb ph' ph && operation_eqb op' op); reflexivity. }
    unfold all_acts, acts_until, first_acts, warmup_acts. rewrite !filter_app, !app_length, !PO.
    assert (W0 : length (filter (fun a => match a with APass ph1 op1 _ _ => phase_eqb ph1 ph && operation_eqb op1 op | AReset _ => false end)
       (if 0 <? cc_warmup cfg then pass_on cfg Warmup Create (Range 0 (warm cfg (iterations cfg Create))) ++ pass_on cfg Warmup Read (Range 0 (warm cfg (iterations cfg Read))) ++
         pass_on cfg Warmup Update (Range 0 (warm cfg (iterations cfg Update))) ++ pass_on cfg Warmup Delete (Range (warm cfg (iterations cfg Delete)) 0) ++
         [AReset (warm cfg (iterations cfg Create))] else [])) = 0%nat).
    { destruct (0 <? cc_warmup cfg); [|reflexivity]. rewrite !filter_app, !app_length, !PO. destruct ph; [contradiction| |]; reflexivity. }
    rewrite W0. destruct ph; [contradiction| |]; destruct op; cbn [phase_eqb operation_eqb andb]; repeat match goal with |- context [if ?x then _ else _] => destruct x end; cbn; lia. }
  rewrite E, filter_app, app_length in CNT. cbn [filter] in CNT. rewrite phase_eqb_refl, operation_eqb_refl in CNT. cbn [andb length] in CNT.
  apply Forall_forall. intros a Ha LB. destruct a as [ph' op' r' T'|n]; [|exact LB]. destruct LB as [-> ->].
  assert (In (APass ph op r' T') (filter (fun a => match a with APass ph' op' _ _ => phase_eqb ph' ph && operation_eqb op' op | AReset _ => false end) A)).
  { apply filter_In. split; [exact Ha|]. rewrite phase_eqb_refl, operation_eqb_refl. reflexivity. }
  destruct (filter _ A); [contradiction|]. cbn [length] in CNT. lia.
Qed.
Lemma everywhere_located {S} b (u : user S) cfg tr pre ph op r T log m post : cfg_ok cfg -> usable cfg -> closures_return u -> no_dropped cfg ->
  Forall (valid b u) tr -> Forall no_none tr -> (exists rest, all_acts cfg = acts tr ++ rest) -> ph <> Warmup ->
  tr = pre ++ EvPass ph op r T log (Some m) :: post ->
  is_enabled cfg op /\ elements_from 0 pre = start_size cfg ph op /\ Z.of_nat (length log) = iterations cfg op /\ r = range_of cfg ph op.
Proof.
  intros CFG USE CLO DIV V NN [rest P] N E.
  assert (F : fresh ph op (acts pre)).
  { rewrite E, acts_app in P. cbn [acts flat_map act_of app] in P. rewrite <- app_assoc in P. cbn [app] in P. apply (unique_label _ _ _ _ _ _ _ N P). }
  assert (EN : is_enabled cfg op).
  { assert (I0 : In (APass ph op r T) (all_acts cfg)).
    { rewrite P. apply in_or_app. left. apply event_acts with log (Some m). rewrite E. apply in_or_app. right. left. reflexivity. }
    destruct (Z_lt_dec 0 (iterations cfg op)) as [|Z0]; [assumption|]. exfalso.
    assert (iterations cfg op = 0) by (destruct CFG as [_ C]; destruct (C op) as [[H _] _]; lia).
    exact (no_acts_disabled cfg op H ph r T I0). }
  split; [exact EN|].
  assert (MS : measurement tr ph op = Some m).
  { rewrite E. rewrite measurement_app_fresh by exact F. cbn [measurement]. rewrite phase_eqb_refl, operation_eqb_refl. reflexivity. }
  destruct (acts_located cfg ph op N EN) as [rest' L]. pose proof P as P'. rewrite L in P'. rewrite E, acts_app in P'. cbn [acts flat_map act_of] in P'.
  rewrite <- (app_assoc (acts pre)) in P'. cbn [app] in P'. symmetry in P'.
  destruct (fresh_unique _ _ _ _ _ _ _ _ _ _ F (fresh_pre cfg ph op N) P') as (A & ER & ET).
  destruct (located b cfg u CFG USE CLO DIV tr ph op m N EN V NN (ex_intro _ rest P) MS) as (pre' & r' & T' & log' & post' & E' & S1 & S2).
  assert (F' : fresh ph op (acts pre')).
  { rewrite E', acts_app in P. cbn [acts flat_map act_of app] in P. rewrite <- app_assoc in P. cbn [app] in P. apply (unique_label _ _ _ _ _ _ _ N P). }
  assert (Q : pre = pre' /\ log = log').
  { clear - E E' F F'. rewrite E in E'. clear E. revert pre' E' F'. induction pre as [|e pre IH]; intros [|e' pre'] E' F'; cbn [app] in E'.
    - injection E' as _ _ -> _. auto.
    - injection E' as <- _. inversion F' as [|? ? X _]; subst. destruct X. split; reflexivity.
    - injection E' as -> _. inversion F as [|? ? X _]; subst. destruct X. split; reflexivity.
    - injection E' as -> E'. destruct (IH) with (pre' := pre') as [-> ->]; auto.
      + destruct e'; cbn [acts flat_map act_of app] in F; [inversion F; assumption|inversion F; assumption|exact F|exact F].
      + destruct e'; cbn [acts flat_map act_of app] in F'; [inversion F'; assumption|inversion F'; assumption|exact F'|exact F']. }
  destruct Q as [-> ->]. auto.
Qed.
Lemma lawful_concat L k tr1 tr2 : lawful_from L k tr1 -> lawful_from L (elements_from k tr1) tr2 -> lawful_from L k (tr1 ++ tr2).
Proof.
  intros H1 H2 pre ph op r T log m post E N. apply app_eq_app in E. destruct E as (mid & [[E1 E2]|[E1 E2]]).
  - destruct mid as [|e mid].
    + rewrite app_nil_r in E1. subst tr1. cbn [app] in E2. symmetry in E2. exact (H2 [] ph op r T log m post E2 N).
    + cbn [app] in E2. injection E2 as <- E2. apply (H1 pre ph op r T log m mid E1 N).
  - subst pre. rewrite elements_app. exact (H2 mid ph op r T log m post E2 N).
Qed.

(** ** The container: a vector of 64-byte elements. Creating takes 100 ns, updating 50 ns; reading and
    deleting scan the vector, 10 ns per element. Every pass but creates peaks at 2 MB (the threads). *)
Definition vec_laws : laws := Laws
  (fun op => match op with Create | Update => EachCall Lconst | Read | Delete => EachCall Ln end)
  (fun op => match op with Create => 100 | Update => 50 | Read | Delete => 10 end)%R
  (fun op => match op with Create => EachCall Lconst | _ => WholePass Lconst end)
  (fun op => match op with Create => 64 | _ => 2000000 end)%R.
Definition vec_measure (ph : phase) (op : operation) (r : range) : pass_result :=
  let n := Z.min 100000 (len r) in
  match op with
  | Create => PassResult (100 * n) (SpacePass 0 (64 * n) (64 * n) 0)
  | Update => PassResult (50 * n) (SpacePass 0 0 2000000 0)
  | Read => PassResult (match ph with Second => 10 * (n * (2 * n)) | _ => 10 * (n * n) end) (SpacePass 0 0 2000000 0)
  | Delete => PassResult (match ph with Second => 5 * (n * (3 * n + 1)) | _ => 5 * (n * (n + 1)) end) (SpacePass 0 0 2000000 0)
  end.
(** 1000 elements per pass, one thread, 10% warm-up; reads may take [mt] time, creates [ms] memory *)
Definition vec_cfg (mt ms : complexity) : crud_cfg :=
  CrudCfg "vec"%string 10 (OpCfg 1000 1 O1 ms) (OpCfg 1000 1 mt O1) (OpCfg 1000 1 O1 O1) (OpCfg 1000 1 ON O1).
Lemma vec_sane ph op r : sane (vec_measure ph op r).
Proof.
  unfold vec_measure. cbv zeta. assert (H : 0 <= Z.min 100000 (len r) <= 100000) by (unfold len, highest, lowest; lia). generalize dependent (Z.min 100000 (len r)). intros n H.
  unfold sane, duration_sane, well_formed, nanos_per_sec. pose proof two64_val as V64.
  destruct ph, op; cbn [pr_time pr_space used_memory_before used_memory_after max_used_memory min_used_memory]; repeat split; nia.
Qed.
Lemma vec_ready b mt ms : test_ready b (vec_cfg mt ms) 3 vec_laws.
Proof.
  unfold test_ready, cfg_ok, CrudRetry.roomy, coherent, is_enabled, u32. rewrite two31_val, two32_val.
  split; [split; [cbn; lia|intros [| | |]; cbn; lia]|]. split; [intros [| | |]; cbn; lia|]. split; [lia|].
  split; [split; [intros _; cbn; lia|reflexivity]|]. split; [intros [| | |]; cbn; lia|].
  split; [intros [| | |] k n _ _ _; apply Z.divide_1_l|]. intros [| | |]; cbn; lra.
Qed.
Lemma vec_near L x y : IZR y = (L * x)%R -> (0 <= L * x)%R -> near (L * x) y.
Proof. intros E P. unfold near. rewrite E. lra. Qed.
(** the times and the growths are those of [vec_measure] *)
Definition vec_like (tr : list event) : Prop :=
  Forall (fun e => match e with
    | EvPass ph op r _ _ (Some m) => pr_time m = pr_time (vec_measure ph op r) /\ growth (pr_space m) = growth (pr_space (vec_measure ph op r))
    | _ => True end) tr.
Lemma measures_like tr : measures_by vec_measure tr -> vec_like tr.
Proof. apply Forall_impl. intros [ph op r T log [m|]|n|i|d]; auto. intros ->. split; reflexivity. Qed.
(** the measurements of an analysis of the same container with other counts *)
Lemma vec_attempt b cfg s tr s' x : cfg_ok cfg -> usable cfg -> no_dropped cfg -> (exists n, (forall op, iterations cfg op = n) /\ 0 < n <= 1500) ->
  exec b demo_user (internal_analyse_crud_algorithms b Tol25 good_libm cfg) s tr s' (Val x) -> vec_like tr ->
  lawful vec_laws tr.
Proof.
  intros CFG USE DIV (n & HN & Hn) X MM pre ph op r T log m post E N.
  pose proof (exec_valid b demo_user _ _ _ _ _ X) as V. pose proof (exec_measured b demo_user _ _ _ _ _ X ltac:(discriminate)) as NN.
  assert (P : exists rest, all_acts cfg = acts tr ++ rest).
  { pose proof (internal_spec b Tol25 good_libm demo_user cfg s tr s' _ CFG (or_intror (proj1 USE)) X) as H. destruct x as [rr|e]; cbn in H.
    - exists []. rewrite app_nil_r. symmetry. apply H.
    - destruct H as (_ & H & _). rewrite H. apply until_prefix. }
  destruct (everywhere_located b demo_user cfg tr pre ph op r T log m post CFG USE demo_user_ok DIV V NN P N E) as (_ & ES & EL & ER).
  assert (M : pr_time m = pr_time (vec_measure ph op r) /\ growth (pr_space m) = growth (pr_space (vec_measure ph op r))). { unfold vec_like in MM. rewrite Forall_forall in MM. apply (MM (EvPass ph op r T log (Some m))). rewrite E. apply in_or_app. right. left. reflexivity. }
  assert (LR : len r = n). { rewrite ER. rewrite <- (HN op). apply full_len; [exact CFG|]. unfold full, range_of. destruct ph, op; tauto. }
  rewrite HN in EL. rewrite ES, (proj1 M), (proj2 M). unfold vec_measure. cbv zeta. rewrite LR, Z.min_r by lia.
  assert (IN : INR (length log) = IZR n) by (rewrite INR_IZR_INZ, EL; reflexivity).
  assert (Pn : (0 < IZR n)%R) by (apply (IZR_lt 0); lia).
  destruct ph; [contradiction| |]; destruct op; cbn [start_size vec_laws time_cost time_unit space_cost space_unit pr_time pr_space amount]; rewrite ?HN; cbn [sizes];
    rewrite ?sum_ones, ?map_length, ?seq_length, ?repeat_length, ?sum_repeat, ?sum_up, ?sum_down; cbn [law_fun]; rewrite ?IN;
    (split; apply vec_near); unfold growth; cbn [max_used_memory used_memory_before]; rewrite ?minus_IZR, ?mult_IZR, ?plus_IZR, ?mult_IZR, ?minus_IZR, ?mult_IZR; try nra; try lra.
Qed.

Lemma vec_session b mt ms k s outs tr s' : session b Tol25 good_libm demo_user (vec_cfg mt ms) k s outs tr s' ->
  0 <= k -> k + Z.of_nat (length outs) <= 3 -> (forall o, In o outs -> exists x, o = Val x) -> vec_like tr -> lawful vec_laws tr.
Proof.
  assert (ONE : forall k cfg' s tr s' x, 0 <= k < 3 -> adapted b k (vec_cfg mt ms) = Val cfg' ->
    exec b demo_user (internal_analyse_crud_algorithms b Tol25 good_libm cfg') s tr s' (Val x) -> vec_like tr -> lawful vec_laws tr).
  { intros k0 cfg' s0 tr0 s0' x Hk E X MM. destruct (adapted_ready b (vec_cfg mt ms) vec_laws 3 (vec_ready b mt ms) k0 cfg' Hk E) as (C' & U' & D' & _).
    apply (vec_attempt b cfg' s0 tr0 s0' x C' U' D'); [|exact X|exact MM].
    pose proof (adapted_spec _ _ _ _ E) as [_ A]. exists (iterations cfg' Create). destruct (A Create) as [AC _].
    change (iterations (vec_cfg mt ms) Create) with 1000 in AC. split.
    - intros op. destruct (A op) as [AO _]. assert (iterations (vec_cfg mt ms) op = 1000) as Q by (destruct op; reflexivity). rewrite Q, AC in AO. injection AO as ->. reflexivity.
    - apply (adapt_bounds b k0) in AC; [|rewrite two32_val; lia|lia|rewrite two32_val; lia]. change (1000 / 10) with 100 in AC. change (1000 + 1000 / 2) with 1500 in AC. lia. }
  intros SS. induction SS as [k cfg' s tr s' o E X|k cfg' s tr s1 e s2 v outs tr' s' E X TM RS SS IH]; intros K0 KM VAL MM; cbn [length] in KM.
  - destruct (VAL o (or_introl eq_refl)) as [x ->]. apply (ONE k cfg' s tr s' x); auto. lia.
  - unfold vec_like in MM. apply Forall_app in MM. destruct MM as [M1 M2]. apply Forall_app in M2. destruct M2 as [_ M3]. unfold lawful. apply lawful_concat.
    + apply (ONE k cfg' s tr s1 (inr e)); auto. lia.
    + generalize (elements_from 0 tr). intros j. apply (lawful_concat vec_laws j (retrying k) tr').
      * intros pre ph op r T log m post Q N. unfold retrying in Q. do 3 (destruct pre as [|? pre]; [discriminate|injection Q as <- Q]). destruct pre; discriminate.
      * cbn [elements_from]. apply IH; [lia|lia| |exact M3]. intros o Ho. apply VAL. right. exact Ho.
Qed.
Lemma vec_told op : told_apart op (time_cost vec_laws op) /\ told_apart op (space_cost vec_laws op).
Proof. destruct op; cbn; (split; [|]); try tauto; split; discriminate. Qed.

Lemma vec_lawful b mt ms tr s' e : exec b demo_user (test_crud_algorithms b Tol25 good_libm (vec_cfg mt ms) 3) tt tr s' (Val e) -> vec_like tr -> lawful vec_laws tr.
Proof.
  intros X MM. pose proof (vec_ready b mt ms) as RD. pose proof RD as (C & R & M & _).
  pose proof (C40_retry_policy _ _ _ _ _ _ _ _ _ _ _ M X) as P.
  assert (VALS : forall es, forall o, In o (map failed es) -> exists x, o = Val x) by (intros es o0 Ho; apply in_map_iff in Ho; destruct Ho as (e0 & <- & _); eexists; reflexivity).
  destruct e as [|e c|a e].
  - destruct P as (errs & r & SS & _ & LE). apply (vec_session b mt ms _ _ _ _ _ SS); [lia|rewrite app_length, map_length; cbn [length]; lia| |exact MM].
    intros o0 Ho. apply in_app_or in Ho. destruct Ho as [Ho|[<-|[]]]; [apply (VALS errs o0 Ho)|eexists; reflexivity].
  - destruct P as (SS & _ & LE). apply (vec_session b mt ms _ _ _ _ _ SS); [lia|rewrite map_length; lia|apply VALS|exact MM].
  - destruct P as (errs & SS & _ & _ & _ & LE). apply (vec_session b mt ms _ _ _ _ _ SS); [lia|rewrite map_length, app_length; cbn [length]; lia|apply VALS|exact MM].
Qed.

(** three tests of this container, at most 3 attempts each: allowed linear reads and O(1) memory it
    passes; allowed only O(1) reads all 3 attempts fail, on the reads' time, found O(n); allowed
    no memory at all for creates it fails at once, on the creates' memory, found O(1) *)
Example C79_example : forall b mt ms, exists tr s' o,
  exec b demo_user (test_crud_algorithms b Tol25 good_libm (vec_cfg mt ms) 3) tt tr s' o /\
  sane_measurements tr /\ lawful vec_laws tr /\
  (mt = ON -> ms = O1 -> o = Val Passed) /\
  (mt = O1 -> ms = O1 -> exists e1 e2 e3, o = Val (GaveUp e3 [e1; e2]) /\
     Forall (fun e => ce_operation e = Read /\ ce_analysis e = Time /\ ce_complexity e = ON /\ ce_max e = O1) [e1; e2; e3]) /\
  (ms = BetterThanO1 -> exists e, o = Val (SpaceMismatch 0 e) /\ ce_operation e = Create /\ ce_complexity e = O1 /\ ce_max e = BetterThanO1).
Proof.
  intros b mt ms. destruct (exec_exists_by b demo_user vec_measure (test_crud_algorithms b Tol25 good_libm (vec_cfg mt ms) 3) tt) as (tr & s' & o & X & MM).
  exists tr, s', o. split; [exact X|].
  assert (SA : sane_measurements tr).
  { unfold sane_measurements, measures_by in *. revert MM. apply Forall_impl. intros [ph op r T log [m|]|n|i|d]; auto. intros ->. apply vec_sane. }
  split; [exact SA|].
  pose proof (vec_ready b mt ms) as RD. pose proof RD as (C & R & M & _).
  destruct (C40_no_other_end _ _ _ _ _ _ _ _ _ _ _ (conj (Z.lt_le_incl _ _ (proj1 M)) (proj2 M)) C R demo_user_ok X SA) as [e E]. subst o.
  pose proof (vec_lawful b mt ms tr s' e X (measures_like tr MM)) as LAW.
  split; [exact LAW|].
  pose proof (fun op w => C79_violations_fail unit b Tol25 good_libm demo_user (vec_cfg mt ms) vec_laws 3 tt tr s' (Val e) op w good_libm_accurate demo_user_ok RD (fun op _ => vec_told op) X SA LAW) as FAIL. cbv zeta in FAIL.
  split; [|split].
  - intros -> ->.
    apply (fun N CO => proj1 (C79_compliant_containers_pass unit b Tol25 good_libm demo_user (vec_cfg ON O1) vec_laws 3 tt tr s' (Val e) good_libm_accurate demo_user_ok RD N X SA LAW CO)).
    + intros op _. destruct (vec_told op). split; apply told_not; assumption.
    + intros [| | |] _; unfold cle; cbn; lia.
  - intros -> ->. destruct (FAIL Read Time) as (e3 & c & E & LN & F).
    { split; [cbn; unfold is_enabled; cbn; lia|]. split; [intros op' [<-|[]] _; unfold cle; cbn; lia|unfold clt; cbn; lia]. }
    rewrite app_length in LN. cbn [length] in LN. destruct c as [|e1 [|e2 [|? ?]]]; cbn [length] in LN; try lia.
    exists e1, e2, e3. split; [exact E|]. exact F.
  - intros ->. destruct (FAIL Create Space) as (e0 & E & (N1 & N2 & N3 & N4) & _).
    { split; [unfold is_enabled; cbn; lia|]. split; [intros op' []|]. unfold cle, clt; cbn; lia. }
    exists e0. auto.
Qed.
