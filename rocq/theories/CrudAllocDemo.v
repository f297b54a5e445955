(** * The hypotheses of C92 and C93 are met: the vector of C79 on the allocator. *)
From Coq Require Import List ZArith Lia Bool Reals Lra Psatz.
From Verif Require Import Machine Complexity Floats Analysis AnalysisF64b AnalysisF64d GrowthSpec Bridge Bridge4 PropsBridge Alloc AllocSpec AllocProofs IterPass IterSpec Report ReportProofs Crud CrudSpec CrudProofs CrudMain CrudRetry PropsCrud CrudLawsSpec CrudLawsProofs PropsCrudLaws CrudLawsDemo EndToEnd EndToEndSpec EndToEndProofs PropsEndToEnd CrudAlloc CrudAllocSpec CrudAllocProofs PropsCrudAlloc Demo.
Import ListNotations.
Open Scope Z_scope.

(** ** deciding [roomy] on a concrete history *)
Definition roomyb (h : list aop) : bool :=
  forallb (fun op => match op with
    | OAlloc n _ | OZeroed n _ | ODealloc n => (0 <=? n) && (n <? two64)
    | ORealloc o n _ => (0 <=? o) && (o <? two64) && (0 <=? n) && (n <? two64)
    | _ => true end) h &&
  forallb (fun x => (0 <=? x) && (x <? 2 ^ 62)) (levels [] h) &&
  (Z.of_nat (length h) <? two64) && (AllocSpec.total f_allocated h <? two64) && (AllocSpec.total f_deallocated h <? two64) &&
  (AllocSpec.total f_zeroed_bytes h <? two64) && (AllocSpec.total f_realloc_old h <? two64) && (AllocSpec.total f_realloc_new h <? two64) && (saves h <? two32).
Lemma roomyb_ok h : roomyb h = true -> EndToEndSpec.roomy h.
Proof.
  unfold roomyb. rewrite !andb_true_iff, !Z.ltb_lt, !forallb_forall. intros ((((((((H1 & H2) & H3) & H4) & H5) & H6) & H7) & H8) & H9).
  assert (H2' : forall x, In x (levels [] h) -> 0 <= x < 2 ^ 62) by (intros x Hx; specialize (H2 x Hx); rewrite andb_true_iff, Z.leb_le, Z.ltb_lt in H2; exact H2).
  split; [|intros x Hx; apply H2'; exact Hx]. split; [|split; [intros x Hx; specialize (H2' x Hx); pose proof two64_val; lia|tauto]].
  apply Forall_forall. intros op Ho. specialize (H1 op Ho). destruct op; cbn [sizes_ok]; rewrite ?andb_true_iff, ?Z.leb_le, ?Z.ltb_lt in H1; tauto.
Qed.

(** ** the vector's allocator calls: creating keeps 64 bytes per element, every other pass borrows 2 MB,
    deleting frees the elements *)
Definition vec_work (op : operation) (r : range) : list aop :=
  match op with
  | Create => [OAlloc (64 * len r) true]
  | Read | Update => [OAlloc 2000000 true; ODealloc 2000000]
  | Delete => [OAlloc 2000000 true; ODealloc 2000000; ODealloc (64 * len r)]
  end.
(** 777 bytes are in use before the test *)
Definition vec_before : list aop := [OAlloc 777 true; OSave].
Definition vec_base (ph : phase) (op : operation) (n : Z) : Z :=
  777 + match ph, op with
        | Warmup, Create | First, Create => 0
        | Warmup, _ | First, _ | Second, Create => 64 * n
        | Second, _ => 128 * n
        end.
Definition vec_measured (ph : phase) (op : operation) (r : range) : pass_result :=
  let n := Z.min 100000 (len r) in
  let before := vec_base ph op n in
  PassResult (pr_time (vec_measure ph op r))
    (match op with
     | Create => SpacePass before (before + 64 * n) (before + 64 * n) before
     | Read | Update => SpacePass before before (before + 2000000) before
     | Delete => SpacePass before (before - 64 * n) (before + 2000000) (before - 64 * n)
     end).
Lemma vec_measured_sane ph op r : sane (vec_measured ph op r).
Proof.
  destruct (vec_sane ph op r) as [D _]. unfold vec_measured. cbv zeta. assert (H : 0 <= Z.min 100000 (len r) <= 100000) by (unfold len, highest, lowest; lia).
  split; [exact D|]. generalize dependent (Z.min 100000 (len r)). intros n H.
  unfold well_formed, vec_base. pose proof two64_val as V64.
  destruct ph, op; cbn [pr_time pr_space used_memory_before used_memory_after max_used_memory min_used_memory]; repeat split; lia.
Qed.
Lemma vec_measured_like tr : measures_by vec_measured tr -> vec_like tr.
Proof.
  apply Forall_impl. intros [ph op r T log [m|]|n|i|d]; auto. intros ->. unfold vec_measured. cbv zeta. split; [reflexivity|].
  unfold vec_measure, growth. cbv zeta. destruct ph, op; cbn [pr_time pr_space used_memory_before max_used_memory]; lia.
Qed.
Definition space_eqb (a c : space_pass) : bool :=
  (used_memory_before a =? used_memory_before c) && (used_memory_after a =? used_memory_after c) &&
  (max_used_memory a =? max_used_memory c) && (min_used_memory a =? min_used_memory c).
Lemma space_eqb_eq a c : space_eqb a c = true -> a = c.
Proof. unfold space_eqb. destruct a, c. cbn. rewrite !andb_true_iff, !Z.eqb_eq. intros (((-> & ->) & ->) & ->). reflexivity. Qed.

(** replaying the acts of a trace on the allocator *)
Fixpoint replay (b : build) (s : astate) (A : list act) : bool :=
  match A with
  | [] => true
  | AReset _ :: A => replay b s A
  | APass ph op r _ :: A =>
      match run_iterator_pass_space b s (vec_work op r) with
      | Val (s1, m) => space_eqb m (pr_space (vec_measured ph op r)) && replay b s1 A
      | _ => false
      end
  end.
Definition work_of (e : event) : event * list aop :=
  (e, match e with EvPass _ op r _ _ _ => vec_work op r | _ => [] end).
Lemma events_work tr : events (map work_of tr) = tr.
Proof. unfold events. rewrite map_map. apply map_id. Qed.
Lemma replayed b tr : forall s, Forall no_none tr -> measures_by vec_measured tr -> replay b s (acts tr) = true -> exists s', on_allocator b s (map work_of tr) s'.
Proof.
  induction tr as [|e tr IH]; intros s NN MM R; [exists s; constructor|].
  inversion NN as [|? ? N1 N2]; subst. inversion MM as [|? ? M1 M2]; subst.
  destruct e as [ph op r T log m|n|i|d]; cbn [acts flat_map act_of app map work_of] in *.
  - destruct m as [m|]; [|contradiction]. subst m. cbn [replay] in R.
    destruct (run_iterator_pass_space b s (vec_work op r)) as [[s1 m]|p|] eqn:E; try discriminate. apply andb_prop in R. destruct R as [R1 R2].
    apply space_eqb_eq in R1. subst m. destruct (IH s1 N2 M2 R2) as [s' X]. exists s'. eapply oa_pass; eassumption.
  - destruct (IH s N2 M2 R) as [s' X]. exists s'. eapply oa_reset; [reflexivity|exact X].
  - destruct (IH s N2 M2 R) as [s' X]. exists s'. eapply oa_output; [reflexivity|exact X].
  - destruct (IH s N2 M2 R) as [s' X]. exists s'. eapply oa_clock; [reflexivity|exact X].
Qed.
Definition acts_work (A : list act) : list aop :=
  flat_map (fun a => match a with APass _ op r _ => OSave :: vec_work op r | AReset _ => [] end) A.
Lemma asked_work tr : Forall no_none tr -> asked (map work_of tr) = acts_work (acts tr).
Proof.
  induction 1 as [|e tr N F IH]; [reflexivity|]. cbn [map]. rewrite asked_cons, IH. unfold acts_work.
  destruct e as [ph op r T log [m|]|n|i|d]; [reflexivity|contradiction|reflexivity|reflexivity|reflexivity].
Qed.
Lemma work_few_saves tr : few_saves kept_slots (map work_of tr).
Proof.
  unfold few_saves. apply Forall_map, Forall_forall. intros [ph op r T log [m|]|n|i|d] _; cbn [fst snd work_of]; auto. destruct op; vm_compute; discriminate.
Qed.
Lemma work_clocked tr : measures_by vec_measured tr -> clocked (map work_of tr).
Proof.
  intros MM. unfold clocked. apply Forall_map. revert MM. apply Forall_impl. intros [ph op r T log [m|]|n|i|d]; cbn [fst work_of]; auto. intros ->.
  exact (proj1 (vec_sane ph op r)).
Qed.
Lemma peak_work ph op r : 0 <= len r <= 100000 -> peak (vec_work op r) (growth (pr_space (vec_measure ph op r))).
Proof.
  intros H. unfold vec_measure. cbv zeta. rewrite Z.min_r by lia.
  unfold peak, is_max, levels, vec_work, growth. generalize dependent (len r). intros n H. destruct op; cbn [pr_space max_used_memory used_memory_before length seq map firstn app]; unfold used, AllocSpec.total; cbn [map sum fold_right delta];
    rewrite ?Z.sub_0_r; (split; [cbn [In]; lia|]); intros x Hx; cbn [In] in Hx; lia.
Qed.
Lemma work_lawful_vec tr : vec_like tr -> Forall (fun e => match e with EvPass _ _ r _ _ _ => 0 <= len r <= 100000 | _ => True end) tr -> lawful vec_laws tr -> lawful_work vec_laws (map work_of tr).
Proof.
  intros LK RG LAW w1 ph op r T log m ops w2 E N.
  assert (EV : tr = events w1 ++ EvPass ph op r T log (Some m) :: events w2). { rewrite <- (events_work tr), E. unfold events. rewrite map_app. reflexivity. }
  destruct (LAW _ _ _ _ _ _ _ _ EV N) as [A B]. split; [exact A|].
  assert (IN : In (EvPass ph op r T log (Some m)) tr) by (rewrite EV; apply in_or_app; right; left; reflexivity).
  unfold vec_like in LK. rewrite Forall_forall in LK, RG. pose proof (LK _ IN) as [_ G]. pose proof (RG _ IN) as LR. cbn beta iota in G, LR.
  exists (growth (pr_space m)). split; [|exact B]. rewrite G.
  assert (ops = vec_work op r) as ->.
  { assert (I2 : In (EvPass ph op r T log (Some m), ops) (map work_of tr)) by (rewrite E; apply in_or_app; right; left; reflexivity).
    apply in_map_iff in I2. destruct I2 as (e & Q & _). unfold work_of in Q. injection Q as -> <-. reflexivity. }
  apply peak_work. exact LR.
Qed.

(** a test of the vector on the allocator that passes, hypotheses of [C92_compliant_containers_pass] included *)
Example C92_example : forall b, exists al outs w s' al' o,
  arun b (ainit crud_slots) vec_before = Val (al, outs) /\
  exec b demo_user (test_crud_algorithms b Tol25 good_libm (vec_cfg ON O1) 3) tt (events w) s' o /\ on_allocator b al w al' /\
  EndToEndSpec.roomy (vec_before ++ asked w) /\ few_saves kept_slots w /\ clocked w /\ lawful_work vec_laws w /\
  (forall op, complies (vec_cfg ON O1) vec_laws op) /\ test_ready b (vec_cfg ON O1) 3 vec_laws /\
  (forall op, is_enabled (vec_cfg ON O1) op -> not_overrated op (time_cost vec_laws op) /\ not_overrated op (space_cost vec_laws op)) /\
  o = Val Passed /\ acts (events w) = all_acts (vec_cfg ON O1).
Proof.
  intros b. destruct (exec_exists_by b demo_user vec_measured (test_crud_algorithms b Tol25 good_libm (vec_cfg ON O1) 3) tt) as (tr & s' & o & X & MM).
  pose proof (vec_ready b ON O1) as RD. pose proof RD as (C & R & M & _).
  assert (SA : sane_measurements tr).
  { unfold sane_measurements, measures_by in *. revert MM. apply Forall_impl. intros [ph op r T log [m|]|n|i|d]; auto. intros ->. apply vec_measured_sane. }
  destruct (C40_no_other_end _ _ _ _ _ _ _ _ _ _ _ (conj (Z.lt_le_incl _ _ (proj1 M)) (proj2 M)) C R demo_user_ok X SA) as [e E]. subst o.
  pose proof (vec_measured_like tr MM) as LK. pose proof (vec_lawful b ON O1 tr s' e X LK) as LAW.
  assert (CO : forall op, complies (vec_cfg ON O1) vec_laws op) by (intros [| | |] _; unfold cle; cbn; lia).
  assert (NOV : forall op, is_enabled (vec_cfg ON O1) op -> not_overrated op (time_cost vec_laws op) /\ not_overrated op (space_cost vec_laws op)).
  { intros op _. destruct (vec_told op). split; apply told_not; assumption. }
  destruct (C79_compliant_containers_pass unit b Tol25 good_libm demo_user (vec_cfg ON O1) vec_laws 3 tt tr s' (Val e) good_libm_accurate demo_user_ok RD NOV X SA LAW CO) as [EP AC].
  pose proof (exec_measured b demo_user _ _ _ _ _ X ltac:(discriminate)) as NN.
  assert (RG : Forall (fun e => match e with EvPass _ _ r _ _ _ => 0 <= len r <= 100000 | _ => True end) tr).
  { apply Forall_forall. intros [ph op r T log m|n|i|d] Hi; auto.
    assert (IA : In (APass ph op r T) (acts tr)) by (apply event_acts with log m; exact Hi). rewrite AC in IA.
    assert (CK : forallb (fun a => match a with APass _ _ r _ => (0 <=? len r) && (len r <=? 100000) | _ => true end) (all_acts (vec_cfg ON O1)) = true) by (vm_compute; reflexivity).
    rewrite forallb_forall in CK. specialize (CK _ IA). cbn beta iota in CK. rewrite andb_true_iff, !Z.leb_le in CK. exact CK. }
  assert (AB : exists al outs, arun b (ainit crud_slots) vec_before = Val (al, outs) /\ replay b al (all_acts (vec_cfg ON O1)) = true).
  { destruct b; (eexists _, _; split; [vm_compute; reflexivity|vm_compute; reflexivity]). }
  destruct AB as (al & outs & EB & RP). rewrite <- AC in RP. destruct (replayed b tr al NN MM RP) as [al' OA].
  exists al, outs, (map work_of tr), s', al', (Val e). rewrite events_work.
  split; [exact EB|]. split; [exact X|]. split; [exact OA|]. split; [rewrite asked_work by exact NN; rewrite AC; apply roomyb_ok; vm_compute; reflexivity|].
  split; [apply work_few_saves|]. split; [apply work_clocked; exact MM|]. split; [apply work_lawful_vec; assumption|].
  split; [exact CO|]. split; [exact RD|]. split; [exact NOV|]. split; [exact EP|exact AC].
Qed.

(** ** with the feature [no_allocator_metrics] *)
Definition nothing_measured (ph : phase) (op : operation) (r : range) : pass_result := PassResult 1000 (SpacePass 0 0 0 0).
Lemma nothing_sane ph op r : sane (nothing_measured ph op r).
Proof. unfold sane, nothing_measured, duration_sane, well_formed, nanos_per_sec. pose proof two64_val. cbn [pr_time pr_space used_memory_before used_memory_after max_used_memory min_used_memory]. repeat split; lia. Qed.
Lemma all_acts_short cfg : (length (all_acts cfg) <= 13)%nat.
Proof.
  assert (P : forall ph op r, (length (pass_on cfg ph op r) <= 1)%nat) by (intros; unfold pass_on, enabled_; destruct (0 <? _); cbn; lia).
  unfold all_acts, acts_until, warmup_acts, first_acts. destruct (0 <? cc_warmup cfg); rewrite !app_length;
    repeat match goal with |- context [length (pass_on cfg ?a ?c ?d)] => pose proof (P a c d); generalize dependent (length (pass_on cfg a c d)); intros end; cbn [length]; lia.
Qed.
Lemma session_short {S} b t l (u : user S) cfg k s outs tr s' : session b t l u cfg k s outs tr s' -> cfg_ok cfg -> CrudRetry.roomy cfg ->
  0 <= k -> k + Z.of_nat (length outs) < two32 -> (forall o, In o outs -> exists x, o = Val x) -> (length (acts tr) <= 14 * length outs)%nat.
Proof.
  intros SS CFG R.
  assert (ONE : forall k cfg' s0 tr s1 x, 0 <= k < two32 -> adapted b k cfg = Val cfg' ->
    exec b u (internal_analyse_crud_algorithms b t l cfg') s0 tr s1 (Val x) -> (length (acts tr) <= 13)%nat).
  { intros k0 cfg' s0 tr0 s1 x Hk E X.
    pose proof (adapted_u32 b k0 cfg cfg' ltac:(lia) CFG E) as C'. pose proof (adapted_usable b k0 cfg cfg' ltac:(lia) CFG R E) as U'.
    pose proof (internal_spec b t l u cfg' s0 tr0 s1 _ C' (or_intror (proj1 U')) X) as H. pose proof (all_acts_short cfg'). destruct x as [rr|e]; cbn in H.
    - destruct H as (-> & _). assumption.
    - destruct H as (_ & H & _). rewrite H. destruct (until_prefix cfg' (ce_operation e)) as [rest Q]. rewrite Q, app_length in H0. lia. }
  induction SS as [k cfg' s0 tr s1 o E X|k cfg' s0 tr s1 e s2 v outs tr' s3 E X TM RS SS IH]; intros K0 KM VAL; cbn [length] in *.
  - destruct (VAL o (or_introl eq_refl)) as [x ->]. pose proof (ONE k cfg' _ _ _ _ ltac:(lia) E X). lia.
  - pose proof (ONE k cfg' _ _ _ _ ltac:(lia) E X). unfold acts in *. rewrite !flat_map_app, !app_length. cbn [retrying flat_map act_of app length].
    specialize (IH ltac:(lia) ltac:(lia) (fun o Ho => VAL o (or_intror Ho))). lia.
Qed.
Lemma nothing_on_allocator b tr : forall s h, Forall no_none tr -> measures_by nothing_measured tr -> Forall (eq OSave) h ->
  Z.of_nat (length h + length (acts tr)) < two32 -> ainv crud_slots h s -> exists s', on_allocator b s (map (fun e => (e, [])) tr) s'.
Proof.
  induction tr as [|e tr IH]; intros s h NN MM HS LEN HI; [exists s; constructor|].
  inversion NN as [|? ? N1 N2]; subst. inversion MM as [|? ? M1 M2]; subst.
  unfold acts in LEN. cbn [flat_map] in LEN. fold (acts tr) in LEN. rewrite app_length in LEN.
  destruct e as [ph op r T log m|n|i|d]; cbn [act_of length map] in *.
  - destruct m as [m|]; [|contradiction]. subst m.
    assert (HR : h ++ OSave :: [] = repeat OSave (length h + 1)).
    { clear - HS. induction HS as [|x h <- _ IHh]; [reflexivity|]. cbn [app length Nat.add repeat]. f_equal. exact IHh. }
    assert (FE : feasible (h ++ [OSave])). { rewrite HR. apply only_saves. lia. }
    destruct (run_sync_pass_ok b crud_slots h s [] crud_slots_pos crud_slots_small HI FE) as (s1 & m & E & I1 & TM).
    assert (U0 : used h = 0). { clear - HS. unfold used, AllocSpec.total. induction HS as [|x h <- _ IHh]; [reflexivity|]. cbn [map sum fold_right delta] in *. unfold sum in *. lia. }
    assert (m = SpacePass 0 0 0 0) as ->.
    { destruct TM as [(_ & A1 & A2 & A3 & A4)|(X & _)]; [|vm_compute in X; discriminate].
      rewrite app_nil_r in A2. unfold levels in A3, A4. cbn [length seq map firstn] in A3, A4. rewrite app_nil_r, U0 in A3, A4. rewrite U0 in A1, A2.
      destruct A3 as [[A3|[]] _]. destruct A4 as [[A4|[]] _]. destruct m. cbn in *. congruence. }
    destruct (IH s1 (h ++ [OSave]) N2 M2) as [s' X]; [apply Forall_app; split; [exact HS|repeat constructor]|rewrite app_length; cbn [length]; lia|exact I1|].
    exists s'. eapply oa_pass; [exact E|exact X].
  - destruct (IH s h N2 M2 HS ltac:(lia) HI) as [s' X]. exists s'. eapply oa_reset; [reflexivity|exact X].
  - destruct (IH s h N2 M2 HS ltac:(lia) HI) as [s' X]. exists s'. eapply oa_output; [reflexivity|exact X].
  - destruct (IH s h N2 M2 HS ltac:(lia) HI) as [s' X]. exists s'. eapply oa_clock; [reflexivity|exact X].
Qed.
Lemma init_ainv : ainv crud_slots [] (ainit crud_slots).
Proof. apply (init_inv Debug [] (ainit crud_slots) []); [apply (only_saves 0); rewrite two32_val; cbn; lia|reflexivity]. Qed.

(** the vector test without allocator metrics fails: its memory maxima are O(1) *)
Example C93_example : forall b, exists w s' al' o,
  exec b demo_user (test_crud_algorithms b Tol25 demo_libm (vec_cfg ON O1) 3) tt (events w) s' o /\ on_allocator b (ainit crud_slots) w al' /\
  Forall (fun x => snd x = []) w /\ Z.of_nat (length (acts (events w))) < two32 /\ clocked w /\
  ((exists e c, o = Val (GaveUp e c)) \/ (exists a e, o = Val (SpaceMismatch a e) /\ ce_complexity e = no_growth_class (ce_operation e))).
Proof.
  intros b. destruct (exec_exists_by b demo_user nothing_measured (test_crud_algorithms b Tol25 demo_libm (vec_cfg ON O1) 3) tt) as (tr & s' & o & X & MM).
  pose proof (vec_ready b ON O1) as RD. pose proof RD as (C & R & M & _ & BIG & _).
  assert (SA : sane_measurements tr).
  { unfold sane_measurements, measures_by in *. revert MM. apply Forall_impl. intros [ph op r T log [m|]|n|i|d]; auto. intros ->. apply nothing_sane. }
  destruct (C40_no_other_end _ _ _ _ _ _ _ _ _ _ _ (conj (Z.lt_le_incl _ _ (proj1 M)) (proj2 M)) C R demo_user_ok X SA) as [e E]. subst o.
  pose proof (exec_measured b demo_user _ _ _ _ _ X ltac:(discriminate)) as NN.
  assert (VALS : forall es, forall o, In o (map failed es) -> exists x, o = Val x) by (intros es o0 Ho; apply in_map_iff in Ho; destruct Ho as (e0 & <- & _); eexists; reflexivity).
  assert (LEN : (length (acts tr) <= 42)%nat).
  { pose proof (C40_retry_policy _ _ _ _ _ _ _ _ _ _ _ M X) as P. pose proof two32_val. destruct e as [|e c|a e].
    - destruct P as (errs & r & SS & _ & LE). pose proof (session_short _ _ _ _ _ _ _ _ _ _ SS C R ltac:(lia)) as L. rewrite app_length, map_length in L. cbn [length] in L.
      specialize (L ltac:(lia)). rewrite Nat.add_1_r in *. assert (length errs <= 2)%nat by lia.
      apply Nat.le_trans with (14 * (Datatypes.S (length errs)))%nat; [apply L|lia]. intros o0 Ho. apply in_app_or in Ho. destruct Ho as [Ho|[<-|[]]]; [apply (VALS errs o0 Ho)|eexists; reflexivity].
    - destruct P as (SS & _ & LE). pose proof (session_short _ _ _ _ _ _ _ _ _ _ SS C R ltac:(lia)) as L. rewrite map_length in L. specialize (L ltac:(lia) (VALS _)). lia.
    - destruct P as (errs & SS & _ & _ & _ & LE). pose proof (session_short _ _ _ _ _ _ _ _ _ _ SS C R ltac:(lia)) as L. rewrite map_length, app_length in L. cbn [length] in L.
      specialize (L ltac:(lia) (VALS _)). lia. }
  assert (L32 : Z.of_nat (length (acts tr)) < two32) by (rewrite two32_val; lia).
  destruct (nothing_on_allocator b tr (ainit crud_slots) [] NN MM ltac:(constructor) L32 init_ainv) as [al' OA].
  assert (EV : events (map (fun e => (e, [])) tr) = tr) by (unfold events; rewrite map_map; apply map_id).
  exists (map (fun e => (e, [])) tr), s', al', (Val e). rewrite EV.
  assert (CL : clocked (map (fun e => (e, [])) tr)).
  { unfold clocked. apply Forall_map. revert MM. apply Forall_impl. intros [ph op r T log [m|]|n|i|d]; cbn [fst]; auto. intros ->. apply (nothing_sane ph op r). }
  assert (NIL : Forall (fun x : event * list aop => snd x = []) (map (fun e => (e, [])) tr)) by (apply Forall_map, Forall_forall; reflexivity).
  split; [exact X|]. split; [exact OA|]. split; [exact NIL|]. split; [exact L32|]. split; [exact CL|].
  rewrite <- EV in X.
  refine (C93_no_allocator_metrics unit b Tol25 demo_libm demo_user (vec_cfg ON O1) 3 tt _ s' al' (Val e) Read demo_powf_zero C R M _ _ X OA NIL _ CL demo_user_ok _ _).
  - intros op EN. specialize (BIG op EN). lia.
  - intros _. unfold is_enabled. cbn. lia.
  - rewrite EV. exact L32.
  - unfold is_enabled. cbn. lia.
  - unfold clt. cbn. lia.
Qed.
