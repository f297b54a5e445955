(** * Property theorems C34-C43, C44 (runner), C64, C65: the CRUD runner.

    [exec b u m s tr s' o]: from closure state [s] the program [m] did [tr] (passes
    with the calls they made and what they measured, resets, report output), left
    closure state [s'] and ended with [o].  What clock and allocator measure is
    arbitrary; the schedule of every pass is arbitrary.
    [internal_analyse_crud_algorithms] is the analysis both public functions run.
    The vocabulary on the right-hand sides is that of CrudSpec.v and of the first
    section of CrudRetry.v. *)
From Coq Require Import List ZArith Lia Bool String Permutation.
From Verif Require Import Machine Complexity Analysis AnalysisF64 AnalysisF64b AnalysisF64c AnalysisF64d AnalysisF64e AllocSpec IterPass IterSpec IterPassProofs PropsIter Report ReportProofs Crud CrudSpec CrudProofs CrudMain CrudRetry Demo PropsAnalysis.
Import ListNotations.
Open Scope Z_scope.

Definition no_maxima (cfg : crud_cfg) : crud_cfg :=
  CrudCfg (cc_name cfg) (cc_warmup cfg) (no_maximum (cc_create cfg)) (no_maximum (cc_read cfg)) (no_maximum (cc_update cfg)) (no_maximum (cc_delete cfg)).
Lemma no_maxima_of cfg op : cfg_of (no_maxima cfg) op = no_maximum (cfg_of cfg op).
Proof. destruct op; reflexivity. Qed.
Lemma no_maxima_iterations cfg op : iterations (no_maxima cfg) op = iterations cfg op.
Proof. destruct op; reflexivity. Qed.
Lemma no_maxima_ok cfg : cfg_ok cfg -> cfg_ok (no_maxima cfg).
Proof. intros [W C]. split; [exact W|]. intros op. rewrite no_maxima_iterations, no_maxima_of. exact (C op). Qed.
Lemma no_maxima_no_overflow cfg : no_overflow cfg -> no_overflow (no_maxima cfg).
Proof. intros H op. rewrite no_maxima_iterations. exact (H op). Qed.
Lemma no_maxima_free b cfg : overflow_free b cfg -> overflow_free b (no_maxima cfg).
Proof. intros [H|H]; [left; exact H|right; apply no_maxima_no_overflow; exact H]. Qed.
Lemma no_maxima_usable cfg : usable cfg -> usable (no_maxima cfg).
Proof.
  intros [H1 H2]. split; [apply no_maxima_no_overflow; exact H1|]. intros op. unfold is_enabled. rewrite no_maxima_iterations, no_maxima_of. exact (H2 op).
Qed.
Lemma no_maxima_acts cfg : all_acts (no_maxima cfg) = all_acts cfg.
Proof. reflexivity. Qed.

(** a concrete configuration: 4 create/delete iterations on 2 threads, 4 reads on 1, no updates, 50% warm-up *)
Definition demo_cfg : crud_cfg :=
  CrudCfg "demo"%string 50 (OpCfg 4 2 BetterThanO1 O1) (OpCfg 4 1 BetterThanO1 O1) (OpCfg 0 0 BetterThanO1 O1) (OpCfg 4 2 BetterThanO1 O1).
Definition demo_user : user unit := User (fun _ s x => (s, Some x)) (fun s x => (s, Some x)).
(** every pass takes 1 s and touches no memory, except the second pass of create: 3 s and 2 MB *)
Definition demo_measure (ph : phase) (op : operation) : pass_result :=
  match ph, op with
  | Second, Create => PassResult 3000000000 (SpacePass 0 2000000 2000000 0)
  | _, Create => PassResult 1000000000 (SpacePass 0 1000000 1000000 0)
  | _, _ => PassResult 1000000000 (SpacePass 0 0 0 0)
  end.
Lemma demo_cfg_ok : cfg_ok demo_cfg /\ usable demo_cfg /\ roomy demo_cfg.
Proof.
  unfold cfg_ok, usable, roomy, no_overflow, is_enabled, u32. rewrite two31_val, two32_val. split; [|split].
  - split; [cbn; lia|]. intros [| | |]; cbn; lia.
  - split; intros [| | |]; cbn; lia.
  - intros [| | |]; cbn; lia.
Qed.
Lemma demo_user_ok : closures_return demo_user.
Proof. split; [intros op|]; intros s x; discriminate. Qed.
Lemma demo_sane ph op : sane (demo_measure ph op).
Proof. destruct ph, op; (split; [vm_compute; split; discriminate||reflexivity|split; [repeat split; vm_compute; discriminate||reflexivity|vm_compute; reflexivity]]). Qed.

(** ** C34: the sequence of passes and resets of an analysis is exactly [all_acts cfg];
    an analysis that returns early performed a prefix of it. *)
Theorem C34_call_sequence : forall S b t l (u : user S) cfg s tr s' o,
  cfg_ok cfg -> overflow_free b cfg ->
  exec b u (internal_analyse_crud_algorithms b t l cfg) s tr s' o ->
  (exists rest, all_acts cfg = acts tr ++ rest) /\
  forall r, o = Val (inl r) -> acts tr = all_acts cfg.
Proof.
  intros S b t l u cfg s tr s' o C F E. pose proof (internal_spec b t l u cfg s tr s' o C F E) as H.
  destruct o as [[r|e]|p|]; cbn in H.
  - destruct H as (A & _). split; [exists []; rewrite app_nil_r; auto|]. intros r' X. exact A.
  - destruct H as (_ & A & _). split; [|discriminate]. rewrite A. apply until_prefix.
  - destruct H as [A _]. split; [exact A|discriminate].
  - destruct H.
Qed.
Print Assumptions C34_call_sequence.

Lemma analyse_inv {S} b t l (u : user S) cfg s tr s' o :
  exec b u (analyse_crud_algorithms b t l cfg) s tr s' o ->
  exists o', exec b u (internal_analyse_crud_algorithms b t l (no_maxima cfg)) s tr s' o' /\
    match o' with
    | Val (inl r) => o = Val r
    | Val (inr e) => o = Panic PExpect
    | Panic p => o = Panic p
    | Spin => False
    end.
Proof.
  intros E. unfold analyse_crud_algorithms in E. fold (no_maxima cfg) in E. apply exec_pbind in E.
  destruct E as [(x & tr1 & s1 & tr2 & E1 & E2 & ->)|(p & E1 & ->)].
  - exists (Val x). destruct x as [r|e]; inversion E2; subst; rewrite app_nil_r; auto.
  - exists (Panic p). auto.
Qed.

Theorem C34_analyse_call_sequence : forall S b t l (u : user S) cfg s tr s' o,
  cfg_ok cfg -> overflow_free b cfg ->
  exec b u (analyse_crud_algorithms b t l cfg) s tr s' o ->
  (exists rest, all_acts cfg = acts tr ++ rest) /\
  forall r, o = Val r -> acts tr = all_acts cfg.
Proof.
  intros S b t l u cfg s tr s' o C F E. destruct (analyse_inv b t l u cfg s tr s' o E) as (o' & E' & O).
  destruct (C34_call_sequence _ _ _ _ _ _ _ _ _ _ (no_maxima_ok _ C) (no_maxima_free _ _ F) E') as [P1 P2].
  rewrite no_maxima_acts in *. split; [exact P1|]. intros r X. destruct o' as [[r'|e]|p|]; subst; try discriminate; [eauto|destruct O].
Qed.
Print Assumptions C34_analyse_call_sequence.

(** the sequence, written out for the demo configuration *)
Example C34_example : all_acts demo_cfg =
  [APass Warmup Create (Range 0 2) 2; APass Warmup Read (Range 0 2) 1; APass Warmup Delete (Range 2 0) 2; AReset 2;
   APass First Create (Range 0 4) 2; APass First Read (Range 0 4) 1;
   APass Second Create (Range 4 8) 2; APass Second Read (Range 4 8) 1;
   APass Second Delete (Range 8 4) 2; APass First Delete (Range 4 0) 2].
Proof. vm_compute. reflexivity. Qed.

(** ** C35 *)
Lemma pass_args {S} b (u : user S) tr ph op r T : Forall (valid b u) tr -> Forall (fun e => match e with EvPass _ _ _ _ _ m => m <> None | _ => True end) tr ->
  closures_return u -> fits b r -> 0 < T < two31 -> (T | len r) -> acts tr = [APass ph op r T] ->
  Permutation (arguments op tr) (indices r) /\ forall op', op' <> op -> arguments op' tr = [].
Proof.
  intros V M [C _] F HT D A. destruct (acts_one _ _ _ _ _ A) as (log & m & (I & AR) & O). split; [|exact O]. rewrite AR.
  rewrite Forall_forall in V, M. specialize (V _ I). specialize (M _ I). cbn in V, M. destruct m as [m|]; [|contradiction].
  destruct V as (ty & s1 & s2 & v & P).
  destruct (C29_every_index_exactly_once _ _ _ _ _ _ _ _ _ _ (C op) F HT D P) as [X _]. exact X.
Qed.
Lemma indices_up a n : 0 <= n -> indices (Range a (a + n)) = zseq a (Z.to_nat n).
Proof. intros H. unfold indices, len, highest, lowest. cbn [r_start r_end]. rewrite Z.min_l, Z.max_r by lia. do 2 f_equal. lia. Qed.
Lemma indices_backwards r : indices (backwards r) = indices r.
Proof. unfold indices, len, highest, lowest, backwards. cbn [r_start r_end]. rewrite Z.min_comm, Z.max_comm. reflexivity. Qed.
Lemma len_up a n : 0 <= n -> len (Range a (a + n)) = n.
Proof. intros H. unfold len, highest, lowest. cbn [r_start r_end]. lia. Qed.
Lemma len_backwards r : len (backwards r) = len r.
Proof. unfold len, highest, lowest, backwards. cbn [r_start r_end]. rewrite Z.min_comm, Z.max_comm. reflexivity. Qed.

(** the acts of a trace, cut at every act *)
Definition no_none (e : event) : Prop := match e with EvPass _ _ _ _ _ m => m <> None | _ => True end.
Lemma op_dec (a c : operation) : {a = c} + {a <> c}. Proof. decide equality. Qed.

Theorem C35_deletes_what_was_created : forall S b t l (u : user S) cfg s tr s' r N,
  cfg_ok cfg -> usable cfg -> closures_return u ->
  cc_warmup cfg = 0 -> iterations cfg Create = N -> iterations cfg Delete = N -> 0 < N ->
  (oc_threads (cc_create cfg) | N) -> (oc_threads (cc_delete cfg) | N) ->
  exec b u (internal_analyse_crud_algorithms b t l cfg) s tr s' (Val (inl r)) ->
  Permutation (arguments Create tr) (zseq 0 (Z.to_nat (2 * N))) /\
  Permutation (arguments Delete tr) (zseq 0 (Z.to_nat (2 * N))) /\
  exists before after, tr = before ++ after /\ arguments Delete before = [] /\ arguments Create after = [].
Proof.
  intros S b t l u cfg s tr s' r N C U CR W NC ND HN DC DD E.
  destruct (C34_call_sequence _ _ _ _ _ _ _ _ _ _ C (or_intror (proj1 U)) E) as [_ A]. specialize (A r eq_refl).
  pose proof (exec_valid b u _ _ _ _ _ E) as V.
  pose proof (exec_measured b u _ _ _ _ _ E ltac:(discriminate)) as M.
  destruct U as [NO U].
  assert (EC : is_enabled cfg Create) by (unfold is_enabled; lia). assert (ED : is_enabled cfg Delete) by (unfold is_enabled; lia).
  destruct (U Create EC) as [FC TC]. destruct (U Delete ED) as [FD TD]. cbn [cfg_of] in *.
  unfold all_acts, acts_until, warmup_acts, first_acts in A. rewrite W in A. cbn [Z.ltb Z.compare app] in A.
  rewrite !(pass_on_enabled cfg _ Create) in A by exact EC. rewrite !(pass_on_enabled cfg _ Delete) in A by exact ED.
  cbn [cfg_of] in A. rewrite <- !app_assoc in A. cbn [app] in A. 
  change (?x :: ?a ++ ?c) with ([x] ++ (a ++ c)) in A.
  apply acts_split in A. destruct A as (tr1 & tra & -> & A1 & A).
  apply acts_split in A. destruct A as (tr2 & trb & -> & A2 & A).
  apply acts_split in A. destruct A as (tr3 & trc & -> & A3 & A).
  change (APass Second Create ?r ?T :: ?c) with ([APass Second Create r T] ++ c) in A.
  apply acts_split in A. destruct A as (tr4 & trd & -> & A4 & A).
  apply acts_split in A. destruct A as (tr5 & tre & -> & A5 & A).
  apply acts_split in A. destruct A as (tr6 & trf & -> & A6 & A).
  change [?x; ?y] with ([x] ++ [y]) in A.
  apply acts_split in A. destruct A as (tr7 & tr8 & -> & A7 & A8).
  rewrite !Forall_app in V, M. destruct V as (V1 & V2 & V3 & V4 & V5 & V6 & V7 & V8). destruct M as (M1 & M2 & M3 & M4 & M5 & M6 & M7 & M8).
  assert (NOT : forall tr op ph' op' rr, acts tr = pass_on cfg ph' op' rr -> op' <> op -> arguments op tr = []).
  { intros tr op ph' op' rr AA Ne. apply arguments_none. rewrite AA. intros ph r0 T. unfold pass_on, enabled_. destruct (_ <? _); [|intros []].
    intros [X|[]]. injection X as _ X _ _. contradiction. }
  rewrite NC, ND in *. rewrite two31_val in FC, FD.
  assert (FB1 : fits b (Range 0 (0 + N))) by (apply small_ranges_fit; rewrite two31_val; cbn [r_start r_end backwards]; lia).
  assert (FB2 : fits b (Range N (N + N))) by (apply small_ranges_fit; rewrite two31_val; cbn [r_start r_end backwards]; lia).
  assert (FB3 : fits b (backwards (Range 0 (0 + N)))) by (apply small_ranges_fit; rewrite two31_val; cbn [r_start r_end backwards]; lia).
  assert (FB4 : fits b (backwards (Range N (N + N)))) by (apply small_ranges_fit; rewrite two31_val; cbn [r_start r_end backwards]; lia).
  unfold block1, block2 in *. rewrite NC in A1, A4. rewrite ND in A7, A8. replace (2 * N) with (N + N) in * by lia. change N with (0 + N) in A1 at 1. change (Range 0 N) with (Range 0 (0 + N)) in A8.
  destruct (pass_args b u tr1 _ _ _ _ V1 M1 CR FB1 TC ltac:(rewrite len_up by lia; exact DC) A1) as [P1 O1].
  destruct (pass_args b u tr4 _ _ _ _ V4 M4 CR FB2 TC ltac:(rewrite len_up by lia; exact DC) A4) as [P4 O4].
  destruct (pass_args b u tr7 _ _ _ _ V7 M7 CR FB4 TD ltac:(rewrite len_backwards, len_up by lia; exact DD) A7) as [P7 O7].
  destruct (pass_args b u tr8 _ _ _ _ V8 M8 CR FB3 TD ltac:(rewrite len_backwards, len_up by lia; exact DD) A8) as [P8 O8].
  rewrite indices_backwards in P7, P8. rewrite indices_up in P1, P4, P7, P8 by lia.
  assert (SPLIT : zseq 0 (Z.to_nat (N + N)) = zseq 0 (Z.to_nat N) ++ zseq N (Z.to_nat N)).
  { rewrite Z2Nat.inj_add by lia. rewrite zseq_app. rewrite Z2Nat.id by lia. reflexivity. }
  assert (Z2c : arguments Create tr2 = []) by (eapply NOT; [exact A2|discriminate]).
  assert (Z3c : arguments Create tr3 = []) by (eapply NOT; [exact A3|discriminate]).
  assert (Z5c : arguments Create tr5 = []) by (eapply NOT; [exact A5|discriminate]).
  assert (Z6c : arguments Create tr6 = []) by (eapply NOT; [exact A6|discriminate]).
  assert (Z2d : arguments Delete tr2 = []) by (eapply NOT; [exact A2|discriminate]).
  assert (Z3d : arguments Delete tr3 = []) by (eapply NOT; [exact A3|discriminate]).
  assert (Z5d : arguments Delete tr5 = []) by (eapply NOT; [exact A5|discriminate]).
  assert (Z6d : arguments Delete tr6 = []) by (eapply NOT; [exact A6|discriminate]).
  pose proof (O1 Delete ltac:(discriminate)) as Z1d. pose proof (O4 Delete ltac:(discriminate)) as Z4d.
  pose proof (O7 Create ltac:(discriminate)) as Z7c. pose proof (O8 Create ltac:(discriminate)) as Z8c.
  split; [|split].
  - rewrite !arguments_app, Z2c, Z3c, Z5c, Z6c, Z7c, Z8c, SPLIT. cbn [app]. rewrite app_nil_r. apply Permutation_app; assumption.
  - rewrite !arguments_app, Z1d, Z2d, Z3d, Z4d, Z5d, Z6d, SPLIT. cbn [app]. rewrite (Permutation_app_comm (zseq 0 _)). apply Permutation_app; assumption.
  - exists (tr1 ++ tr2 ++ tr3 ++ tr4 ++ tr5 ++ tr6), (tr7 ++ tr8). split; [rewrite <- !app_assoc; reflexivity|].
    rewrite !arguments_app, Z1d, Z2d, Z3d, Z4d, Z5d, Z6d, Z7c, Z8c. split; reflexivity.
Qed.
Print Assumptions C35_deletes_what_was_created.

(** ** C36: success iff every enabled operation met its maxima; otherwise the error is
    the first violation (create, read, update, delete; time before space) and
    nothing was called after that operation's last pass. *)
Lemma observed_fun b t l cfg tr op m1 m2 tc sc m1' m2' tc' sc' :
  observed b t l cfg tr op m1 m2 tc sc -> observed b t l cfg tr op m1' m2' tc' sc' -> m1 = m1' /\ m2 = m2' /\ tc = tc' /\ sc = sc'.
Proof.
  intros (A1 & A2 & A3 & A4) (B1 & B2 & B3 & B4). assert (m1 = m1') by congruence. assert (m2 = m2') by congruence. subst m1' m2'.
  repeat split; congruence.
Qed.

Theorem C36_error : forall S b t l (u : user S) cfg s tr s' e,
  cfg_ok cfg -> overflow_free b cfg ->
  exec b u (internal_analyse_crud_algorithms b t l cfg) s tr s' (Val (inr e)) ->
  is_enabled cfg (ce_operation e) /\
  (* the operations before it met their maxima *)
  (forall op, In op (before (ce_operation e)) -> is_enabled cfg op -> met b t l cfg tr op) /\
  (* it did not: *)
  (exists m1 m2 tc sc, observed b t l cfg tr (ce_operation e) m1 m2 tc sc /\
    let max_time := oc_max_time (cfg_of cfg (ce_operation e)) in
    let max_space := oc_max_space (cfg_of cfg (ce_operation e)) in
    (ce_analysis e = Time /\ clt max_time tc /\ ce_complexity e = tc /\ ce_max e = max_time \/
     ce_analysis e = Space /\ cle tc max_time /\ clt max_space sc /\ ce_complexity e = sc /\ ce_max e = max_space)) /\
  (* nothing happened after its second pass, and the report is what was printed *)
  acts tr = acts_until cfg (ce_operation e) /\ ce_report e = outputs tr.
Proof.
  intros S b t l u cfg s tr s' e C F E. pose proof (internal_spec b t l u cfg s tr s' _ C F E) as H. cbn in H.
  destruct H as (H1 & H2 & H3 & H4 & m1 & m2 & tc & sc & O & H5). split; [exact H1|]. split; [exact H4|]. split; [|split; assumption].
  exists m1, m2, tc, sc. split; [exact O|]. cbv zeta. destruct (ce_analysis e); tauto.
Qed.
Print Assumptions C36_error.

Theorem C36_success_iff_all_met : forall S b t l (u : user S) cfg s tr s' x,
  cfg_ok cfg -> overflow_free b cfg ->
  exec b u (internal_analyse_crud_algorithms b t l cfg) s tr s' (Val x) ->
  (exists r, x = inl r) <-> (forall op, is_enabled cfg op -> met b t l cfg tr op).
Proof.
  intros S b t l u cfg s tr s' x C F E. pose proof (internal_spec b t l u cfg s tr s' _ C F E) as H. destruct x as [r|e]; cbn in H.
  - split; [|eauto]. intros _ op En. destruct H as (_ & _ & H). eapply verdict_met; [apply H|exact En].
  - split; [intros [r X]; discriminate|]. intros M. exfalso. destruct H as (H1 & _ & _ & _ & m1 & m2 & tc & sc & O & H5).
    destruct (M _ H1) as (m1' & m2' & tc' & sc' & O' & L1 & L2). destruct (observed_fun _ _ _ _ _ _ _ _ _ _ _ _ _ _ O O') as (_ & _ & -> & ->).
    unfold cle, clt in *. destruct (ce_analysis e); lia.
Qed.
Print Assumptions C36_success_iff_all_met.

(** ** C37 *)
Lemma no_acts_disabled cfg op : iterations cfg op = 0 -> forall ph r T, ~ In (APass ph op r T) (all_acts cfg).
Proof.
  intros H ph r T I.
  assert (P : forall ph' op' r', ~ In (APass ph op r T) (pass_on cfg ph' op' r')).
  { intros ph' op' r' X. unfold pass_on, enabled_ in X. destruct (op_dec op' op) as [->|Ne].
    - rewrite H in X. cbn in X. exact X.
    - destruct (_ <? _); [|exact X]. destruct X as [X|[]]. injection X as _ X _ _. contradiction. }
  unfold all_acts, acts_until, first_acts, warmup_acts in I. destruct (_ <? _).
  all: rewrite ?in_app_iff in I; repeat (destruct I as [I|I]); try (eapply P; exact I).
  all: try discriminate; try (destruct I); try discriminate; try contradiction.
Qed.

Theorem C37_disabled_operations : forall S b t l (u : user S) cfg s tr s' o op,
  cfg_ok cfg -> overflow_free b cfg ->
  exec b u (internal_analyse_crud_algorithms b t l cfg) s tr s' o ->
  iterations cfg op = 0 ->
  arguments op tr = [] /\ (forall r, o = Val (inl r) -> analysis_of r op = None)
  /\ (forall e, o = Val (inr e) -> ce_operation e <> op).
Proof.
  intros S b t l u cfg s tr s' o op C F E N.
  destruct (C34_call_sequence _ _ _ _ _ _ _ _ _ _ C F E) as [[rest A] _]. split; [|split].
  - apply arguments_none. intros ph r T I. apply (no_acts_disabled cfg op N ph r T). rewrite A. apply in_or_app. left. exact I.
  - intros r ->. pose proof (internal_spec b t l u cfg s tr s' _ C F E) as H. cbn in H. destruct H as (_ & _ & H). specialize (H op).
    unfold verdict in H. rewrite N in H. exact H.
  - intros e -> <-. destruct (C36_error _ _ _ _ _ _ _ _ _ _ C F E) as [H _]. unfold is_enabled in H. lia.
Qed.
Print Assumptions C37_disabled_operations.

Theorem C37_enabled_operations : forall S b t l (u : user S) cfg s tr s' r op,
  cfg_ok cfg -> overflow_free b cfg ->
  exec b u (internal_analyse_crud_algorithms b t l cfg) s tr s' (Val (inl r)) ->
  is_enabled cfg op ->
  exists m1 m2 tc sc, observed b t l cfg tr op m1 m2 tc sc /\ analysis_of r op = Some (Analysis (info cfg op) m1 m2 tc sc).
Proof.
  intros S b t l u cfg s tr s' r op C F E N. pose proof (internal_spec b t l u cfg s tr s' _ C F E) as H. cbn in H. destruct H as (_ & _ & H). specialize (H op).
  unfold verdict in H. unfold is_enabled in N. apply Z.ltb_lt in N. rewrite N in H. destruct H as (m1 & m2 & tc & sc & O & _ & _ & X). eauto 8.
Qed.
Print Assumptions C37_enabled_operations.

(** ** C38 *)
Theorem C38_unwrap_never_panics : forall S b t l (u : user S) cfg s tr s' e,
  cfg_ok cfg -> overflow_free b cfg ->
  ~ exec b u (internal_analyse_crud_algorithms b t l (no_maxima cfg)) s tr s' (Val (inr e)).
Proof.
  intros S b t l u cfg s tr s' e C F E.
  destruct (C36_error _ _ _ _ _ _ _ _ _ _ (no_maxima_ok _ C) (no_maxima_free _ _ F) E) as (_ & _ & (m1 & m2 & tc & sc & _ & H) & _).
  rewrite no_maxima_of in H. cbn [no_maximum oc_max_time oc_max_space] in H. cbv zeta in H. unfold clt, cle in H.
  assert (W : forall c, discr c <= discr WorseThanExponential) by (intros []; vm_compute; discriminate).
  pose proof (W tc). pose proof (W sc). destruct H as [H|H]; lia.
Qed.
Print Assumptions C38_unwrap_never_panics.

Theorem C38_always_returns_the_analyses : forall S b t l (u : user S) cfg s tr s' o,
  cfg_ok cfg -> usable cfg -> closures_return u ->
  exec b u (analyse_crud_algorithms b t l cfg) s tr s' o ->
  sane_measurements tr ->
  exists r, o = Val r /\
    forall op, if 0 <? iterations cfg op
      then exists m1 m2 tc sc, observed b t l cfg tr op m1 m2 tc sc /\ analysis_of r op = Some (Analysis (info cfg op) m1 m2 tc sc)
      else analysis_of r op = None.
Proof.
  intros S b t l u cfg s tr s' o C U CR E SM. pose proof (proj1 U) as NO. destruct (analyse_inv b t l u cfg s tr s' o E) as (o' & E' & O).
  destruct o' as [[r|e]|p|].
  - exists r. split; [exact O|]. intros op. destruct (Z.ltb_spec 0 (iterations cfg op)) as [H|H].
    + destruct (C37_enabled_operations _ _ _ _ _ _ _ _ _ _ op (no_maxima_ok _ C) (or_intror (no_maxima_no_overflow _ NO)) E') as (m1 & m2 & tc & sc & OB & AN).
      { unfold is_enabled. rewrite no_maxima_iterations. exact H. }
      exists m1, m2, tc, sc. destruct op; exact (conj OB AN).
    + destruct (C37_disabled_operations _ _ _ _ _ _ _ _ _ _ op (no_maxima_ok _ C) (or_intror (no_maxima_no_overflow _ NO)) E') as (_ & X & _).
      { rewrite no_maxima_iterations. destruct C as [_ C]. destruct (C op) as [[? _] _]. lia. }
      apply X. reflexivity.
  - destruct (C38_unwrap_never_panics _ _ _ _ _ _ _ _ _ _ C (or_intror NO) E').
  - exfalso. pose proof (internal_spec b t l u _ s tr s' _ (no_maxima_ok _ C) (or_intror (no_maxima_no_overflow _ NO)) E') as [_ X].
    apply X. split; [split; [apply no_maxima_usable; exact U|left; exact CR]|exact SM].
  - destruct O.
Qed.
Print Assumptions C38_always_returns_the_analyses.

(** whatever the closures do: the only panics are theirs, and one ends the analysis at once *)
Lemma cut_is_last {S A} b (u : user S) (m : prog A) s tr s' o ph op r T log : exec b u m s tr s' o -> In (EvPass ph op r T log None) tr ->
  exists earlier, tr = earlier ++ [EvPass ph op r T log None].
Proof.
  induction 1 as [a s|q s|ph' op' ty r' T' k s log' s1 v m' tr s2 out P E IH|ph' op' ty r' T' k s log' s1 q P|n k s s1 v tr s2 out P E IH|n k s s1 P|i k s tr s2 out E IH|d k s tr s2 out D E IH]; intros I; cbn [In] in I.
  - destruct I.
  - destruct I.
  - destruct I as [I|I]; [discriminate|]. destruct (IH I) as [x ->]. eexists (_ :: x). reflexivity.
  - destruct I as [I|[]]. exists []. rewrite I. reflexivity.
  - destruct I as [I|I]; [discriminate|]. destruct (IH I) as [x ->]. eexists (_ :: x). reflexivity.
  - destruct I as [I|[]]. discriminate.
  - destruct I as [I|I]; [discriminate|]. destruct (IH I) as [x ->]. eexists (_ :: x). reflexivity.
  - destruct I as [I|I]; [discriminate|]. destruct (IH I) as [x ->]. eexists (_ :: x). reflexivity.
Qed.
Lemma internal_panics S b t l (u : user S) cfg s tr s' p :
  cfg_ok cfg -> usable cfg -> exec b u (internal_analyse_crud_algorithms b t l cfg) s tr s' (Panic p) -> sane_measurements tr ->
  p = PClosure /\ exists earlier e, tr = earlier ++ [e] /\
    match e with EvPass _ _ _ _ _ None => True | EvReset _ => True | _ => False end.
Proof.
  intros C U E SM. pose proof (internal_spec b t l u _ s tr s' _ C (or_intror (proj1 U)) E) as [_ X]. cbv beta in X.
  assert (PC : p = PClosure) by (assert (D : p = PClosure \/ p <> PClosure) by (destruct p; auto; right; discriminate); destruct D as [D|D]; [exact D|]; exfalso; apply X; split; [split; [exact U|auto]|exact SM]).
  split; [exact PC|].
  destruct (exists_last (l := tr)) as (earlier & e & ET).
  { intros ->. apply X. split; [split; [exact U|]|exact SM]. right. left. split; [constructor|]. intros [|]; discriminate. }
  exists earlier, e. split; [exact ET|].
  assert (D : Forall (fun e => match e with EvPass _ _ _ _ _ None => False | _ => True end) tr \/ exists ph op r T log, In (EvPass ph op r T log None) tr).
  { clear. induction tr as [|e tr IH]; [left; constructor|]. destruct IH as [IH|(ph & op & r & T & log & IH)]; [|right; exists ph, op, r, T, log; right; exact IH].
    destruct e as [ph op r T log [m|]|n|i|d]; try (left; constructor; [exact I|exact IH]). right. exists ph, op, r, T, log. left. reflexivity. }
  destruct D as [D|(ph & op & r & T & log & D)].
  - destruct e as [ph op r T log [m|]|n|i|d]; try exact I;
      (apply X; split; [split; [exact U|]|exact SM]; right; left; split; [exact D|]; intros tr0 n Y; rewrite ET in Y; apply app_inj_tail in Y; destruct Y; discriminate).
  - destruct (cut_is_last _ _ _ _ _ _ _ _ _ _ _ _ E D) as [x Y]. rewrite ET in Y. apply app_inj_tail in Y. destruct Y as [_ ->]. exact I.
Qed.
Theorem C38_only_closures_panic : forall S b t l (u : user S) cfg s tr s' p,
  cfg_ok cfg -> usable cfg ->
  exec b u (analyse_crud_algorithms b t l cfg) s tr s' (Panic p) ->
  sane_measurements tr ->
  p = PClosure /\ exists earlier e, tr = earlier ++ [e] /\
    match e with
    | EvPass _ _ _ _ _ None => True   (* a pass that was cut short *)
    | EvReset _ => True               (* a call of reset_fn *)
    | _ => False
    end.
Proof.
  intros S b t l u cfg s tr s' p C U E SM. destruct (analyse_inv b t l u cfg s tr s' _ E) as (o' & E' & O).
  destruct o' as [[r|e]|q|]; [discriminate| | |destruct O].
  - destruct (C38_unwrap_never_panics _ _ _ _ _ _ _ _ _ _ C (or_intror (proj1 U)) E').
  - injection O as <-. apply (internal_panics _ _ _ _ _ _ _ _ _ _ (no_maxima_ok _ C) (no_maxima_usable _ U) E' SM).
Qed.
Print Assumptions C38_only_closures_panic.

(** executions with any prescribed measurements exist: the hypotheses above are satisfiable *)
Theorem C38_runs_exist : forall S b t l (u : user S) cfg s (M : phase -> operation -> pass_result),
  cfg_ok cfg -> usable cfg -> closures_return u -> (forall ph op, sane (M ph op)) ->
  exists tr s' r, exec b u (analyse_crud_algorithms b t l cfg) s tr s' (Val r) /\ sane_measurements tr /\
    (forall ph op m, measurement tr ph op = Some m -> m = M ph op).
Proof.
  intros S b t l u cfg s M C U CR SA. destruct (exec_exists b u M (analyse_crud_algorithms b t l cfg) s) as (tr & s' & o & E & MM).
  pose proof (measures_sane M tr SA MM) as SM.
  destruct (C38_always_returns_the_analyses _ _ _ _ _ _ _ _ _ _ C U CR E SM) as (r & -> & _).
  exists tr, s', r. split; [exact E|]. split; [exact SM|]. intros ph op m X. eapply measures_measurement; eassumption.
Qed.
Print Assumptions C38_runs_exist.
Example C38_example : exists tr s' r, exec Debug demo_user (analyse_crud_algorithms Debug Tol25 demo_libm demo_cfg) tt tr s' (Val r) /\ sane_measurements tr.
Proof.
  destruct demo_cfg_ok as (C & U & _).
  destruct (C38_runs_exist _ Debug Tol25 demo_libm demo_user demo_cfg tt demo_measure C U demo_user_ok demo_sane) as (tr & s' & r & E & SM & _). eauto.
Qed.

(** ** C39 *)
Lemma resets_prefix cfg tr : (exists rest, all_acts cfg = acts tr ++ rest) ->
  resets tr = [] \/ cc_warmup cfg > 0 /\ resets tr = [iterations cfg Create * cc_warmup cfg / 100].
Proof.
  intros [rest E]. rewrite resets_acts. set (g := fun a => match a with AReset n => [n] | APass _ _ _ _ => [] end).
  assert (P : forall ph op r, flat_map g (pass_on cfg ph op r) = []) by (intros; unfold pass_on, enabled_; destruct (_ <? _); reflexivity).
  assert (G : flat_map g (all_acts cfg) = if 0 <? cc_warmup cfg then [iterations cfg Create * cc_warmup cfg / 100] else []).
  { unfold all_acts, acts_until, first_acts, warmup_acts. destruct (_ <? _); rewrite ?flat_map_app, ?P; reflexivity. }
  rewrite E, flat_map_app in G. destruct (Z.ltb_spec 0 (cc_warmup cfg)) as [W|W].
  - destruct (flat_map g (acts tr)) as [|x xs]; [left; reflexivity|]. right. split; [lia|]. cbn [app] in G. injection G as -> G. f_equal.
    destruct xs; [reflexivity|discriminate].
  - left. apply app_eq_nil in G. tauto.
Qed.
Theorem C39_resets_of_an_analysis : forall S b t l (u : user S) cfg s tr s' o,
  cfg_ok cfg -> overflow_free b cfg ->
  exec b u (internal_analyse_crud_algorithms b t l cfg) s tr s' o ->
  (cc_warmup cfg = 0 -> resets tr = []) /\
  (forall x, o = Val x -> 0 < cc_warmup cfg -> resets tr = [iterations cfg Create * cc_warmup cfg / 100]) /\
  (resets tr = [] \/ resets tr = [iterations cfg Create * cc_warmup cfg / 100]).
Proof.
  intros S b t l u cfg s tr s' o C F E. destruct (C34_call_sequence _ _ _ _ _ _ _ _ _ _ C F E) as [A _].
  pose proof (resets_prefix cfg tr A) as R. split; [|split].
  - intros W. destruct R as [R|[R _]]; [exact R|lia].
  - intros x -> W. assert (A' : exists rest, acts tr = warmup_acts cfg ++ rest).
    { destruct x as [r|e].
      - destruct (C34_call_sequence _ _ _ _ _ _ _ _ _ _ C F E) as [_ A']. rewrite (A' r eq_refl). unfold all_acts, acts_until. eauto.
      - destruct (C36_error _ _ _ _ _ _ _ _ _ _ C F E) as (_ & _ & _ & -> & _). unfold acts_until. eauto. }
    destruct R as [R|[_ R]]; [|exact R]. exfalso. rewrite resets_acts in R. destruct A' as [rest A']. rewrite A', flat_map_app in R.
    unfold warmup_acts in R. apply Z.ltb_lt in W. rewrite W in R. rewrite !flat_map_app in R. cbn [flat_map app] in R.
    apply app_eq_nil in R. destruct R as [R _]. repeat (apply app_eq_nil in R; destruct R as [_ R]). discriminate.
  - tauto.
Qed.
Print Assumptions C39_resets_of_an_analysis.

(** between attempts [reset_fn] gets the literal 100 whatever the number of elements
    created; without warm-up those are the only calls: one per retry *)
Theorem C39_resets_between_attempts : forall S b t l (u : user S) cfg k s outs tr s',
  cfg_ok cfg -> 0 <= k -> k + Z.of_nat (length outs) <= two32 -> cc_warmup cfg = 0 ->
  session b t l u cfg k s outs tr s' ->
  (b = Debug \/ roomy cfg) ->
  resets tr = repeat 100 (length outs - 1).
Proof.
  intros S b t l u cfg k s outs tr s' C Hk Hl W H F.
  assert (ONE : forall k cfg' s tr s' o, 0 <= k < two32 -> adapted b k cfg = Val cfg' -> exec b u (internal_analyse_crud_algorithms b t l cfg') s tr s' o -> resets tr = []).
  { intros k0 cfg' s0 tr0 s0' o B AD E.
    assert (C' : cfg_ok cfg') by (eapply adapted_u32; eassumption).
    assert (F' : overflow_free b cfg').
    { destruct F as [F|F]; [left; exact F|right]. apply (adapted_usable b k0 cfg cfg' B C F AD). }
    destruct (C39_resets_of_an_analysis _ _ _ _ _ _ _ _ _ _ C' F' E) as (X & _). apply X.
    apply adapted_spec in AD. destruct AD as [-> _]. exact W. }
  induction H as [k cfg' s tr s' o AD E|k cfg' s tr s1 e s2 v outs tr' s' AD E T R H IH].
  - cbn [length] in Hl. assert (RO : resets tr = []) by (eapply ONE; [|exact AD|exact E]; lia). rewrite RO. reflexivity.
  - cbn [length] in Hl. unfold resets. rewrite !flat_map_app. cbn [retrying flat_map app]. fold (resets tr) (resets tr'). assert (RO : resets tr = []) by (eapply ONE; [|exact AD|exact E]; lia). rewrite RO.
    rewrite IH by lia. cbn [app length]. assert (L : (0 < length outs)%nat) by (destruct H; cbn; lia). clear - L.
    destruct (length outs) as [|m]; [lia|]. cbn [Nat.sub repeat]. rewrite ?Nat.sub_0_r. reflexivity.
Qed.
Print Assumptions C39_resets_between_attempts.

(** ** C40: the analysis is repeated exactly while it fails on time and attempts
    remain; [GaveUp] and [SpaceMismatch] are the two panics of the test. *)
Theorem C40_retry_policy : forall S b t l (u : user S) cfg max s tr s' e,
  0 < max < two32 ->
  exec b u (test_crud_algorithms b t l cfg max) s tr s' (Val e) ->
  match e with
  | Passed => exists errs r,
      session b t l u cfg 0 s (map failed errs ++ [Val (inl r)]) tr s' /\
      Forall on_time errs /\ Z.of_nat (length errs) + 1 <= max
  | GaveUp e c =>
      session b t l u cfg 0 s (map failed (c ++ [e])) tr s' /\
      Forall on_time (c ++ [e]) /\ Z.of_nat (length (c ++ [e])) = max
  | SpaceMismatch a e => exists errs,
      session b t l u cfg 0 s (map failed (errs ++ [e])) tr s' /\
      Forall on_time errs /\ on_space e /\ a = Z.of_nat (length errs) /\ Z.of_nat (length errs) + 1 <= max
  end.
Proof.
  intros S b t l u cfg max s tr s' e Hm E. unfold test_crud_algorithms in E.
  apply attempts_spec in E; [|lia|lia|lia|lia]. destruct e as [|e c|a e]; cbn [ends] in E.
  - destruct E as (errs & r & H1 & H2 & H3). exists errs, r. repeat split; auto; lia.
  - destruct E as (errs & H1 & H2 & H3 & ->). cbn [app] in *. repeat split; auto. rewrite app_length. cbn [length]. lia.
  - destruct E as (errs & H1 & H2 & H3 & -> & H4). exists errs. repeat split; auto; lia.
Qed.
Print Assumptions C40_retry_policy.

(** these are the only ways a test can end, unless a closure panics, a measurement
    is absurd or an iteration count is huge *)
Theorem C40_no_other_end : forall S b t l (u : user S) cfg max s tr s' o,
  0 <= max < two32 -> cfg_ok cfg -> roomy cfg -> closures_return u ->
  exec b u (test_crud_algorithms b t l cfg max) s tr s' o -> sane_measurements tr ->
  exists e, o = Val e.
Proof.
  intros S b t l u cfg max s tr s' o Hm C R CR E SM. unfold test_crud_algorithms in E.
  eapply attempts_no_panic; [exact Hm|exact C|exact R|exact CR| | |exact E|exact SM]; lia.
Qed.
Print Assumptions C40_no_other_end.
Theorem C40_runs_exist : forall S b t l (u : user S) cfg max s (M : phase -> operation -> pass_result),
  0 <= max < two32 -> cfg_ok cfg -> roomy cfg -> closures_return u -> (forall ph op, sane (M ph op)) ->
  exists tr s' e, exec b u (test_crud_algorithms b t l cfg max) s tr s' (Val e) /\ measures M tr.
Proof.
  intros S b t l u cfg max s M Hm C R CR SA. destruct (exec_exists b u M (test_crud_algorithms b t l cfg max) s) as (tr & s' & o & E & MM).
  destruct (C40_no_other_end _ _ _ _ _ _ _ _ _ _ _ Hm C R CR E (measures_sane M tr SA MM)) as [e ->]. eauto.
Qed.
Print Assumptions C40_runs_exist.

(** ** C41 *)
Theorem C41_zero_attempts : forall S b t l (u : user S) cfg s,
  exec b u (test_crud_algorithms b t l cfg 0) s [] s (Val Passed) /\
  forall tr s' o, exec b u (test_crud_algorithms b t l cfg 0) s tr s' o -> tr = [] /\ s' = s /\ o = Val Passed.
Proof.
  intros S b t l u cfg s. split; [constructor|]. intros tr s' o E. inversion E; subst. auto.
Qed.
Print Assumptions C41_zero_attempts.

(** ** C42 *)
Theorem C42_adaptation : forall b k n, 0 <= k < two32 -> 0 <= n < two32 ->
  In (divisor k) [10; 8; 6; 4; 2] /\
  adapt b k n =
    if k =? 0 then Val n
    else if (k - 1) mod 3 =? 0 then Val (n / divisor k)
    else if (k - 1) mod 3 =? 1 then Val (n - n / divisor k)
    else checked b two32 (n + n / divisor k).
Proof. intros b k n Hk Hn. split; [apply divisor_cases; lia|apply adapt_value; assumption]. Qed.
Print Assumptions C42_adaptation.
Theorem C42_bounds : forall b k n, 0 <= k < two32 -> 0 <= n -> 2 * n < two32 ->
  exists v, adapt b k n = Val v /\ n / 10 <= v <= n + n / 2.
Proof. intros b k n Hk Hn H2. destruct (adapt_ok b k n Hk Hn H2) as [v E]. exists v. split; [exact E|]. eapply adapt_bounds; eassumption. Qed.
Print Assumptions C42_bounds.
Example C42_example : map (fun k => adapt Debug k 1000) (zseq 0 17) =
  map Val [1000; 100; 900; 1125; 125; 875; 1166; 166; 834; 1250; 250; 750; 1500; 500; 500; 1100; 100].
Proof. vm_compute. reflexivity. Qed.

(** with fewer than ten iterations per pass the first retry skips every operation, so
    with two or more attempts a test can never fail on time *)
Definition all_small (cfg : crud_cfg) : Prop := forall op, 0 <= iterations cfg op < 10.
Lemma first_retry_disabled b cfg cfg' : all_small cfg -> adapted b 1 cfg = Val cfg' -> forall op, iterations cfg' op = 0.
Proof.
  intros H A op. apply adapted_spec in A. destruct A as [_ A]. destruct (A op) as [A1 _]. specialize (H op).
  rewrite adapt_value in A1 by (rewrite two32_val; lia). change (divisor 1) with 10 in A1.
  change (1 =? 0) with false in A1. change ((1 - 1) mod 3 =? 0) with true in A1. injection A1 as <-. apply Z.div_small. exact H.
Qed.
Lemma disabled_never_fails {S} b t l (u : user S) cfg s tr s' e : cfg_ok cfg -> (forall op, iterations cfg op = 0) ->
  ~ exec b u (internal_analyse_crud_algorithms b t l cfg) s tr s' (Val (inr e)).
Proof.
  intros C N E. assert (F : overflow_free b cfg) by (right; intros op; rewrite N, two32_val; lia).
  destruct (C36_error _ _ _ _ _ _ _ _ _ _ C F E) as [X _]. unfold is_enabled in X. rewrite N in X. lia.
Qed.
Lemma small_session {S} b t l (u : user S) cfg s o1 o2 outs tr s' : cfg_ok cfg -> all_small cfg ->
  session b t l u cfg 0 s (o1 :: o2 :: outs) tr s' -> forall e, o2 <> failed e.
Proof.
  intros C SM H e ->. inversion H; subst. 
  match goal with H : session _ _ _ _ _ _ _ (failed _ :: _) _ _ |- _ => inversion H; subst end.
  all: match goal with A : adapted _ (0 + 1) _ = Val ?c, X : exec _ _ (internal_analyse_crud_algorithms _ _ _ ?c) _ _ _ _ |- _ =>
    eapply (disabled_never_fails b t l u c); [eapply adapted_u32; [|exact C|exact A]; rewrite two32_val; lia|eapply first_retry_disabled; [exact SM|exact A]|exact X] end.
Qed.
Theorem C42_small_counts_never_fail_on_time : forall S b t l (u : user S) cfg max s tr s' e,
  cfg_ok cfg -> all_small cfg -> 2 <= max < two32 ->
  exec b u (test_crud_algorithms b t l cfg max) s tr s' (Val e) ->
  e = Passed \/ exists e0, e = SpaceMismatch 0 e0.
Proof.
  intros S b t l u cfg max s tr s' e C SM Hm E. apply C40_retry_policy in E; [|lia]. destruct e as [|e c|a e]; [auto| |].
  - exfalso. destruct E as (SE & _ & L). destruct c as [|e1 c]; [cbn in L; lia|].
    destruct c as [|e2 c]; cbn [map app] in SE; eapply (small_session _ _ _ _ _ _ _ _ _ _ _ C SM SE); reflexivity.
  - right. destruct E as (errs & SE & _ & _ & -> & _). destruct errs as [|e1 errs]; [cbn; eauto|]. exfalso.
    destruct errs as [|e2 errs]; cbn [map app] in SE; eapply (small_session _ _ _ _ _ _ _ _ _ _ _ C SM SE); reflexivity.
Qed.
Print Assumptions C42_small_counts_never_fail_on_time.

(** ** C43: an operation violating both maxima is reported as a time mismatch (hence retried) *)
Theorem C43_time_hides_space : forall S b t l (u : user S) cfg s tr s' e m1 m2 tc sc,
  cfg_ok cfg -> overflow_free b cfg ->
  exec b u (internal_analyse_crud_algorithms b t l cfg) s tr s' (Val (inr e)) ->
  observed b t l cfg tr (ce_operation e) m1 m2 tc sc ->
  clt (oc_max_time (cfg_of cfg (ce_operation e))) tc -> clt (oc_max_space (cfg_of cfg (ce_operation e))) sc ->
  ce_analysis e = Time.
Proof.
  intros S b t l u cfg s tr s' e m1 m2 tc sc C F E O T _.
  destruct (C36_error _ _ _ _ _ _ _ _ _ _ C F E) as (_ & _ & (m1' & m2' & tc' & sc' & O' & H) & _).
  destruct (observed_fun _ _ _ _ _ _ _ _ _ _ _ _ _ _ O O') as (_ & _ & <- & <-). cbv zeta in H. unfold cle, clt in *. destruct H as [H|H]; [tauto|lia].
Qed.
Print Assumptions C43_time_hides_space.

(** ... so the test panics for space only on an operation whose time was within its
    maximum: an attempt on which some operation violates both is never the reason *)
Lemma session_end {S} b t l (u : user S) cfg e : forall errs k s tr s',
  session b t l u cfg k s (map failed (errs ++ [e])) tr s' ->
  exists cfg' s0 tr1 tr0, adapted b (k + Z.of_nat (length errs)) cfg = Val cfg' /\ tr = tr1 ++ tr0 /\
    exec b u (internal_analyse_crud_algorithms b t l cfg') s0 tr0 s' (Val (inr e)).
Proof.
  induction errs as [|e1 errs IH]; intros k s tr s' H; cbn [map app] in H.
  - cbn [length]. rewrite Z.add_0_r. inversion H as [k' cfg' s1 tr' s1' o AD E|k' cfg' s1 tr' s2 e' s3 v outs tr'' s'' AD E T R H']; subst.
    + exists cfg', s, [], tr. auto.
    + inversion H'.
  - inversion H as [k' cfg' s1 tr' s1' o AD E|k' cfg' s1 tr' s2 e' s3 v outs tr'' s'' AD E T R H']; subst.
    + destruct errs; discriminate.
    + destruct (IH _ _ _ _ H') as (c & s0 & tr1 & tr0 & A & -> & X). exists c, s0, (tr' ++ retrying k ++ tr1), tr0.
      split; [rewrite <- A; f_equal; cbn [length]; lia|]. split; [rewrite <- !app_assoc; reflexivity|exact X].
Qed.
Theorem C43_space_panic_only_if_time_met : forall S b t l (u : user S) cfg max s tr s' a e,
  0 < max < two32 -> cfg_ok cfg -> b = Debug \/ roomy cfg ->
  exec b u (test_crud_algorithms b t l cfg max) s tr s' (Val (SpaceMismatch a e)) ->
  exists cfg' s0 tr1 tr0 m1 m2 tc sc,
    adapted b a cfg = Val cfg' /\ tr = tr1 ++ tr0 /\
    exec b u (internal_analyse_crud_algorithms b t l cfg') s0 tr0 s' (Val (inr e)) /\
    observed b t l cfg' tr0 (ce_operation e) m1 m2 tc sc /\
    cle tc (oc_max_time (cfg_of cfg (ce_operation e))) /\ clt (oc_max_space (cfg_of cfg (ce_operation e))) sc.
Proof.
  intros S b t l u cfg max s tr s' a e Hm C F E. apply C40_retry_policy in E; [|exact Hm].
  destruct E as (errs & SE & _ & SP & -> & L). apply session_end in SE. rewrite Z.add_0_l in SE.
  destruct SE as (cfg' & s0 & tr1 & tr0 & AD & -> & E).
  assert (B : 0 <= Z.of_nat (length errs) < two32) by lia.
  assert (C' : cfg_ok cfg') by (eapply adapted_u32; eassumption).
  assert (F' : overflow_free b cfg').
  { destruct F as [F|F]; [left; exact F|right]. apply (adapted_usable b _ cfg cfg' B C F AD). }
  destruct (C36_error _ _ _ _ _ _ _ _ _ _ C' F' E) as (_ & _ & (m1 & m2 & tc & sc & O & H) & _).
  exists cfg', s0, tr1, tr0, m1, m2, tc, sc. split; [exact AD|]. split; [reflexivity|]. split; [exact E|]. split; [exact O|].
  assert (X : oc_max_time (cfg_of cfg' (ce_operation e)) = oc_max_time (cfg_of cfg (ce_operation e)) /\
              oc_max_space (cfg_of cfg' (ce_operation e)) = oc_max_space (cfg_of cfg (ce_operation e))).
  { apply adapted_spec in AD. destruct AD as [_ AD]. destruct (AD (ce_operation e)) as [_ ->]. split; reflexivity. }
  destruct X as [X1 X2]. rewrite X1, X2 in H. cbv zeta in H. unfold on_space in SP.
  destruct H as [(T & _)|(_ & H1 & H2 & _)]; [congruence|auto].
Qed.
Print Assumptions C43_space_panic_only_if_time_met.

(** the demo: its create violates both maxima, and the test passes nevertheless *)
Lemma demo_create tc sc : observed_time Tol25 demo_libm demo_cfg Create (demo_measure First Create) (demo_measure Second Create) = tc ->
  observed_space Debug Tol25 demo_libm demo_cfg Create (demo_measure First Create) (demo_measure Second Create) = Val sc ->
  clt BetterThanO1 tc /\ clt O1 sc.
Proof.
  intros <- H. split; [vm_compute; reflexivity|].
  assert (X : observed_space Debug Tol25 demo_libm demo_cfg Create (demo_measure First Create) (demo_measure Second Create) = Val BetweenONAndONLogN \/
              observed_space Debug Tol25 demo_libm demo_cfg Create (demo_measure First Create) (demo_measure Second Create) = Val ON \/
              observed_space Debug Tol25 demo_libm demo_cfg Create (demo_measure First Create) (demo_measure Second Create) = Val BetweenOLogNAndON \/
              observed_space Debug Tol25 demo_libm demo_cfg Create (demo_measure First Create) (demo_measure Second Create) = Val OLogN \/
              observed_space Debug Tol25 demo_libm demo_cfg Create (demo_measure First Create) (demo_measure Second Create) = Val BetweenO1AndOLogN).
  { vm_compute. tauto. }
  destruct X as [X|[X|[X|[X|X]]]]; rewrite X in H; injection H as <-; vm_compute; reflexivity.
Qed.
Example C43_example : exists tr s' errs r,
  exec Debug demo_user (test_crud_algorithms Debug Tol25 demo_libm demo_cfg 2) tt tr s' (Val Passed) /\
  session Debug Tol25 demo_libm demo_user demo_cfg 0 tt (failed errs :: [Val (inl r)]) tr s' /\
  ce_operation errs = Create /\ ce_analysis errs = Time.
Proof.
  destruct demo_cfg_ok as (C & U & R).
  destruct (C40_runs_exist _ Debug Tol25 demo_libm demo_user demo_cfg 2 tt demo_measure ltac:(rewrite two32_val; lia) C R demo_user_ok demo_sane) as (tr & s' & e & E & MM).
  exists tr, s'.
  assert (SM : all_small demo_cfg) by (intros [| | |]; vm_compute; split; discriminate || reflexivity).
  pose proof (C42_small_counts_never_fail_on_time _ _ _ _ _ _ 2 _ _ _ _ C SM ltac:(rewrite two32_val; lia) E) as CASES.
  pose proof (C40_retry_policy _ _ _ _ _ _ 2 _ _ _ _ ltac:(rewrite two32_val; lia) E) as H.
  assert (AD : adapted Debug 0 demo_cfg = Val demo_cfg) by reflexivity.
  assert (F : overflow_free Debug demo_cfg) by (left; reflexivity).
  (* the first attempt fails, on create's time *)
  assert (FIRST : forall s1 s2 tr1 tr2 x, tr = tr1 ++ tr2 -> exec Debug demo_user (internal_analyse_crud_algorithms Debug Tol25 demo_libm demo_cfg) s1 tr1 s2 (Val x) ->
    exists e, x = inr e /\ ce_operation e = Create /\ ce_analysis e = Time).
  { intros s1 s2 tr1 tr2 x -> E1.
    assert (MM1 : measures demo_measure tr1) by (unfold measures in *; rewrite Forall_app in MM; tauto).
    assert (BAD : ~ met Debug Tol25 demo_libm demo_cfg tr1 Create).
    { intros (m1 & m2 & tc & sc & (O1 & O2 & O3 & O4) & L1 & L2). apply (measures_measurement demo_measure) in O1; [|exact MM1]. apply (measures_measurement demo_measure) in O2; [|exact MM1].
      subst m1 m2. destruct (demo_create tc sc (eq_sym O3) O4) as [X _]. unfold clt, cle in *. change (oc_max_time (cfg_of demo_cfg Create)) with BetterThanO1 in L1. lia. }
    destruct x as [r|e0].
    - exfalso. apply BAD. apply (C36_success_iff_all_met _ _ _ _ _ _ _ _ _ _ C F E1); [eauto|reflexivity].
    - exists e0. split; [reflexivity|]. destruct (C36_error _ _ _ _ _ _ _ _ _ _ C F E1) as (_ & BF & (m1 & m2 & tc & sc & O & V) & _).
      destruct (ce_operation e0) eqn:OP; try (exfalso; apply BAD; apply BF; [cbn; tauto|reflexivity]).
      split; [reflexivity|]. destruct V as [V|V]; [tauto|]. exfalso. destruct O as (O1 & O2 & O3 & O4).
      apply (measures_measurement demo_measure) in O1; [|exact MM1]. apply (measures_measurement demo_measure) in O2; [|exact MM1].
      subst m1 m2. destruct (demo_create tc sc (eq_sym O3) O4) as [X _]. unfold clt, cle in *. change (oc_max_time (cfg_of demo_cfg Create)) with BetterThanO1 in V. lia. }
  destruct CASES as [->|[e0 ->]].
  - destruct H as (errs & r & SE & OT & L). destruct errs as [|e1 [|e2 errs]].
    + cbn [map app] in SE. inversion SE as [? ? ? ? ? ? A1 E1|]; subst.
      rewrite AD in A1. apply val_inj in A1. subst cfg'. destruct (FIRST _ _ tr [] _ (eq_sym (app_nil_r _)) E1) as (x & X & _). discriminate.
    + exists e1, r. split; [exact E|]. split; [exact SE|]. cbn [map app] in SE. inversion SE as [|? ? ? tr1 ? ? ? ? ? tr2 ? A1 E1]; subst.
      rewrite AD in A1. apply val_inj in A1. subst cfg'. destruct (FIRST _ _ _ _ _ eq_refl E1) as (x & X & Y). injection X as <-. exact Y.
    + cbn [length] in L. lia.
  - exfalso. destruct H as (errs & SE & _ & SP & Z0 & _). destruct errs as [|? ?]; [|discriminate]. cbn [map app] in SE.
    inversion SE as [? ? ? ? ? ? A1 E1|]; subst. 2:{ match goal with H : session _ _ _ _ _ _ _ [] _ _ |- _ => inversion H end. }
    rewrite AD in A1. apply val_inj in A1. subst cfg'. destruct (FIRST _ _ tr [] _ (eq_sym (app_nil_r _)) E1) as (x & X & _ & Y). injection X as <-.
    unfold on_space in SP. congruence.
Qed.

(** ** C44 for the runner: reads and updates without creates *)
Theorem C44_reads_without_creates : forall S b t l (u : user S) cfg s tr s' r op,
  powf_nan_ok l -> log2_zero_ok l -> powi_nan_ok l ->
  cfg_ok cfg -> overflow_free b cfg -> iterations cfg Create = 0 -> op = Read \/ op = Update -> is_enabled cfg op ->
  exec b u (internal_analyse_crud_algorithms b t l cfg) s tr s' (Val (inl r)) ->
  exists a, analysis_of r op = Some a /\
    (duration_sane (pr_time (an_pass_1 a)) -> 0 < pr_time (an_pass_1 a) -> duration_sane (pr_time (an_pass_2 a)) ->
     In (an_time a) [BetterThanO1; O1; WorseThanExponential]) /\
    (space_ok (pr_space (an_pass_1 a)) -> 0 < growth (pr_space (an_pass_1 a)) -> space_ok (pr_space (an_pass_2 a)) ->
     In (an_space a) [BetterThanO1; O1; WorseThanExponential]).
Proof.
  intros S b t l u cfg s tr s' r op L1 L2 L3 C F N OP En E.
  destruct (C37_enabled_operations _ _ _ _ _ _ _ _ _ _ _ C F E En) as (m1 & m2 & tc & sc & (_ & _ & T & SP) & A).
  eexists. split; [exact A|]. cbn [an_pass_1 an_pass_2 an_time an_space].
  assert (T' : tc = analyse_time_complexity_constant_set t l 0 0 (pr_time m1) (pr_time m2)) by (destruct OP as [-> | ->]; cbn [observed_time] in T; rewrite N in T; exact T).
  assert (S' : analyse_space_complexity_constant_set b t l 0 0 (pr_space m1) (pr_space m2) = Val sc) by (destruct OP as [-> | ->]; cbn [observed_space] in SP; rewrite N in SP; exact SP).
  split.
  - intros H1 H2 H3. rewrite T'. apply C44_no_creates_time; assumption.
  - intros H1 H2 H3. destruct (C44_no_creates_space b t l _ _ L1 L2 L3 H1 H2 H3) as (c & Ec & I). rewrite Ec in S'. apply val_inj in S'. subst c. exact I.
Qed.
Print Assumptions C44_reads_without_creates.

(** ** C64: an enabled operation with zero threads makes the analysis panic *)
Theorem C64_zero_threads_panic : forall S b t l (u : user S) cfg s tr s' o op,
  cfg_ok cfg -> overflow_free b cfg -> is_enabled cfg op -> oc_threads (cfg_of cfg op) = 0 ->
  exec b u (analyse_crud_algorithms b t l cfg) s tr s' o ->
  exists p, o = Panic p.
Proof.
  intros S b t l u cfg s tr s' o op C F En T0 E. destruct o as [r|p|]; [|eauto|destruct (exec_no_spin _ _ _ _ _ _ _ E eq_refl)].
  exfalso. destruct (C34_analyse_call_sequence _ _ _ _ _ _ _ _ _ _ C F E) as [_ A]. specialize (A r eq_refl).
  assert (I : exists ph rr, In (APass ph op rr 0) (acts tr)).
  { rewrite A. unfold all_acts, acts_until, first_acts. destruct op.
    - exists First, (block1 cfg Create). rewrite (pass_on_enabled cfg First Create) by exact En. rewrite T0. rewrite !in_app_iff. cbn [In]. tauto.
    - exists First, (block1 cfg Read). rewrite (pass_on_enabled cfg First Read) by exact En. rewrite T0. rewrite !in_app_iff. cbn [In]. tauto.
    - exists First, (block1 cfg Update). rewrite (pass_on_enabled cfg First Update) by exact En. rewrite T0. rewrite !in_app_iff. cbn [In]. tauto.
    - exists First, (backwards (block1 cfg Delete)). rewrite (pass_on_enabled cfg First Delete) by exact En. rewrite T0. rewrite !in_app_iff. cbn [In]. tauto. }
  destruct I as (ph & rr & I). apply acts_event in I. destruct I as (log & m & I).
  pose proof (exec_valid b u _ _ _ _ _ E) as V. pose proof (exec_measured b u _ _ _ _ _ E ltac:(discriminate)) as M.
  rewrite Forall_forall in V, M. specialize (V _ I). specialize (M _ I). cbn in V, M. destruct m as [m|]; [|contradiction].
  destruct V as (ty & s1 & s2 & v & P). apply C33_zero_threads_panic in P. destruct P as [_ [p P]]. discriminate.
Qed.
Print Assumptions C64_zero_threads_panic.

(** ** C65: without warm-up, reads and updates get only indices already created iff
    they have no more iterations per pass than creates *)
Lemma covers {S} b (u : user S) pre ph r T : Forall (valid b u) pre -> Forall no_none pre -> closures_return u ->
  fits b r -> 0 < T < two31 -> (T | len r) -> In (APass ph Create r T) (acts pre) ->
  forall i, lowest r <= i < highest r -> In i (arguments Create pre).
Proof.
  intros V M [C _] F HT D I i Hi. apply acts_event in I. destruct I as (log & m & I).
  rewrite Forall_forall in V, M. pose proof (V _ I) as V1. pose proof (M _ I) as M1. cbn in V1, M1. destruct m as [m|]; [|contradiction].
  destruct V1 as (ty & s1 & s2 & v & P).
  destruct (C29_every_index_exactly_once _ _ _ _ _ _ _ _ _ _ (C Create) F HT D P) as [X _].
  unfold arguments. apply in_flat_map. eexists. split; [exact I|]. cbn [operation_eqb]. eapply Permutation_in; [symmetry; exact X|].
  unfold indices. apply in_zseq. unfold len. lia.
Qed.
Lemma calls_within {S} b (u : user S) tr ph op r T log m : Forall (valid b u) tr -> fits b r -> 0 < T < two31 ->
  In (EvPass ph op r T log m) tr -> forall i, In i (calls log) -> lowest r <= i < highest r.
Proof.
  intros V F HT I i Hi. rewrite Forall_forall in V. specialize (V _ I). cbn in V. destruct m as [m|]; destruct V as (ty & s1 & s2 & v & P);
  destruct (C30_no_other_call _ _ _ _ _ _ _ _ _ _ F HT P) as [_ X]; apply X; exact Hi.
Qed.

Ltac walk P A := destruct P as [|? P]; cbn [app] in A; [injection A; clear A; intros; subst|try discriminate A; injection A as ? A; subst; try walk P A].
Lemma creates_first cfg P ph op r T Q : cc_warmup cfg = 0 -> is_enabled cfg Create -> op = Read \/ op = Update ->
  P ++ APass ph op r T :: Q = all_acts cfg ->
  let TC := oc_threads (cc_create cfg) in
  T = oc_threads (cfg_of cfg op) /\
  In (APass First Create (block1 cfg Create) TC) P /\
  (ph = First /\ r = block1 cfg op \/
   ph = Second /\ r = block2 cfg op /\ In (APass Second Create (block2 cfg Create) TC) P).
Proof.
  intros W EC OP A. unfold all_acts, acts_until, warmup_acts, first_acts in A. rewrite W in A. cbn [Z.ltb Z.compare app] in A.
  rewrite !(pass_on_enabled cfg _ Create) in A by exact EC. cbn [cfg_of] in A. unfold pass_on, enabled_ in A. cbv zeta.
  destruct (0 <? iterations cfg Read), (0 <? iterations cfg Update), (0 <? iterations cfg Delete); cbn [app] in A;
  destruct OP as [-> | ->]; walk P A; cbn [In cfg_of]; try discriminate; try tauto.
  all: destruct P; discriminate.
Qed.

Theorem C65_reads_only_what_was_created : forall S b t l (u : user S) cfg s tr s' res op,
  cfg_ok cfg -> usable cfg -> closures_return u -> cc_warmup cfg = 0 ->
  op = Read \/ op = Update -> iterations cfg op <= iterations cfg Create ->
  (oc_threads (cc_create cfg) | iterations cfg Create) ->
  exec b u (internal_analyse_crud_algorithms b t l cfg) s tr s' (Val (inl res)) ->
  forall pre ph r T log m post i, tr = pre ++ EvPass ph op r T log m :: post -> In i (calls log) ->
  In i (arguments Create pre).
Proof.
  intros S b t l u cfg s tr s' res op C U CR W OP LE DV E pre ph r T log m post i -> I.
  destruct (C34_call_sequence _ _ _ _ _ _ _ _ _ _ C (or_intror (proj1 U)) E) as [_ A]. specialize (A _ eq_refl).
  pose proof (exec_valid b u _ _ _ _ _ E) as V. pose proof (exec_measured b u _ _ _ _ _ E ltac:(discriminate)) as M.
  rewrite acts_app in A. cbn [acts flat_map act_of app] in A. fold (acts post) in A.
  destruct (Z.eq_dec (iterations cfg op) 0) as [Z0|NZ].
  { exfalso. apply (no_acts_disabled cfg op Z0 ph r T). rewrite <- A. apply in_or_app. right. left. reflexivity. }
  assert (EO : is_enabled cfg op) by (unfold is_enabled; destruct C as [_ C]; destruct (C op) as [[? _] _]; lia).
  assert (EC : is_enabled cfg Create) by (unfold is_enabled in *; lia).
  destruct (creates_first cfg _ _ _ _ _ _ W EC OP A) as (HT & I1 & CASES).
  pose proof (proj2 U op EO) as [F1 T1]. pose proof (proj2 U Create EC) as [F2 T2].
  assert (VP : Forall (valid b u) pre) by (rewrite Forall_app in V; tauto).
  assert (MP : Forall no_none pre) by (rewrite Forall_app in M; tauto).
  set (N := iterations cfg Create) in *. set (K := iterations cfg op) in *.
  unfold is_enabled in EC, EO. fold N in EC. fold K in EO. rewrite two31_val in F1, F2.
  assert (FB1 : fits b (Range 0 (0 + N))) by (apply small_ranges_fit; rewrite two31_val; cbn [r_start r_end backwards]; lia).
  assert (FB2 : fits b (Range N (N + N))) by (apply small_ranges_fit; rewrite two31_val; cbn [r_start r_end backwards]; lia).
  assert (B1 : block1 cfg Create = Range 0 (0 + N)) by reflexivity.
  assert (B2 : block2 cfg Create = Range N (N + N)) by (unfold block2; fold N; f_equal; lia).
  assert (CV1 : forall i, 0 <= i < N -> In i (arguments Create pre)).
  { intros j Hj. apply (covers b u pre First (Range 0 (0 + N)) (oc_threads (cc_create cfg)) VP MP CR FB1 T2 ltac:(rewrite len_up by lia; exact DV) I1).
    unfold lowest, highest; cbn [r_start r_end]; lia. }
  assert (FR : fits b r).
  { destruct CASES as [(_ & ->)|(_ & -> & _)]; apply small_ranges_fit; rewrite two31_val; unfold block1, block2; cbn [r_start r_end]; fold K; lia. }
  pose proof (calls_within b u _ ph op r T log m V FR ltac:(rewrite HT; exact T1) ltac:(apply in_or_app; right; left; reflexivity) i I) as BD.
  destruct CASES as [(_ & ->)|(_ & -> & I2)].
  - apply CV1. unfold block1, lowest, highest in BD. cbn [r_start r_end] in BD. fold K in BD. lia.
  - unfold block2, lowest, highest in BD. cbn [r_start r_end] in BD. fold K in BD.
    destruct (Z_lt_ge_dec i N) as [LT|GE]; [apply CV1; lia|].
    rewrite B2 in I2. apply (covers b u pre Second (Range N (N + N)) (oc_threads (cc_create cfg)) VP MP CR FB2 T2 ltac:(rewrite len_up by lia; exact DV) I2).
    unfold lowest, highest; cbn [r_start r_end]; lia.
Qed.
Print Assumptions C65_reads_only_what_was_created.

Theorem C65_more_reads_than_creates : forall S b t l (u : user S) cfg s tr s' res op,
  cfg_ok cfg -> usable cfg -> closures_return u -> cc_warmup cfg = 0 ->
  op = Read \/ op = Update -> iterations cfg Create < iterations cfg op ->
  (oc_threads (cfg_of cfg op) | iterations cfg op) ->
  exec b u (internal_analyse_crud_algorithms b t l cfg) s tr s' (Val (inl res)) ->
  exists pre ph r T log m post i, tr = pre ++ EvPass ph op r T log m :: post /\ In i (calls log) /\
  ~ In i (arguments Create pre).
Proof.
  intros S b t l u cfg s tr s' res op C U CR W OP LT DV E.
  destruct (C34_call_sequence _ _ _ _ _ _ _ _ _ _ C (or_intror (proj1 U)) E) as [_ A]. specialize (A _ eq_refl).
  pose proof (exec_valid b u _ _ _ _ _ E) as V. pose proof (exec_measured b u _ _ _ _ _ E ltac:(discriminate)) as M.
  set (N := iterations cfg Create) in *. set (K := iterations cfg op) in *.
  assert (NN : 0 <= N) by (destruct C as [_ C]; destruct (C Create) as [[? _] _]; assumption).
  assert (EO : is_enabled cfg op) by (unfold is_enabled; fold K; lia).
  pose proof (proj2 U op EO) as [F1 T1]. fold K in F1. rewrite two31_val in F1.
  assert (FR : fits b (Range 0 (0 + K))) by (apply small_ranges_fit; rewrite two31_val; cbn [r_start r_end]; lia).
  (* cut the trace before and after op's first pass *)
  assert (CUT : exists pre mid post, tr = pre ++ mid ++ post /\
     acts pre = pass_on cfg First Create (block1 cfg Create) ++ (if operation_eqb op Update then pass_on cfg First Read (block1 cfg Read) else []) /\
     acts mid = [APass First op (Range 0 (0 + K)) (oc_threads (cfg_of cfg op))]).
  { unfold all_acts, acts_until, warmup_acts, first_acts in A. rewrite W in A. cbn [Z.ltb Z.compare app] in A.
    rewrite <- !app_assoc in A. destruct OP as [-> | ->]; cbn [operation_eqb].
    - apply acts_split in A. destruct A as (pre & t2 & -> & A1 & A). apply acts_split in A. destruct A as (mid & t3 & -> & A2 & _).
      exists pre, mid, t3. rewrite app_nil_r. split; [reflexivity|]. split; [exact A1|]. rewrite A2, (pass_on_enabled cfg First Read) by exact EO. reflexivity.
    - rewrite app_assoc in A. apply acts_split in A. destruct A as (pre & t2 & -> & A1 & A). apply acts_split in A. destruct A as (mid & t3 & -> & A2 & _).
      exists pre, mid, t3. split; [reflexivity|]. split; [exact A1|]. rewrite A2, (pass_on_enabled cfg First Update) by exact EO. reflexivity. }
  destruct CUT as (pre & mid & post & -> & A1 & A2).
  rewrite !Forall_app in V, M. destruct V as (V1 & V2 & V3). destruct M as (M1 & M2 & M3).
  destruct (pass_args b u mid _ _ _ _ V2 M2 CR FR T1 ltac:(rewrite len_up by lia; exact DV) A2) as [P O].
  destruct (acts_one _ _ _ _ _ A2) as (log & m & (I & AR) & _).
  apply in_split in I. destruct I as (l1 & l2 & ->).
  exists (pre ++ l1), First, (Range 0 (0 + K)), (oc_threads (cfg_of cfg op)), log, m, (l2 ++ post), (K - 1).
  split; [rewrite <- !app_assoc; reflexivity|]. split.
  - rewrite <- AR. eapply Permutation_in; [symmetry; exact P|]. rewrite indices_up by lia. apply in_zseq. lia.
  - rewrite arguments_app, in_app_iff. intros [X|X].
    + unfold arguments in X. rewrite in_flat_map in X. destruct X as (e & Ie & X). destruct e as [ph' op' r' T' log' m'| | |]; try destruct X.
      destruct (operation_eqb op' Create) eqn:B; [|destruct X]. apply operation_eqb_eq in B. subst op'.
      pose proof (event_acts _ _ _ _ _ _ _ Ie) as IA. rewrite A1 in IA.
      assert (IC : In (APass ph' Create r' T') (pass_on cfg First Create (block1 cfg Create))).
      { apply in_app_or in IA. destruct IA as [IA|IA]; [exact IA|]. destruct OP as [-> | ->]; cbn [operation_eqb] in IA; [destruct IA|].
        unfold pass_on, enabled_ in IA. destruct (0 <? _); [|destruct IA]. destruct IA as [IA|[]]. discriminate. }
      unfold pass_on, enabled_ in IC. destruct (Z.ltb_spec 0 (iterations cfg Create)) as [EC|]; [|destruct IC]. destruct IC as [IC|[]]. injection IC as <- <- <-.
      fold N in EC. pose proof (proj2 U Create EC) as [F2 T2]. fold N in F2. rewrite two31_val in F2.
      assert (FC : fits b (block1 cfg Create)) by (apply small_ranges_fit; rewrite two31_val; unfold block1; cbn [r_start r_end]; fold N; lia).
      pose proof (calls_within b u pre _ _ _ _ _ _ V1 FC T2 Ie _ X) as BD. unfold block1, lowest, highest in BD. cbn [r_start r_end] in BD. fold N in BD. lia.
    + assert (Z : arguments Create (l1 ++ EvPass First op (Range 0 (0 + K)) (oc_threads (cfg_of cfg op)) log m :: l2) = []) by (apply O; destruct OP as [-> | ->]; discriminate).
      rewrite arguments_app in Z. apply app_eq_nil in Z. destruct Z as [Z _]. rewrite Z in X. exact X.
Qed.
Print Assumptions C65_more_reads_than_creates.

(** the first attempt of C43_example: a failing analysis (C36) with updates disabled (C37) and a warm-up (C39);
    C43_example itself is a run of test_crud_algorithms (C40) *)
Example C36_C37_C39_example : exists tr s' e,
  exec Debug demo_user (internal_analyse_crud_algorithms Debug Tol25 demo_libm demo_cfg) tt tr s' (Val (inr e)) /\
  ce_operation e = Create /\ ce_analysis e = Time /\ is_enabled demo_cfg Read /\ iterations demo_cfg Update = 0 /\ cc_warmup demo_cfg = 50.
Proof.
  destruct C43_example as (tr & s' & e & r & _ & SE & OP & AN).
  assert (AD : adapted Debug 0 demo_cfg = Val demo_cfg) by reflexivity.
  inversion SE; subst; match goal with A : adapted _ 0 _ = Val ?c |- _ => rewrite AD in A; injection A as <- end.
  match goal with X : exec _ _ (internal_analyse_crud_algorithms _ _ _ _) _ ?t ?z (Val (inr _)) |- _ => exists t, z, e; split; [exact X|] end.
  repeat split; assumption || reflexivity.
Qed.

(** C64: creates enabled with zero threads *)
Definition demo_zero_threads : crud_cfg :=
  CrudCfg "demo"%string 0 (OpCfg 4 0 O1 O1) (OpCfg 4 1 O1 O1) (OpCfg 0 0 O1 O1) (OpCfg 4 2 O1 O1).
Example C64_example : cfg_ok demo_zero_threads /\ is_enabled demo_zero_threads Create /\ oc_threads (cfg_of demo_zero_threads Create) = 0 /\
  exists tr s' p, exec Debug demo_user (analyse_crud_algorithms Debug Tol25 demo_libm demo_zero_threads) tt tr s' (Panic p).
Proof.
  assert (C : cfg_ok demo_zero_threads) by (split; [unfold u32; rewrite two32_val; cbn; lia|]; intros [| | |]; unfold u32; rewrite two32_val; cbn; lia).
  split; [exact C|]. split; [reflexivity|]. split; [reflexivity|].
  destruct (exec_exists Debug demo_user demo_measure (analyse_crud_algorithms Debug Tol25 demo_libm demo_zero_threads) tt) as (tr & s' & o & E & _).
  destruct (C64_zero_threads_panic _ _ _ _ _ _ _ _ _ _ Create C (or_introl eq_refl) ltac:(reflexivity) ltac:(reflexivity) E) as [p ->]. eauto.
Qed.

(** configurations and executions meeting the hypotheses of C35, C64 and C65 *)
Definition demo_cold (reads : Z) : crud_cfg :=
  CrudCfg "demo"%string 0 (OpCfg 4 2 WorseThanExponential WorseThanExponential) (OpCfg reads 1 WorseThanExponential WorseThanExponential)
    (OpCfg 0 0 O1 O1) (OpCfg 4 2 WorseThanExponential WorseThanExponential).
Example C35_C65_example : forall reads, 0 < reads < 100 ->
  cfg_ok (demo_cold reads) /\ usable (demo_cold reads) /\
  exists tr s' r, exec Debug demo_user (internal_analyse_crud_algorithms Debug Tol25 demo_libm (demo_cold reads)) tt tr s' (Val (inl r)).
Proof.
  intros reads Hr.
  assert (C : cfg_ok (demo_cold reads)) by (split; [unfold u32; rewrite two32_val; unfold iterations, demo_cold; cbn [cfg_of cc_create cc_read cc_update cc_delete cc_warmup oc_iterations oc_threads]; lia|]; intros [| | |]; unfold u32; rewrite two32_val; unfold iterations, demo_cold; cbn [cfg_of cc_create cc_read cc_update cc_delete cc_warmup oc_iterations oc_threads]; lia).
  assert (U : usable (demo_cold reads)).
  { split; [intros [| | |]; rewrite two32_val; unfold iterations, demo_cold; cbn [cfg_of cc_create cc_read cc_update cc_delete cc_warmup oc_iterations oc_threads]; lia|]. intros [| | |]; unfold is_enabled; rewrite two31_val; unfold iterations, demo_cold; cbn [cfg_of cc_create cc_read cc_update cc_delete cc_warmup oc_iterations oc_threads]; lia. }
  split; [exact C|]. split; [exact U|].
  destruct (exec_exists Debug demo_user demo_measure (internal_analyse_crud_algorithms Debug Tol25 demo_libm (demo_cold reads)) tt) as (tr & s' & o & E & MM).
  pose proof (internal_spec Debug Tol25 demo_libm demo_user _ _ _ _ _ C (or_introl eq_refl) E) as H.
  destruct o as [[r|e]|p|]; [eauto| | |destruct H].
  - exfalso. destruct (C36_error _ _ _ _ _ _ _ _ _ _ C (or_introl eq_refl) E) as (En & _ & (m1 & m2 & tc & sc & _ & X) & _).
    assert (WW : forall c, discr c <= discr WorseThanExponential) by (intros []; vm_compute; discriminate).
    pose proof (WW tc). pose proof (WW sc). unfold clt, is_enabled in *. destruct (ce_operation e); cbn in En, X; try lia.
    all: cbv zeta in X; change (discr WorseThanExponential) with (discr WorseThanExponential) in *; cbn in *; lia.
  - exfalso. destruct H as [_ H]. apply H. split; [split; [exact U|left; exact demo_user_ok]|]. apply (measures_sane demo_measure); [exact demo_sane|exact MM].
Qed.
