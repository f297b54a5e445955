(** * Property theorems C79: a CRUD test of a container whose costs follow growth laws. *)
From Coq Require Import List ZArith Lia Bool Reals Lra Psatz.
From Verif Require Import Machine Complexity Analysis AnalysisF64d AllocSpec GrowthSpec Bridge PropsBridge IterPass IterSpec Report ReportProofs Crud CrudSpec CrudProofs CrudMain CrudRetry PropsCrud CrudLawsSpec CrudLawsProofs.
Import ListNotations.
Open Scope Z_scope.

(** what a lawful analysis observes *)
Section Attempt.
Context {S : Type}.
Variables (b : build) (t : tolerance) (l : libm) (u : user S) (cfg : crud_cfg) (L : laws).
Hypothesis LIBM : libm_accurate l.
Hypothesis CFG : cfg_ok cfg.
Hypothesis USE : usable cfg.
Hypothesis CLO : closures_return u.
Hypothesis DIV : no_dropped cfg.
Hypothesis COH : coherent cfg L.
Hypothesis BIG : forall op, is_enabled cfg op -> 12 <= iterations cfg op.
Hypothesis UNITS : forall op, (0 < time_unit L op /\ 0 < space_unit L op)%R.

Lemma big_enough op : is_enabled cfg op -> enough cfg op.
Proof.
  intros EN. split; [apply BIG; exact EN|]. destruct COH as [C _]. destruct op; auto.
Qed.
Lemma attempt_ratios tr op m1 m2 :
  Forall (valid b u) tr -> Forall no_none tr -> (exists rest, all_acts cfg = acts tr ++ rest) -> lawful L tr ->
  is_enabled cfg op -> not_overrated op (time_cost L op) -> not_overrated op (space_cost L op) ->
  measurement tr First op = Some m1 -> measurement tr Second op = Some m2 ->
  let ok c x1 x2 := 0 < x1 /\ 0 < x2 /\ (95 / 100 * expected_ratio cfg op c <= IZR x2 / IZR x1 <= 105 / 100 * expected_ratio cfg op c)%R in
  ok (time_cost L op) (pr_time m1) (pr_time m2) /\ ok (space_cost L op) (growth (pr_space m1)) (growth (pr_space m2)).
Proof.
  intros V NN P LAW EN NT NS M1 M2. cbv zeta.
  destruct (located b cfg u CFG USE CLO DIV tr First op m1 ltac:(discriminate) EN V NN P M1) as (p1 & r1 & T1 & log1 & q1 & E1 & S1 & N1).
  destruct (located b cfg u CFG USE CLO DIV tr Second op m2 ltac:(discriminate) EN V NN P M2) as (p2 & r2 & T2 & log2 & q2 & E2 & S2 & N2).
  destruct (LAW _ _ _ _ _ _ _ _ E1 ltac:(discriminate)) as [A1 B1]. destruct (LAW _ _ _ _ _ _ _ _ E2 ltac:(discriminate)) as [A2 B2].
  rewrite S1 in A1, B1. rewrite S2 in A2, B2.
  assert (length log2 = length log1) as EL by lia. rewrite EL in A2, B2. destruct (UNITS op) as [U1 U2]. destruct COH as [_ C].
  split.
  - refine (pass_ratio cfg op (time_cost L op) (time_unit L op) (length log1) _ _ NT (big_enough op EN) _ U1 N1 A1 A2).
    intros -> X. apply C; auto.
  - refine (pass_ratio cfg op (space_cost L op) (space_unit L op) (length log1) _ _ NS (big_enough op EN) _ U2 N1 B1 B2).
    intros -> X. apply C; auto.
Qed.

Lemma told_not op c : told_apart op c -> not_overrated op c.
Proof. destruct op; cbn; auto. Qed.

(** exact classes *)
Lemma attempt_observes tr op m1 m2 tc sc :
  Forall (valid b u) tr -> Forall no_none tr -> (exists rest, all_acts cfg = acts tr ++ rest) -> lawful L tr -> sane_measurements tr ->
  is_enabled cfg op -> told_apart op (time_cost L op) -> told_apart op (space_cost L op) ->
  observed b t l cfg tr op m1 m2 tc sc -> tc = class (time_cost L op) /\ sc = class (space_cost L op).
Proof.
  intros V NN P LAW SA EN NT NS (M1 & M2 & OT & OS).
  destruct (attempt_ratios tr op m1 m2 V NN P LAW EN (told_not _ _ NT) (told_not _ _ NS) M1 M2) as [(T1 & T2 & T3) (S1 & S2 & S3)].
  pose proof (sane_measured _ _ _ _ SA M1) as A1. pose proof (sane_measured _ _ _ _ SA M2) as A2.
  rewrite (time_exact t l cfg LIBM USE op (time_cost L op) m1 m2 (big_enough op EN) A1 A2 NT T1 T2 T3) in OT.
  rewrite (space_exact b t l cfg LIBM USE op (space_cost L op) m1 m2 (big_enough op EN) A1 A2 NS S1 S2 S3) in OS.
  apply val_inj in OS. auto.
Qed.
(** upper bounds *)
Lemma attempt_at_most tr op m1 m2 tc sc :
  Forall (valid b u) tr -> Forall no_none tr -> (exists rest, all_acts cfg = acts tr ++ rest) -> lawful L tr -> sane_measurements tr ->
  is_enabled cfg op -> not_overrated op (time_cost L op) -> not_overrated op (space_cost L op) ->
  observed b t l cfg tr op m1 m2 tc sc -> cle tc (class (time_cost L op)) /\ cle sc (class (space_cost L op)).
Proof.
  intros V NN P LAW SA EN NT NS (M1 & M2 & OT & OS).
  destruct (attempt_ratios tr op m1 m2 V NN P LAW EN NT NS M1 M2) as [(T1 & T2 & T3) (S1 & S2 & S3)].
  pose proof (sane_measured _ _ _ _ SA M1) as A1. pose proof (sane_measured _ _ _ _ SA M2) as A2. split.
  - rewrite OT. apply (time_at_most t l cfg LIBM USE op (time_cost L op) m1 m2 (big_enough op EN) A1 A2 NT T1 T2 T3).
  - destruct (space_at_most b t l cfg LIBM USE op (space_cost L op) m1 m2 (big_enough op EN) A1 A2 NS S1 S2 S3) as (sc' & E & C).
    rewrite OS in E. apply val_inj in E. subst sc'. exact C.
Qed.
Lemma until_within op tr : acts tr = acts_until cfg op -> exists rest, all_acts cfg = acts tr ++ rest.
Proof. intros ->. exact (until_prefix cfg op). Qed.

(** an analysis of a lawful container that complies succeeds *)
Lemma attempt_passes s tr s' x :
  (forall op, is_enabled cfg op -> not_overrated op (time_cost L op) /\ not_overrated op (space_cost L op)) ->
  exec b u (internal_analyse_crud_algorithms b t l cfg) s tr s' (Val x) -> sane_measurements tr -> lawful L tr ->
  (forall op, complies cfg L op) -> exists r, x = inl r.
Proof.
  intros NO E SA LAW CO. destruct x as [r|e]; [eauto|exfalso].
  destruct (C36_error _ _ _ _ _ _ _ _ _ _ CFG (or_intror (proj1 USE)) E) as (EN & _ & (m1 & m2 & tc & sc & O & D) & A & _). cbv zeta in D.
  pose proof (exec_valid b u _ _ _ _ _ E) as V. pose proof (exec_measured b u _ _ _ _ _ E ltac:(discriminate)) as NN.
  destruct (NO _ EN) as [N1 N2].
  destruct (attempt_at_most tr _ m1 m2 tc sc V NN (until_within _ _ A) LAW SA EN N1 N2 O) as [L1 L2]. destruct (CO _ EN) as [M1 M2].
  unfold cle, clt in *. destruct D as [(_ & D & _)|(_ & _ & D & _)]; lia.
Qed.
(** the verdict of one analysis *)
Definition is_error (op : operation) (w : what) (e : crud_error) : Prop :=
  ce_operation e = op /\ ce_analysis e = w /\
  match w with
  | Time => ce_complexity e = class (time_cost L op) /\ ce_max e = oc_max_time (cfg_of cfg op)
  | Space => ce_complexity e = class (space_cost L op) /\ ce_max e = oc_max_space (cfg_of cfg op)
  end.
Lemma attempt_fails s tr s' x op w :
  (forall op, is_enabled cfg op -> told_apart op (time_cost L op) /\ told_apart op (space_cost L op)) ->
  exec b u (internal_analyse_crud_algorithms b t l cfg) s tr s' (Val x) -> sane_measurements tr -> lawful L tr ->
  first_violation cfg L op w -> exists e, x = inr e /\ is_error op w e /\ acts tr = acts_until cfg op.
Proof.
  intros NO E SA LAW (EN & BE & D). pose proof (exec_valid b u _ _ _ _ _ E) as V. pose proof (exec_measured b u _ _ _ _ _ E ltac:(discriminate)) as NN.
  destruct x as [r|e].
  - exfalso. pose proof (internal_spec b t l u cfg s tr s' _ CFG (or_intror (proj1 USE)) E) as H. cbn in H. destruct H as (A & _ & VD).
    destruct (verdict_met b t l cfg tr op _ (VD op) EN) as (m1 & m2 & tc & sc & O & L1 & L2). destruct (NO _ EN) as [N1 N2].
    destruct (attempt_observes tr op m1 m2 tc sc V NN ltac:(exists []; rewrite A, app_nil_r; reflexivity) LAW SA EN N1 N2 O) as [-> ->].
    unfold cle, clt in *. destruct w; lia.
  - destruct (C36_error _ _ _ _ _ _ _ _ _ _ CFG (or_intror (proj1 USE)) E) as (EN' & MET & (m1 & m2 & tc & sc & O & D') & A & _). cbv zeta in D'.
    destruct (NO _ EN') as [N1 N2].
    destruct (attempt_observes tr _ m1 m2 tc sc V NN (until_within _ _ A) LAW SA EN' N1 N2 O) as [-> ->].
    assert (OP : ce_operation e = op).
    { destruct (op_dec (ce_operation e) op) as [X|X]; [exact X|exfalso].
      assert (W : In (ce_operation e) (before op) \/ In op (before (ce_operation e))).
      { clear - X. destruct (ce_operation e), op; cbn; try congruence; tauto. }
      destruct W as [W|W].
      - destruct (BE _ W EN') as [M1 M2]. unfold cle, clt in *. destruct D' as [(_ & Y & _)|(_ & _ & Y & _)]; lia.
      - destruct (MET _ W EN) as (n1 & n2 & tc & sc & O' & L1 & L2). destruct (NO _ EN) as [N1' N2'].
        destruct (attempt_observes tr op n1 n2 tc sc V NN (until_within _ _ A) LAW SA EN N1' N2' O') as [-> ->].
        unfold cle, clt in *. destruct w; lia. }
    exists e. split; [reflexivity|]. rewrite OP in *. split; [|exact A]. split; [exact OP|].
    destruct D' as [(D1 & D2 & D3 & D4)|(D1 & D2 & D3 & D4 & D5)]; destruct w; try (split; [exact D1|auto]); unfold cle, clt in *; lia.
Qed.
End Attempt.

(** the hypotheses about a test: [counts] so large that even the smallest retry (a tenth,
    C42) uses at least 12 iterations, all retries without dropped iterations *)
Definition test_ready (b : build) (cfg : crud_cfg) (max : Z) (L : laws) : Prop :=
  cfg_ok cfg /\ CrudRetry.roomy cfg /\ 0 < max < two32 /\ coherent cfg L /\
  (forall op, is_enabled cfg op -> 120 <= iterations cfg op) /\
  (forall op k n, is_enabled cfg op -> 0 <= k < max -> adapt b k (iterations cfg op) = Val n -> (oc_threads (cfg_of cfg op) | n)) /\
  (forall op, (0 < time_unit L op /\ 0 < space_unit L op)%R).

Section Test.
Context {S : Type}.
Variables (b : build) (t : tolerance) (l : libm) (u : user S) (cfg : crud_cfg) (L : laws) (max : Z).
Hypothesis LIBM : libm_accurate l.
Hypothesis CLO : closures_return u.
Hypothesis READY : test_ready b cfg max L.

Lemma adapted_ready k cfg' : 0 <= k < max -> adapted b k cfg = Val cfg' ->
  cfg_ok cfg' /\ usable cfg' /\ no_dropped cfg' /\ coherent cfg' L /\ (forall op, is_enabled cfg' op -> 12 <= iterations cfg' op) /\
  (forall op, is_enabled cfg' op <-> is_enabled cfg op) /\
  (forall op, oc_max_time (cfg_of cfg' op) = oc_max_time (cfg_of cfg op) /\ oc_max_space (cfg_of cfg' op) = oc_max_space (cfg_of cfg op)).
Proof.
  intros Hk E. destruct READY as (C & R & M & CO & BIG & DV & _).
  pose proof (adapted_u32 b k cfg cfg' ltac:(lia) C E) as C'. pose proof (adapted_usable b k cfg cfg' ltac:(lia) C R E) as U'.
  pose proof (adapted_spec _ _ _ _ E) as [W A].
  assert (B : forall op, iterations cfg op / 10 <= iterations cfg' op <= iterations cfg op + iterations cfg op / 2).
  { intros op. destruct (A op) as [A1 _]. destruct C as [_ C]. destruct (C op) as [[I1 I2] _]. destruct (R op) as [R1 _].
    apply (adapt_bounds b k); auto; [lia|]. rewrite two31_val in R1. rewrite two32_val. lia. }
  assert (NN : forall op, 0 <= iterations cfg op). { intros op. destruct C as [_ C]. destruct (C op) as [[H _] _]. exact H. }
  assert (SM : forall op, is_enabled cfg op -> 12 <= iterations cfg' op).
  { intros op EN. specialize (BIG op EN). specialize (B op). assert (12 <= iterations cfg op / 10) by (apply Z.div_le_lower_bound; lia). lia. }
  assert (EQ : forall op, is_enabled cfg' op <-> is_enabled cfg op).
  { intros op. split; intros EN; [|specialize (SM op EN); unfold is_enabled; lia].
    unfold is_enabled in *. specialize (B op). specialize (NN op). destruct (Z.eq_dec (iterations cfg op) 0) as [Z0|]; [|lia].
    rewrite Z0 in B. cbn in B. lia. }
  assert (SAME : forall op op', iterations cfg op = iterations cfg op' -> iterations cfg' op = iterations cfg' op').
  { intros op op' X. destruct (A op) as [A1 _]. destruct (A op') as [A2 _]. rewrite X, A2 in A1. injection A1 as ->. reflexivity. }
  split; [exact C'|]. split; [exact U'|]. split; [|split; [|split; [|split; [exact EQ|]]]].
  - intros op EN. destruct (A op) as [A1 A2]. rewrite A2. cbn [with_iterations oc_threads]. apply (DV op k); auto. apply EQ. exact EN.
  - destruct CO as [CO1 CO2]. split; [rewrite !EQ; exact CO1|]. intros EN X. apply EQ in EN. apply SAME, CO2; assumption.
  - intros op EN. apply SM, EQ, EN.
  - intros op. destruct (A op) as [_ ->]. split; reflexivity.
Qed.
Lemma first_config : adapted b 0 cfg = Val cfg.
Proof.
  destruct READY as (C & R & M & _). destruct (adapted_ok b 0 cfg ltac:(rewrite two32_val; lia) C R) as [cfg' E]. rewrite E. f_equal.
  pose proof (adapted_spec _ _ _ _ E) as [W A]. assert (K : forall op, cfg_of cfg' op = cfg_of cfg op).
  { intros op. destruct (A op) as [A1 ->]. assert (iterations cfg' op = iterations cfg op) as ->.
    { destruct C as [_ C]. rewrite adapt_value in A1 by (try apply (C op); rewrite two32_val; lia). cbn [Z.eqb] in A1. injection A1 as ->. reflexivity. }
    unfold with_iterations, iterations. destruct (cfg_of cfg op); reflexivity. }
  pose proof (K Create) as K1. pose proof (K Read) as K2. pose proof (K Update) as K3. pose proof (K Delete) as K4. cbn [cfg_of] in K1, K2, K3, K4.
  destruct cfg, cfg'. cbn in *. congruence.
Qed.
Lemma complies_eq cfg' : (forall op, is_enabled cfg' op <-> is_enabled cfg op) ->
  (forall op, oc_max_time (cfg_of cfg' op) = oc_max_time (cfg_of cfg op) /\ oc_max_space (cfg_of cfg' op) = oc_max_space (cfg_of cfg op)) ->
  (forall op, complies cfg' L op <-> complies cfg L op) /\ (forall op w, first_violation cfg' L op w <-> first_violation cfg L op w).
Proof.
  intros EQ MX. assert (CE : forall op, complies cfg' L op <-> complies cfg L op).
  { intros op. unfold complies. destruct (MX op) as [-> ->]. rewrite EQ. reflexivity. }
  split; [exact CE|]. intros op w. unfold first_violation. destruct (MX op) as [-> ->]. rewrite EQ.
  split; (intros (H1 & H2 & H3); split; [exact H1|]; split; [intros op' X; apply CE, H2, X|exact H3]).
Qed.

(** every outcome in a session is as expected *)
Lemma session_passes k s outs tr s' : session b t l u cfg k s outs tr s' -> 0 <= k < max ->
  (forall op, is_enabled cfg op -> not_overrated op (time_cost L op) /\ not_overrated op (space_cost L op)) ->
  (forall op, complies cfg L op) -> sane_measurements tr -> lawful L tr ->
  forall x rest, outs = Val x :: rest -> rest = [] /\ (exists r, x = inl r) /\ exists cfg', adapted b k cfg = Val cfg' /\ acts tr = all_acts cfg'.
Proof.
  intros SS Hk NO CO SA LAW x rest EO. destruct SS as [k cfg' s tr s' o E X|k cfg' s tr s1 e s2 v outs tr' s' E X TM RS SS].
  - injection EO as -> <-. split; [reflexivity|]. destruct (adapted_ready k cfg' Hk E) as (C' & U' & D' & CO' & B' & EQ & MX).
    destruct (complies_eq cfg' EQ MX) as [CE _].
    destruct (attempt_passes b t l u cfg' L LIBM C' U' CLO D' CO' B' ltac:(apply READY) s tr s' x) as [r ->]; auto.
    + intros op EN. apply NO, EQ, EN.
    + intros op. apply CE, CO.
    + split; [eauto|]. exists cfg'. split; [exact E|]. pose proof (internal_spec b t l u cfg' s tr s' _ C' (or_intror (proj1 U')) X) as H. cbn in H. apply H.
  - injection EO as <- <-. exfalso. apply sane_app in SA. apply lawful_app in LAW.
    destruct (adapted_ready k cfg' Hk E) as (C' & U' & D' & CO' & B' & EQ & MX). destruct (complies_eq cfg' EQ MX) as [CE _].
    destruct (attempt_passes b t l u cfg' L LIBM C' U' CLO D' CO' B' ltac:(apply READY) s tr s1 (inr e)) as [r Y]; try discriminate; auto.
    + intros op EN. apply NO, EQ, EN.
    + apply SA.
    + apply LAW.
    + intros op. apply CE, CO.
Qed.
Definition as_expected (op : operation) (w : what) (o : res (crud_result + crud_error)) : Prop := exists e, o = Val (inr e) /\ is_error cfg L op w e.
Lemma is_error_eq cfg' op w e : (forall op, oc_max_time (cfg_of cfg' op) = oc_max_time (cfg_of cfg op) /\ oc_max_space (cfg_of cfg' op) = oc_max_space (cfg_of cfg op)) ->
  is_error cfg' L op w e -> is_error cfg L op w e.
Proof. intros MX (H1 & H2 & H3). destruct (MX op) as [M1 M2]. rewrite M1, M2 in H3. split; [exact H1|]. split; [exact H2|exact H3]. Qed.
Lemma session_fails op w : 
  (forall op, is_enabled cfg op -> told_apart op (time_cost L op) /\ told_apart op (space_cost L op)) -> first_violation cfg L op w ->
  forall k s outs tr s', session b t l u cfg k s outs tr s' -> 0 <= k -> k + Z.of_nat (length outs) <= max -> (forall o, In o outs -> exists x, o = Val x) ->
  sane_measurements tr -> lawful L tr -> Forall (as_expected op w) outs.
Proof.
  intros NO FV k s outs tr s' SS. induction SS as [k cfg' s tr s' o E X|k cfg' s tr s1 e s2 v outs tr' s' E X TM RS SS IH]; intros K0 KM VAL SA LAW.
  - destruct (VAL o (or_introl eq_refl)) as [x ->]. cbn [length] in KM.
    destruct (adapted_ready k cfg' ltac:(lia) E) as (C' & U' & D' & CO' & B' & EQ & MX). destruct (complies_eq cfg' EQ MX) as [_ VE].
    destruct (attempt_fails b t l u cfg' L LIBM C' U' CLO D' CO' B' ltac:(apply READY) s tr s' x op w) as (e & -> & IE & _); auto.
    + intros op' EN. apply NO, EQ, EN.
    + apply VE, FV.
    + constructor; [|constructor]. exists e. split; [reflexivity|]. apply (is_error_eq cfg'); assumption.
  - cbn [length] in KM. apply sane_app in SA. apply lawful_app in LAW. destruct SA as [SA1 SA2]. destruct LAW as [LA1 LA2].
    destruct (adapted_ready k cfg' ltac:(lia) E) as (C' & U' & D' & CO' & B' & EQ & MX). destruct (complies_eq cfg' EQ MX) as [_ VE].
    constructor.
    + destruct (attempt_fails b t l u cfg' L LIBM C' U' CLO D' CO' B' ltac:(apply READY) s tr s1 (inr e) op w) as (e' & Y & IE & _); auto.
      * intros op' EN. apply NO, EQ, EN.
      * apply VE, FV.
      * injection Y as <-. exists e. split; [reflexivity|]. apply (is_error_eq cfg'); assumption.
    + apply IH; [lia|lia| | |].
      * intros o Ho. apply VAL. right. exact Ho.
      * apply sane_app in SA2. apply SA2.
      * apply lawful_app in LA2. exact (proj2 LA2).
Qed.
End Test.

(** ** C79: if every pass of a container takes the time and peak memory its laws say, within
    2%, the test passes at the first attempt when the laws comply with the user's limits ... *)
Theorem C79_compliant_containers_pass : forall S b t l (u : user S) cfg L max s tr s' o,
  libm_accurate l -> closures_return u -> test_ready b cfg max L ->
  (forall op, is_enabled cfg op -> not_overrated op (time_cost L op) /\ not_overrated op (space_cost L op)) ->
  exec b u (test_crud_algorithms b t l cfg max) s tr s' o -> sane_measurements tr -> lawful L tr ->
  (forall op, complies cfg L op) ->
  o = Val Passed /\ acts tr = all_acts cfg.
Proof.
  intros S b t l u cfg L max s tr s' o HL CLO RD NO X SA LAW CO.
  pose proof RD as (C & R & M & _). assert (M0 : 0 <= max < two32) by lia. destruct (C40_no_other_end _ _ _ _ _ _ _ _ _ _ _ M0 C R CLO X SA) as [e ->].
  pose proof (C40_retry_policy _ _ _ _ _ _ _ _ _ _ _ M X) as P.
  assert (ONE : forall outs x rest, session b t l u cfg 0 s outs tr s' -> outs = Val x :: rest -> rest = [] /\ (exists r, x = inl r) /\ acts tr = all_acts cfg).
  { intros outs x rest SS EO. destruct (session_passes b t l u cfg L max HL CLO RD 0 s outs tr s' SS ltac:(lia) NO CO SA LAW x rest EO) as (R1 & R2 & cfg' & R3 & R4).
    rewrite (first_config b cfg L max RD) in R3. injection R3 as <-. auto. }
  destruct e as [|e c|a e].
  - destruct P as (errs & r & SS & _). split; [reflexivity|]. destruct errs as [|e errs]; cbn [map app] in SS; destruct (ONE _ _ _ SS eq_refl) as (_ & _ & A); exact A.
  - destruct P as (SS & _). exfalso. destruct c as [|e1 c]; cbn [map app] in SS; destruct (ONE _ _ _ SS eq_refl) as (_ & [r Y] & _); discriminate.
  - destruct P as (errs & SS & _). exfalso. destruct errs as [|e1 errs]; cbn [map app] in SS; destruct (ONE _ _ _ SS eq_refl) as (_ & [r Y] & _); discriminate.
Qed.
Print Assumptions C79_compliant_containers_pass.

(** ... and fails when they do not, naming the first operation that does not, its true class
    and the limit: after all attempts if its time is wrong, at once if only its space is *)
Theorem C79_violations_fail : forall S b t l (u : user S) cfg L max s tr s' o op w,
  libm_accurate l -> closures_return u -> test_ready b cfg max L ->
  (forall op, is_enabled cfg op -> told_apart op (time_cost L op) /\ told_apart op (space_cost L op)) ->
  exec b u (test_crud_algorithms b t l cfg max) s tr s' o -> sane_measurements tr -> lawful L tr ->
  first_violation cfg L op w ->
  let names_it e := ce_operation e = op /\ ce_analysis e = w /\
    match w with
    | Time => ce_complexity e = class (time_cost L op) /\ ce_max e = oc_max_time (cfg_of cfg op)
    | Space => ce_complexity e = class (space_cost L op) /\ ce_max e = oc_max_space (cfg_of cfg op)
    end in
  match w with
  | Time => exists e c, o = Val (GaveUp e c) /\ Z.of_nat (length (c ++ [e])) = max /\ Forall names_it (c ++ [e])
  | Space => exists e, o = Val (SpaceMismatch 0 e) /\ names_it e /\ acts tr = acts_until cfg op
  end.
Proof.
  intros S b t l u cfg L max s tr s' o op w HL CLO RD NO X SA LAW FV. cbv zeta.
  pose proof RD as (C & R & M & _). assert (M0 : 0 <= max < two32) by lia. destruct (C40_no_other_end _ _ _ _ _ _ _ _ _ _ _ M0 C R CLO X SA) as [e ->].
  pose proof (C40_retry_policy _ _ _ _ _ _ _ _ _ _ _ M X) as P.
  assert (ALL : forall outs, session b t l u cfg 0 s outs tr s' -> Z.of_nat (length outs) <= max -> (forall o, In o outs -> exists x, o = Val x) -> Forall (as_expected cfg L op w) outs).
  { intros outs SS LE VAL. exact (session_fails b t l u cfg L max HL CLO RD op w NO FV 0 s outs tr s' SS ltac:(lia) LE VAL SA LAW). }
  assert (ERR : forall es, Forall (as_expected cfg L op w) (map failed es) -> Forall (is_error cfg L op w) es).
  { intros es F. rewrite Forall_map in F. revert F. apply Forall_impl. intros e0 (e1 & Y & IE). apply val_inj in Y. injection Y as ->. exact IE. }
  assert (VALS : forall es, forall o, In o (map failed es) -> exists x, o = Val x) by (intros es o0 Ho; apply in_map_iff in Ho; destruct Ho as (e0 & <- & _); eexists; reflexivity).
  destruct e as [|e c|a e].
  - exfalso. destruct P as (errs & r & SS & _ & LE). specialize (ALL _ SS ltac:(rewrite app_length, map_length; cbn [length]; lia)).
    assert (F : Forall (as_expected cfg L op w) (map failed errs ++ [Val (inl r)])).
    { apply ALL. intros o0 Ho. apply in_app_or in Ho. destruct Ho as [Ho|[<-|[]]]; [apply (VALS errs o0 Ho)|eexists; reflexivity]. }
    apply Forall_app in F. destruct F as [_ F]. inversion F as [|? ? (e & Y & _) _]; subst. apply val_inj in Y. discriminate.
  - destruct P as (SS & OT & LE). specialize (ALL _ SS ltac:(rewrite map_length; lia) (VALS _)). apply ERR in ALL.
    destruct w.
    + exists e, c. split; [reflexivity|]. split; [exact LE|]. exact ALL.
    + exfalso. apply Forall_app in ALL. destruct ALL as [_ ALL]. apply Forall_app in OT. destruct OT as [_ OT].
      inversion ALL as [|? ? (_ & Y & _) _]; subst. inversion OT as [|? ? Y' _]; subst. unfold on_time in Y'. congruence.
  - destruct P as (errs & SS & OT & OS & EA & LE). pose proof (ALL _ SS ltac:(rewrite map_length, app_length; cbn [length]; lia) (VALS _)) as F. apply ERR in F.
    apply Forall_app in F. destruct F as [F1 F2]. inversion F2 as [|? ? IE _]; subst. destruct IE as (I1 & I2 & I3).
    destruct w; [unfold on_space in OS; congruence|].
    destruct errs as [|e1 errs].
    + exists e. split; [reflexivity|]. split; [split; [exact I1|]; split; [exact I2|exact I3]|].
      cbn [map app] in SS. inversion SS as [k0 cfg' s0 tr0 s0' o0 E0 X0|k0 cfg' s0 tr0 s1 e1 s2 v outs tr' s0' E0 X0 T0 R0 SS0]; subst.
      * rewrite (first_config b cfg L max RD) in E0. injection E0 as <-.
        destruct (adapted_ready b cfg L max RD 0 cfg ltac:(lia) (first_config b cfg L max RD)) as (C' & U' & D' & CO' & B' & EQ & MX).
        destruct (attempt_fails b t l u cfg L HL C' U' CLO D' CO' B' ltac:(apply RD) s tr s' (inr e) _ Space NO X0 SA LAW FV) as (e' & _ & _ & A). exact A.
      * inversion SS0.
    + exfalso. inversion F1 as [|? ? (_ & Y & _) _]; subst. inversion OT as [|? ? Y' _]; subst. unfold on_time in Y'. congruence.
Qed.
Print Assumptions C79_violations_fail.
