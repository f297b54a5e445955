(** * C107: measurements in custom units and several threads. *)
From Coq Require Import List ZArith String Lia.
From Verif Require Import Machine Floats Present PropsPresent CacheConc.
Import ListNotations.
Open Scope nat_scope.

(** ** Specification: no call begins before the previous one ended; [inside] is the thread in a call *)
Fixpoint apart (inside : option nat) (es : list cache_event) : Prop :=
  match es with
  | [] => True
  | CBegin t _ _ :: es => inside = None /\ apart (Some t) es
  | CEnd t _ _ _ :: es => inside = Some t /\ apart None es
  | CAssign _ :: es => apart inside es
  end.

Section Proofs.
Variable mk : string -> table.
Definition returned (es : list cache_event) (v : f64) (u : string) (m : slice_measurement) : Prop := exists t, In (CEnd t v u m) es.
(** the state after the events [es], with [inside] in a call *)
Record ok (inside : option nat) (es : list cache_event) (s : cache_state) : Prop := Ok {
  ok_threads : forall t p, nth_error (cs_threads s) t = Some p -> p <> Outside -> inside = Some t;
  ok_none : forall t v u, nth_error (cs_threads s) t = Some (SawNone v u) -> cs_map s = None;
  ok_ready : forall t v u, nth_error (cs_threads s) t = Some (Ready v u) -> cs_map s <> None;
  ok_heap : forall m u a, cs_map s = Some m -> find_unit u m = Some a -> nth_error (cs_heap s) a = Some (Some (mk u));
  ok_past : forall v u m, returned es v u m -> exists mp, cs_map s = Some mp /\ find_unit u mp = Some (sm_table m) /\ sm_value m = v }.

Lemma ok_init n : ok None [] (cache_init n).
Proof.
  constructor; cbn.
  - intros t p H N. apply nth_error_In, repeat_spec in H. contradiction.
  - reflexivity.
  - intros t v u H. apply nth_error_In, repeat_spec in H. discriminate.
  - discriminate.
  - intros v u m (t & []).
Qed.
Lemma returned_snoc es e v u m : returned (es ++ [e]) v u m -> returned es v u m \/ exists t, e = CEnd t v u m.
Proof. intros (t & H). apply in_app_or in H. destruct H as [H|[H|[]]]; [left; exists t; exact H|right; eauto]. Qed.
Lemma upd_cases {A} t (p : A) l t' p' : nth_error (upd t p l) t' = Some p' -> (t' = t /\ p' = p) \/ (t' <> t /\ nth_error l t' = Some p').
Proof.
  intros H. destruct (Nat.eq_dec t t') as [<-|N].
  - left. split; [reflexivity|]. assert (L : t < length l) by (rewrite <- (upd_length t p l); apply nth_error_Some; congruence).
    rewrite nth_error_upd_eq in H by exact L. injection H as <-. reflexivity.
  - right. rewrite nth_error_upd_neq in H by exact N. auto.
Qed.
Lemma find_map_bound inside es s m u a : ok inside es s -> cs_map s = Some m -> find_unit u m = Some a -> a < length (cs_heap s).
Proof. intros O M F. apply nth_error_Some. rewrite (ok_heap _ _ _ O m u a M F). discriminate. Qed.

Lemma step_ok inside past s e s1 es : ok inside past s -> cache_step mk s e s1 -> apart inside (e :: es) ->
  exists inside', ok inside' (past ++ [e]) s1 /\ apart inside' es.
Proof.
  intros O ST AP. destruct O as [OT ON OR OH OP].
  assert (PAST : forall v u m, returned (past ++ [e]) v u m -> (forall t, e <> CEnd t v u m) ->
                 exists mp, cs_map s = Some mp /\ find_unit u mp = Some (sm_table m) /\ sm_value m = v).
  { intros v u m H N. apply returned_snoc in H. destruct H as [H|(t & H)]; [apply OP; exact H|destruct (N t H)]. }
  destruct ST as [s t v u T|s t v u T|s t v u m a T M F|s t v u m T M F]; cbn [apart] in AP.
  - destruct AP as [-> AP]. exists (Some t). split; [|exact AP].
    assert (OUT : forall t' p, nth_error (cs_threads s) t' = Some p -> p = Outside).
    { intros t' p H. destruct p; [reflexivity| |]; specialize (OT _ _ H ltac:(discriminate)); discriminate. }
    constructor; cbn.
    + intros t' p H N. apply upd_cases in H. destruct H as [[-> _]|[_ H]]; [reflexivity|]. destruct (N (OUT _ _ H)).
    + intros t' v' u' H. apply upd_cases in H. destruct H as [[_ H]|[_ H]]; [|apply OUT in H; discriminate]. destruct (cs_map s); [discriminate|reflexivity].
    + intros t' v' u' H. apply upd_cases in H. destruct H as [[_ H]|[_ H]]; [|apply OUT in H; discriminate]. destruct (cs_map s); discriminate.
    + exact OH.
    + intros v' u' m H. apply PAST; [exact H|discriminate].
  - exists inside. split; [|exact AP]. pose proof (ON _ _ _ T) as M0. rewrite M0. cbn [free_all fold_left]. pose proof (OT _ _ T ltac:(discriminate)) as IN.
    constructor; cbn.
    + intros t' p H N. apply upd_cases in H. destruct H as [[-> _]|[_ H]]; [exact IN|apply (OT _ _ H N)].
    + intros t' v' u' H. apply upd_cases in H. destruct H as [[_ H]|[N H]]; [discriminate|]. pose proof (OT _ _ H ltac:(discriminate)). congruence.
    + discriminate.
    + intros m u' a H. injection H as <-. discriminate.
    + intros v' u' m H. destruct (PAST v' u' m H ltac:(discriminate)) as (mp & X & _). congruence.
  - destruct AP as [-> AP]. exists None. split; [|exact AP].
    assert (OUT : forall t' p, t' <> t -> nth_error (cs_threads s) t' = Some p -> p = Outside).
    { intros t' p N H. destruct p; [reflexivity| |]; specialize (OT _ _ H ltac:(discriminate)); congruence. }
    constructor; cbn.
    + intros t' p H N. apply upd_cases in H. destruct H as [[_ ->]|[X H]]; [contradiction|]. destruct (N (OUT _ _ X H)).
    + intros t' v' u' H. apply upd_cases in H. destruct H as [[_ H]|[X H]]; [discriminate|]. apply (OUT _ _ X) in H. discriminate.
    + intros t' v' u' H. apply upd_cases in H. destruct H as [[_ H]|[X H]]; [discriminate|]. apply (OUT _ _ X) in H. discriminate.
    + exact OH.
    + intros v' u' m' H. apply returned_snoc in H. destruct H as [H|(t' & H)]; [apply OP; exact H|]. injection H as <- <- <- <-. exists m. auto.
  - destruct AP as [-> AP]. exists None. split; [|exact AP].
    assert (OUT : forall t' p, t' <> t -> nth_error (cs_threads s) t' = Some p -> p = Outside).
    { intros t' p N H. destruct p; [reflexivity| |]; specialize (OT _ _ H ltac:(discriminate)); congruence. }
    constructor; cbn.
    + intros t' p H N. apply upd_cases in H. destruct H as [[_ ->]|[X H]]; [contradiction|]. destruct (N (OUT _ _ X H)).
    + intros t' v' u' H. apply upd_cases in H. destruct H as [[_ H]|[X H]]; [discriminate|]. apply (OUT _ _ X) in H. discriminate.
    + discriminate.
    + intros m' u' a H FU. injection H as <-. cbn [find_unit] in FU. destruct (String.eqb_spec u' u) as [->|NE].
      * injection FU as <-. rewrite nth_error_app2, Nat.sub_diag by lia. reflexivity.
      * pose proof (OH m u' a M FU) as X. rewrite nth_error_app1; [exact X|]. apply nth_error_Some. congruence.
    + intros v' u' m' H. apply returned_snoc in H. eexists. split; [reflexivity|]. cbn [find_unit]. destruct H as [H|(t' & H)].
      * destruct (OP v' u' m' H) as (mp & E & FU & V). rewrite M in E. injection E as <-. destruct (String.eqb_spec u' u) as [->|NE]; [congruence|auto].
      * injection H as <- <- <- <-. rewrite String.eqb_refl. auto.
Qed.
Lemma run_ok s es s' : cache_run mk s es s' -> forall inside past, ok inside past s -> apart inside es -> exists inside', ok inside' (past ++ es) s'.
Proof.
  induction 1 as [s|s e s1 es s2 ST R IH]; intros inside past O AP; [exists inside; rewrite app_nil_r; exact O|].
  destruct (step_ok _ _ _ _ _ es O ST AP) as (i1 & O1 & AP1). destruct (IH _ _ O1 AP1) as (i2 & O2). rewrite <- app_assoc in O2. eauto.
Qed.
End Proofs.

(** ** Calls that do not overlap: whoever makes them, every measurement ever returned shows its value in its unit,
    at any later time, and measurements in the same unit share one table *)
Theorem C107_calls_apart : forall mk threads es s,
  cache_run mk (cache_init threads) es s -> apart None es ->
  (forall t v u m, In (CEnd t v u m) es -> display_slice s m = Some (display_table (mk u) v)) /\
  (forall t v u m t' v' m', In (CEnd t v u m) es -> In (CEnd t' v' u m') es -> sm_table m = sm_table m').
Proof.
  intros mk n es s R AP. destruct (run_ok mk _ _ _ R None [] (ok_init mk n) AP) as (i & O). cbn [app] in O. split.
  - intros t v u m I. destruct (ok_past _ _ _ _ O v u m (ex_intro _ t I)) as (mp & M & F & V). unfold display_slice.
    rewrite (ok_heap _ _ _ _ O mp u _ M F), V. reflexivity.
  - intros t v u m t' v' m' I I'. destruct (ok_past _ _ _ _ O v u m (ex_intro _ t I)) as (mp & M & F & V).
    destruct (ok_past _ _ _ _ O v' u m' (ex_intro _ t' I')) as (mp' & M' & F' & V'). congruence.
Qed.
Print Assumptions C107_calls_apart.

(** what it means for the two functions: the same texts as the very first call's (C52, C53) *)
Theorem C107_units : forall threads es s, apart None es ->
  (cache_run unit_table (cache_init threads) es s ->
     forall t v u m, In (CEnd t v u m) es -> display_slice s m = first_unit_display v u) /\
  (cache_run unit_rate_table (cache_init threads) es s ->
     forall t v u m, In (CEnd t v u m) es -> display_slice s m = first_unit_rate_display v u).
Proof.
  intros n es s AP. split; intros R t v u m I; rewrite (proj1 (C107_calls_apart _ _ _ _ R AP) t v u m I).
  - unfold first_unit_display, custom_unit_measurement, display. cbn [deref pm_scale ca_unit no_caches get_or_insert or_insert lookup]. rewrite String.eqb_refl. reflexivity.
  - unfold first_unit_rate_display, custom_unit_per_second_measurement, display. cbn [deref pm_scale ca_unit_rate no_caches get_or_insert or_insert lookup]. rewrite String.eqb_refl. reflexivity.
Qed.
Print Assumptions C107_units.

(** a call can always be completed *)
Theorem C107_completes : forall mk threads es s t v u,
  cache_run mk (cache_init threads) es s -> nth_error (cs_threads s) t = Some Outside ->
  exists es' m s', cache_run mk s (CBegin t v u :: es' ++ [CEnd t v u m]) s' /\ length es' <= 1.
Proof.
  intros mk n es s t v u _ T. assert (L : t < length (cs_threads s)) by (apply nth_error_Some; congruence).
  assert (FIN : forall s m, cs_map s = Some m -> nth_error (cs_threads s) t = Some (Ready v u) -> exists x s', cache_step mk s (CEnd t v u x) s').
  { intros s0 m M R. destruct (find_unit u m) as [a|] eqn:F; eexists _, _; [eapply cst_hit; eassumption|eapply cst_miss; eassumption]. }
  destruct (cs_map s) as [m|] eqn:M.
  - pose proof (cst_begin mk s t v u T) as B. rewrite M in B.
    destruct (FIN (set_progress t (Ready v u) s) m M) as (x & s' & E); [cbn; apply nth_error_upd_eq, L|].
    exists [], x, s'. split; [|cbn; lia]. eapply crun_step; [exact B|]. eapply crun_step; [exact E|constructor].
  - pose proof (cst_begin mk s t v u T) as B. rewrite M in B.
    assert (T1 : nth_error (cs_threads (set_progress t (SawNone v u) s)) t = Some (SawNone v u)) by (cbn; apply nth_error_upd_eq, L).
    pose proof (cst_assign mk _ t v u T1) as A.
    match type of A with cache_step _ _ _ ?s2 => destruct (FIN s2 [] eq_refl) as (x & s' & E); [cbn; apply nth_error_upd_eq; rewrite upd_length; exact L|] end.
    exists [CAssign t], x, s'. split; [|cbn; lia]. eapply crun_step; [exact B|]. eapply crun_step; [exact A|]. eapply crun_step; [exact E|constructor].
Qed.
Print Assumptions C107_completes.

(** ** Two first calls that overlap: the measurement returned to the one is shown from freed memory,
    whatever the units, the values and the number of threads *)
Theorem C107_refuted_for_overlapping_calls : forall mk threads (v1 v2 : f64) (u1 u2 : string), 2 <= threads ->
  exists es m s, cache_run mk (cache_init threads) es s /\ In (CEnd 1 v2 u2 m) es /\
    (forall t, nth_error (cs_threads s) t = Some Outside \/ threads <= t) /\ display_slice s m = None.
Proof.
  intros mk [|[|n]] v1 v2 u1 u2 L; [lia|lia|].
  exists [CBegin 0 v1 u1; CBegin 1 v2 u2; CAssign 1; CEnd 1 v2 u2 (Measured v2 0); CAssign 0; CEnd 0 v1 u1 (Measured v1 1)], (Measured v2 0).
  exists (CacheState (Some [(u1, 1)]) [None; Some (mk u1)] (repeat Outside (S (S n)))).
  split; [|split; [cbn; auto 8|split; [|reflexivity]]].
  - eapply crun_step; [apply cst_begin; reflexivity|]. eapply crun_step; [apply cst_begin; reflexivity|].
    eapply crun_step; [eapply cst_assign; reflexivity|]. eapply crun_step; [eapply cst_miss; reflexivity|].
    eapply crun_step; [eapply cst_assign; reflexivity|]. eapply crun_step; [eapply cst_miss; reflexivity|]. apply crun_nil.
  - intros t. cbn [cs_threads]. destruct (Nat.ltb_spec t (S (S n))) as [H|H]; [left|right; exact H].
    apply nth_error_repeat. exact H.
Qed.
Print Assumptions C107_refuted_for_overlapping_calls.

(** calls of two threads that take turns: hypotheses of C107_calls_apart *)
Example C107_example :
  exists es s, cache_run unit_table (cache_init 2) es s /\ apart None es /\
    exists m m', In (CEnd 0 (lit 7) "files" m) es /\ In (CEnd 1 (lit 9) "files" m') es /\ m <> m' /\ sm_table m = sm_table m'.
Proof.
  eexists [CBegin 0 (lit 7) "files"; CAssign 0; CEnd 0 (lit 7) "files" (Measured (lit 7) 0); CBegin 1 (lit 9) "files"; CEnd 1 (lit 9) "files" (Measured (lit 9) 0)]%string, _.
  split; [|split; [cbn; repeat split; reflexivity|]].
  - eapply crun_step; [apply cst_begin; reflexivity|]. eapply crun_step; [eapply cst_assign; reflexivity|]. eapply crun_step; [eapply cst_miss; reflexivity|].
    eapply crun_step; [apply cst_begin; reflexivity|]. eapply crun_step; [eapply cst_hit; reflexivity|]. apply crun_nil.
  - exists (Measured (lit 7) 0), (Measured (lit 9) 0). split; [cbn; auto|]. split; [cbn; auto 8|]. split; [|reflexivity].
    intros H. assert (X : f64_leb (sm_value (Measured (lit 7) 0)) (lit 7) = f64_leb (sm_value (Measured (lit 9) 0)) (lit 7)) by (rewrite H; reflexivity).
    vm_compute in X. discriminate.
Qed.
