(** * Proof rules for programs asking the builder's questions. *)
From Coq Require Import List ZArith Lia Bool String.
From Verif Require Import Machine Complexity Analysis AnalysisF64d AllocSpec Report ReportProofs Crud CrudSpec CrudProofs Free StandardSpec Present PropsReport Builder BuilderSpec.
Import ListNotations.
Open Scope Z_scope.

Section Rules.
Context {F D X S : Type} (w : world (@bans F D X) S).
Notation P := (fprog (@bans F D X)).
Notation call := (@bcall F D X).
Lemma bcalls_app a c : @bcalls F D X (a ++ c) = bcalls a ++ bcalls c. Proof. apply flat_map_app. Qed.
Definition calls_sane (c : list call) : Prop := forall f d m d', In (Ran f d (Some (m, d'))) c -> sane m.
Lemma calls_sane_app a c : calls_sane (a ++ c) <-> calls_sane a /\ calls_sane c.
Proof.
  split; [intros H; split; intros f d m d' I; apply (H f d m d'), in_or_app; auto|].
  intros [H1 H2] f d m d' I. apply in_app_or in I. destruct I; eauto.
Qed.

(** every execution ends with [Q] of the calls and the value, or panics where the world,
    the measurements or [H] are at fault *)
Definition spec {A} (H : Prop) (m : P A) (Q : list call -> A -> Prop) : Prop :=
  forall s tr s' o, fexec w m s tr s' o ->
    (exists v, o = Val v /\ Q (bcalls tr) v) \/
    ((exists p, o = Panic p) /\ ~ (returns w /\ calls_sane (bcalls tr) /\ H)).
Lemma spec_ret {A} H (a : A) (Q : list call -> A -> Prop) : Q [] a -> spec H (FRet a) Q.
Proof. intros HQ s tr s' o (-> & -> & ->). left. exists a. auto. Qed.
Lemma spec_bind {A B} H (m : P A) (k : A -> P B) Q1 Q :
  spec H m Q1 ->
  (forall c1 x, Q1 c1 x -> spec (H /\ calls_sane c1) (k x) (fun c2 v => Q (c1 ++ c2) v)) ->
  spec H (fbind m k) Q.
Proof.
  intros S1 S2 s tr s' o E. apply fexec_bind in E. destruct E as [(x & tr1 & s1 & tr2 & E1 & E2 & ->)|(p & E1 & ->)].
  - destruct (S1 _ _ _ _ E1) as [(v & V & Q1v)|([p V] & _)]; [|discriminate]. injection V as <-.
    destruct (S2 _ _ Q1v _ _ _ _ E2) as [(v & -> & Qv)|(V & N)].
    + left. exists v. rewrite bcalls_app. auto.
    + right. split; [exact V|]. rewrite bcalls_app, calls_sane_app. tauto.
  - destruct (S1 _ _ _ _ E1) as [(v & V & _)|(_ & N)]; [discriminate|]. right. split; [eauto|exact N].
Qed.
Lemma spec_weaken {A} H (m : P A) (Q Q' : list call -> A -> Prop) : spec H m Q -> (forall c v, Q c v -> Q' c v) -> spec H m Q'.
Proof. intros S1 W s tr s' o E. destruct (S1 _ _ _ _ E) as [(v & -> & Qv)|N]; [left; eauto|right; exact N]. Qed.
Lemma spec_out H i : spec H (b_out i) (fun c _ => c = []).
Proof.
  intros s tr s' o [([] & s1 & tr' & W & (-> & -> & ->) & ->)|(W & -> & ->)].
  - left. exists tt. auto.
  - right. split; [eauto|]. intros (R & _). apply (R _ _ _ _ W). reflexivity.
Qed.
Lemma spec_run0 H f d : spec H (ask (Ans := bans) (BRun f d)) (fun c x => c = [Ran f d (Some x)]).
Proof.
  intros s tr s' o [(a & s1 & tr' & W & (-> & -> & ->) & ->)|(W & -> & ->)].
  - left. exists a. auto.
  - right. split; [eauto|]. intros (R & _). apply (R _ _ _ _ W). reflexivity.
Qed.
Lemma spec_before H f d : spec H (ask (Ans := bans) (BBefore f d)) (fun c x => c = [Before f d (Some x)]).
Proof.
  intros s tr s' o [(a & s1 & tr' & W & (-> & -> & ->) & ->)|(W & -> & ->)].
  - left. exists a. auto.
  - right. split; [eauto|]. intros (R & _). apply (R _ _ _ _ W). reflexivity.
Qed.
Lemma spec_after H f d x : spec H (ask (Ans := bans) (BAfter f d x)) (fun c p => c = [After f d x (Some p)]).
Proof.
  intros s tr s' o [(a & s1 & tr' & W & (-> & -> & ->) & ->)|(W & -> & ->)].
  - left. exists a. auto.
  - right. split; [eauto|]. intros (R & _). apply (R _ _ _ _ W). reflexivity.
Qed.
Lemma spec_assert0 H f d : spec H (ask (Ans := bans) (BAssert f d)) (fun c _ => c = [Asserted f d (Some tt)]).
Proof.
  intros s tr s' o [([] & s1 & tr' & W & (-> & -> & ->) & ->)|(W & -> & ->)].
  - left. exists tt. auto.
  - right. split; [eauto|]. intros (R & _). apply (R _ _ _ _ W). reflexivity.
Qed.
Lemma spec_lift {A} (H : Prop) (m : res A) (ok : Prop) : (H -> exists a, m = Val a) -> spec H (flift m) (fun c a => c = [] /\ m = Val a).
Proof.
  intros OK s tr s' o E. destruct m as [a|p|]; cbn [flift] in E; destruct E as (-> & -> & ->).
  - left. exists a. auto.
  - right. split; [eauto|]. intros (_ & _ & h). destruct (OK h). discriminate.
  - right. split; [eauto|]. intros (_ & _ & h). destruct (OK h). discriminate.
Qed.
Lemma spec_expect {A} (H : Prop) (o : option A) : (H -> o <> None) -> spec H (expect o) (fun c a => c = [] /\ o = Some a).
Proof.
  intros OK s tr s' r E. destruct o as [a|]; cbn [expect] in E; destruct E as (-> & -> & ->).
  - left. exists a. auto.
  - right. split; [eauto|]. intros (_ & _ & h). destruct (OK h). reflexivity.
Qed.
Lemma spec_run H b pre suf f d : spec H (run_verbosely b pre suf f d) (fun c x => c = [Ran f d (Some x)]).
Proof.
  unfold run_verbosely. eapply spec_bind; [apply spec_run0|]. intros c x ->.
  eapply spec_bind; [apply (spec_lift _ _ True)|].
  - intros [_ SA]. destruct x as [m d']. destruct (SA f d m d' (or_introl eq_refl)) as (_ & W & _). destruct (fmt_ok b (pr_space m) 1 W) as [y Y]. exists y. exact Y.
  - intros c y [-> _]. eapply spec_bind; [apply spec_out|]. intros c u ->. apply spec_ret. reflexivity.
Qed.
Lemma spec_assertion H f d : spec H (run_assertion f d) (fun c _ => c = asserted f d).
Proof. destruct f as [f|]; cbn [run_assertion asserted]; [apply spec_assert0|apply spec_ret; reflexivity]. Qed.
(** [match f with Some f => run ... | None => otherwise] *)
Lemma spec_optionally H b pre suf f arg otherwise :
  spec H (match f with Some f => fbind (run_verbosely b pre suf f arg) (fun x => FRet (Some (snd x))) | None => FRet otherwise end)
       (fun c d => optionally f arg otherwise c d).
Proof.
  destruct f as [f|]; [|apply spec_ret; cbn; auto].
  eapply spec_bind; [apply spec_run|]. intros c [m d] ->. apply spec_ret. cbn. eauto.
Qed.
End Rules.

Section Attempt.
Context {F D X S : Type} (w : world (@bans F D X) S) (bd : build) (t : tolerance) (l : libm) (b : builder F X).

Definition prepare (previous : option D) : fprog (@bans F D X) (option D) :=
  fbind match b_reset b with
        | Some reset => fbind (run_verbosely bd "  Resetting: " ";" reset previous) (fun x => FRet (Some (snd x)))
        | None => FRet None
        end (fun d0 =>
  match b_warmup b with
  | Some warmup => fbind (run_verbosely bd "  Warming up: " ";" warmup d0) (fun x =>
      match b_reset b with
      | Some reset => fbind (run_verbosely bd "  Resetting again: " ";" reset None) (fun y => FRet (Some (snd y)))
      | None => FRet (Some (snd x))
      end)
  | None => FRet d0
  end).
Lemma spec_prepare H previous : spec w H (prepare previous) (fun c d => preparation b previous c d).
Proof.
  unfold prepare. eapply spec_bind; [apply spec_optionally|]. intros c0 d0 O. unfold preparation.
  destruct (b_warmup b) as [wu|].
  - eapply spec_bind; [apply spec_run|]. intros c [m dw] ->. cbn [snd]. eapply spec_weaken; [apply spec_optionally|].
    intros c1 d1 O1. exists c0, d0. split; [exact O|]. exists m, dw, c1. auto.
  - apply spec_ret. rewrite app_nil_r. exists c0, d0. auto.
Qed.
Lemma fbind_assoc_exec {A B C} (m : fprog (@bans F D X) A) (f : A -> fprog (@bans F D X) B) (g : B -> fprog (@bans F D X) C) s tr s' o :
  fexec w (fbind m (fun x => fbind (f x) g)) s tr s' o <-> fexec w (fbind (fbind m f) g) s tr s' o.
Proof.
  revert s tr s' o. induction m as [a|p|q k IH]; intros s tr s' o; cbn [fbind]; [reflexivity|reflexivity|]. cbn [fexec]. split.
  - intros [(a & s1 & tr' & W & E & ->)|E]; [left|right; exact E]. exists a, s1, tr'. split; [exact W|]. split; [apply IH, E|reflexivity].
  - intros [(a & s1 & tr' & W & E & ->)|E]; [left|right; exact E]. exists a, s1, tr'. split; [exact W|]. split; [apply IH, E|reflexivity].
Qed.
Lemma spec_assoc {A B C} H (m : fprog (@bans F D X) A) (f : A -> fprog (@bans F D X) B) (g : B -> fprog (@bans F D X) C) Q :
  spec w H (fbind (fbind m f) g) Q -> spec w H (fbind m (fun x => fbind (f x) g)) Q.
Proof. intros S1 s tr s' o E. apply fbind_assoc_exec in E. eauto. Qed.

Lemma spec_attempt previous : spec w (usable b) (raw_analyse bd t l b previous)
  (fun c v => exists m1 m2 last, attempt b previous c m1 m2 last /\ b_verdict bd t l b m1 m2 last v).
Proof.
  unfold raw_analyse. eapply spec_bind; [apply spec_out|]. intros c u ->. apply spec_assoc. fold (prepare previous).
  eapply spec_bind; [apply spec_prepare|]. intros c0 d0 PR.
  eapply spec_bind; [apply spec_expect; intros (((U & _) & _) & _); exact U|]. intros c p1 (-> & P1).
  eapply spec_bind; [apply spec_expect; intros ((((_ & U & _) & _) & _) & _); exact U|]. intros c p2 (-> & P2).
  eapply spec_bind; [apply spec_run|]. intros c [m1 d1] ->. cbn [fst snd].
  eapply spec_bind; [apply spec_assertion|]. intros c _ ->.
  eapply spec_bind; [apply (spec_optionally w _ bd _ _ (b_reset b) (Some d1) (Some d1))|]. intros c1 d2 O.
  assert (D2 : exists x, d2 = Some x). { unfold optionally in O. destruct (b_reset b); [destruct O as (? & x & _ & ->); eauto|destruct O as [_ ->]; eauto]. }
  destruct D2 as [x2 ->].
  eapply spec_bind; [apply spec_run|]. intros c [m2 d3] ->. cbn [fst snd].
  eapply spec_bind; [apply spec_assertion|]. intros c _ ->. cbv zeta.
  set (tc := analyse_time_complexity _ _ _ _ _ _).
  eapply spec_bind; [apply (spec_lift _ _ _ True)|].
  { intros H. assert (S1 : sane m1) by (assert (C : calls_sane (X := X) [Ran p1 d0 (Some (m1, d1))]) by tauto; apply (C p1 d0 m1 d1); left; reflexivity).
    assert (S2 : sane m2) by (assert (C : calls_sane (X := X) [Ran p2 (Some x2) (Some (m2, d3))]) by tauto; apply (C p2 (Some x2) m2 d3); left; reflexivity).
    destruct S1 as (_ & W1 & _). destruct S2 as (_ & W2 & _).
    destruct (max_growth_ok bd _ W1) as [g1 G1]. destruct (max_growth_ok bd _ W2) as [g2 G2].
    unfold analyse_space_complexity. rewrite G1, G2. cbn [bind]. eexists. reflexivity. }
  intros c sc (-> & HS). eapply spec_bind; [apply spec_out|]. intros c _ ->.
  eapply spec_bind; [apply (spec_lift _ _ _ True)|].
  { intros H. assert (S1 : sane m1) by (assert (C : calls_sane (X := X) [Ran p1 d0 (Some (m1, d1))]) by tauto; apply (C p1 d0 m1 d1); left; reflexivity).
    assert (S2 : sane m2) by (assert (C : calls_sane (X := X) [Ran p2 (Some x2) (Some (m2, d3))]) by tauto; apply (C p2 (Some x2) m2 d3); left; reflexivity).
    assert (U : usable b) by tauto. destruct U as (_ & _ & N1 & N2). destruct S1 as (D1 & W1 & S1). destruct S2 as (D2 & W2 & S2).
    destruct (C46_nonzero_set_sizes_do_not_panic bd _ _ _ _ _ _ tc sc D1 D2 N1 N2 W1 W2 S1 S2) as [r R]. exists r. exact R. }
  intros c rep (-> & HR). eapply spec_bind; [apply spec_out|]. intros c _ ->.
  assert (AT : forall c2, c2 = [] -> attempt b previous ([] ++ c0 ++ [] ++ [] ++ [Ran p1 d0 (Some (m1, d1))] ++ asserted (b_assert1 b) d1 ++ c1 ++ [Ran p2 (Some x2) (Some (m2, d3))] ++ asserted (b_assert2 b) d3 ++ [] ++ [] ++ [] ++ [] ++ c2) m1 m2 d3).
  { intros c2 ->. exists c0, d0, p1, p2, d1, c1, x2. rewrite !app_nil_r. cbn [app]. repeat split; assumption. }
  destruct (b_space b) as [es|] eqn:ES; [destruct (worse_than sc es) eqn:WS|].
  - eapply spec_bind; [apply spec_out|]. intros c _ ->. apply spec_ret. exists m1, m2, d3. split; [apply AT; reflexivity|].
    exists tc, sc. split; [reflexivity|]. split; [exact HS|]. left. exists es. apply worse_than_spec in WS. auto.
  - apply not_worse_than_spec in WS. assert (WI : within sc (b_space b)) by (rewrite ES; intros e [= <-]; exact WS).
    destruct (b_time b) as [et|] eqn:ET; [destruct (worse_than tc et) eqn:WT|].
    + eapply spec_bind; [apply spec_out|]. intros c _ ->. apply spec_ret. exists m1, m2, d3. split; [apply AT; reflexivity|].
      exists tc, sc. split; [reflexivity|]. split; [exact HS|]. right. left. split; [exact WI|]. exists et. apply worse_than_spec in WT. auto.
    + apply spec_ret. exists m1, m2, d3. split; [apply AT; reflexivity|]. exists tc, sc. split; [reflexivity|]. split; [exact HS|].
      right. right. split; [exact WI|]. split; [|reflexivity]. apply not_worse_than_spec in WT. rewrite ET. intros e [= <-]. exact WT.
    + apply spec_ret. exists m1, m2, d3. split; [apply AT; reflexivity|]. exists tc, sc. split; [reflexivity|]. split; [exact HS|].
      right. right. split; [exact WI|]. split; [|reflexivity]. rewrite ET. intros e [=].
  - assert (WI : within sc (b_space b)) by (rewrite ES; intros e [=]).
    destruct (b_time b) as [et|] eqn:ET; [destruct (worse_than tc et) eqn:WT|].
    + eapply spec_bind; [apply spec_out|]. intros c _ ->. apply spec_ret. exists m1, m2, d3. split; [apply AT; reflexivity|].
      exists tc, sc. split; [reflexivity|]. split; [exact HS|]. right. left. split; [exact WI|]. exists et. apply worse_than_spec in WT. auto.
    + apply spec_ret. exists m1, m2, d3. split; [apply AT; reflexivity|]. exists tc, sc. split; [reflexivity|]. split; [exact HS|].
      right. right. split; [exact WI|]. split; [|reflexivity]. apply not_worse_than_spec in WT. rewrite ET. intros e [= <-]. exact WT.
    + apply spec_ret. exists m1, m2, d3. split; [apply AT; reflexivity|]. exists tc, sc. split; [reflexivity|]. split; [exact HS|].
      right. right. split; [exact WI|]. split; [|reflexivity]. rewrite ET. intros e [=].
Qed.
End Attempt.

(** programs that differ only in the values they return *)
Section Sim.
Context {Q : Type} {Ans : Q -> Type}.
Inductive fsim {A B} (R : A -> B -> Prop) : fprog Ans A -> fprog Ans B -> Prop :=
| sim_ret a b : R a b -> fsim R (FRet a) (FRet b)
| sim_stop p : fsim R (FStop p) (FStop p)
| sim_ask q k k' : (forall a, fsim R (k a) (k' a)) -> fsim R (FAsk q k) (FAsk q k').
Lemma fsim_refl {A} (m : fprog Ans A) : fsim eq m m.
Proof. induction m; constructor; auto. Qed.
Lemma fsim_bind {A B A' B'} (R : A -> B -> Prop) (R' : A' -> B' -> Prop) m n k k' :
  fsim R m n -> (forall a b, R a b -> fsim R' (k a) (k' b)) -> fsim R' (fbind m k) (fbind n k').
Proof. intros H HK. induction H as [a b H|p|q c c' _ IH]; cbn [fbind]; [auto|constructor|constructor; exact IH]. Qed.
Definition res_rel {A B} (R : A -> B -> Prop) (x : res A) (y : res B) : Prop :=
  match x, y with Val a, Val b => R a b | Panic p, Panic q => p = q | Spin, Spin => True | _, _ => False end.
Lemma fsim_exec {A B S} (w : world Ans S) (R : A -> B -> Prop) m n : fsim R m n -> forall s tr s' o,
  fexec w m s tr s' o -> exists o', fexec w n s tr s' o' /\ res_rel R o o'.
Proof.
  induction 1 as [a b H|p|q c c' _ IH]; intros s tr s' o E.
  - destruct E as (-> & -> & ->). exists (Val b). split; [repeat split|exact H].
  - destruct E as (-> & -> & ->). exists (Panic p). split; repeat split.
  - destruct E as [(a & s1 & tr' & W & E & ->)|(W & -> & ->)].
    + destruct (IH a _ _ _ _ E) as (o' & E' & RR). exists o'. split; [|exact RR]. left. eauto 8.
    + exists (Panic PClosure). split; [right; auto|reflexivity].
Qed.
Lemma fsim_eq_exec {A S} (w : world Ans S) (m n : fprog Ans A) s tr s' o : fsim eq m n -> fexec w m s tr s' o -> fexec w n s tr s' o.
Proof.
  intros H E. destruct (fsim_exec w eq m n H _ _ _ _ E) as (o' & E' & RR). destruct o, o'; cbn in RR; try contradiction; subst; exact E'.
Qed.
Lemma fsim_sym_eq {A} (m n : fprog Ans A) : fsim eq m n -> fsim eq n m.
Proof. induction 1; constructor; auto. Qed.
Section Retry.
Context {I I' O O' E : Type} (RI : I -> I' -> Prop) (RO : O -> O' -> Prop).
Definition rr_rel (x : retry_result I O E) (y : retry_result I' O' E) : Prop :=
  match x, y with
  | ROk o, ROk o' => RO o o'
  | RTransient i e, RTransient i' e' => RI i i' /\ e = e'
  | RFatal i e, RFatal i' e' => RI i i' /\ e = e'
  | _, _ => False
  end.
Definition rs_rel (x : resolved O E) (y : resolved O' E) : Prop :=
  match x, y with
  | ResOk o, ResOk o' => RO o o'
  | ResFatal e, ResFatal e' => e = e'
  | ResRecovered es o, ResRecovered es' o' => es = es' /\ RO o o'
  | ResGivenUp es e, ResGivenUp es' e' => es = es' /\ e = e'
  | ResUnrecoverable es e, ResUnrecoverable es' e' => es = es' /\ e = e'
  | _, _ => False
  end.
Lemma fsim_retry_loop (op : I -> fprog Ans (retry_result I O E)) (op' : I' -> fprog Ans (retry_result I' O' E)) :
  (forall i i', RI i i' -> fsim rr_rel (op i) (op' i')) ->
  forall n i i' es e, RI i i' -> fsim rs_rel (retry_loop op n i es e) (retry_loop op' n i' es e).
Proof.
  intros H n. induction n as [|n IH]; intros i i' es e HI; cbn [retry_loop]; [constructor; cbn; auto|].
  eapply fsim_bind; [apply H, HI|]. intros [o|j f|j f] [o'|j' f'|j' f'] R; cbn in R; try contradiction; [constructor; cbn; auto| |].
  - destruct R as [R ->]. apply IH, R.
  - destruct R as [R ->]. constructor. cbn. auto.
Qed.
Lemma fsim_retry (op : I -> fprog Ans (retry_result I O E)) (op' : I' -> fprog Ans (retry_result I' O' E)) f f' n :
  (forall i i', RI i i' -> fsim rr_rel (op i) (op' i')) -> fsim rr_rel f f' ->
  fsim rs_rel (retry_with_delays op f n) (retry_with_delays op' f' n).
Proof.
  intros H HF. unfold retry_with_delays. eapply fsim_bind; [exact HF|].
  intros [o|j g|j g] [o'|j' g'|j' g'] R; cbn in R; try contradiction; [constructor; exact R| |].
  - destruct R as [R ->]. apply fsim_retry_loop; assumption.
  - destruct R as [R ->]. constructor. reflexivity.
Qed.
End Retry.

(** programs that only ask certain questions, or never return *)
Inductive asks_only (ok : Q -> Prop) {A} : fprog Ans A -> Prop :=
| ao_ret a : asks_only ok (FRet a)
| ao_stop p : asks_only ok (FStop p)
| ao_ask q k : ok q -> (forall a, asks_only ok (k a)) -> asks_only ok (FAsk q k).
Lemma asks_only_bind ok {A B} (m : fprog Ans A) (k : A -> fprog Ans B) : asks_only ok m -> (forall a, asks_only ok (k a)) -> asks_only ok (fbind m k).
Proof. intros H HK. induction H; cbn [fbind]; [auto|constructor|constructor; auto]. Qed.
Lemma asks_only_exec ok {A S} (w : world Ans S) (m : fprog Ans A) : asks_only ok m -> forall s tr s' o, fexec w m s tr s' o ->
  Forall (fun e => ok (ev_query e)) tr.
Proof.
  induction 1 as [a|p|q k H _ IH]; intros s tr s' o E.
  - destruct E as (-> & _). constructor.
  - destruct E as (-> & _). constructor.
  - destruct E as [(a & s1 & tr' & W & E & ->)|(W & -> & ->)]; constructor; auto. eapply IH; exact E.
Qed.
End Sim.

(** deterministic worlds can be run *)
Section Det.
Context {Q : Type} {Ans : Q -> Type} {S : Type} (f : S -> forall q, S * option (Ans q)).
Definition det : world Ans S := fun s q s' a => f s q = (s', a).
Fixpoint frun {A} (m : fprog Ans A) (s : S) : list (fevent Ans) * S * res A :=
  match m with
  | FRet a => ([], s, Val a)
  | FStop p => ([], s, Panic p)
  | FAsk q k =>
      match f s q with
      | (s1, Some a) => let '(tr, s', o) := frun (k a) s1 in (FEv q (Some a) :: tr, s', o)
      | (s1, None) => ([FEv q None], s1, Panic PClosure)
      end
  end.
Lemma frun_exec {A} (m : fprog Ans A) : forall s, fexec det m s (fst (fst (frun m s))) (snd (fst (frun m s))) (snd (frun m s)).
Proof.
  induction m as [a|p|q k IH]; intros s; cbn [frun fexec]; [auto|auto|].
  destruct (f s q) as [s1 [a|]] eqn:E.
  - specialize (IH a s1). destruct (frun (k a) s1) as [[tr s'] o]. cbn [fst snd] in *. left. exists a, s1, tr. auto.
  - right. cbn [fst snd]. auto.
Qed.
End Det.
