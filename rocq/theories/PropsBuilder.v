(** * Property theorems C47-C51, C69: the async builder and the custom measurers. *)
From Coq Require Import List ZArith Lia Bool String.
From Verif Require Import Machine Complexity Analysis AnalysisF64d AllocSpec Report ReportProofs Crud CrudMsg CrudSpec CrudProofs Free StandardSpec Present PropsReport Builder BuilderSpec BuilderProofs Demo.
Import ListNotations.
Open Scope Z_scope.

(** ** C47: an attempt runs exactly the functions that are present, in the documented
    order, each on the data the previous step left; see [attempt] in BuilderSpec.v.
    Otherwise it panicked: in a user function, on absurd measurements, for lack of a
    pass function or because of a zero set size. *)
Theorem C47_attempt : forall F D X S bd t l (b : builder F X) (w : world (@bans F D X) S) previous s tr s' o,
  fexec w (raw_analyse bd t l b previous) s tr s' o ->
  (exists v m1 m2 last, o = Val v /\ attempt b previous (bcalls tr) m1 m2 last /\ b_verdict bd t l b m1 m2 last v)
  \/ ((exists p, o = Panic p) /\ ~ (returns w /\ b_sane tr /\ usable b)).
Proof.
  intros F D X S bd t l b w previous s tr s' o E.
  destruct (spec_attempt w bd t l b previous _ _ _ _ E) as [(v & -> & m1 & m2 & last & A & V)|(P & N)].
  - left. exists v, m1, m2, last. auto.
  - right. split; [exact P|]. exact N.
Qed.
Print Assumptions C47_attempt.

(** without one of the two pass functions: a panic, before any pass or assertion is run *)
Theorem C47_missing_pass : forall F D X S bd t l (b : builder F X) (w : world (@bans F D X) S) previous s tr s' o,
  b_pass1 b = None \/ b_pass2 b = None ->
  fexec w (raw_analyse bd t l b previous) s tr s' o ->
  (exists p, o = Panic p) /\
  forall c, In c (bcalls tr) -> exists f d a, c = Ran f d a /\ (b_reset b = Some f \/ b_warmup b = Some f).
Proof.
  intros F D X S bd t l b w previous s tr s' o M E. split.
  - destruct o as [v|p|]; [exfalso|eauto|destruct (fexec_no_spin w _ _ _ _ _ E eq_refl)].
    destruct (C47_attempt _ _ _ _ _ _ _ _ _ _ _ _ _ _ E) as [(v' & m1 & m2 & last & _ & (c0 & d0 & p1 & p2 & d1 & c1 & d2 & P1 & P2 & _) & _)|([p Y] & _)]; [|discriminate].
    destruct M; congruence.
  - set (ok := fun q : @bquery F D X => match q with BRun f _ => b_reset b = Some f \/ b_warmup b = Some f | BOut _ => True | _ => False end).
    assert (RV : forall pre suf f d, ok (BRun f d) -> asks_only ok (run_verbosely bd pre suf f d)).
    { intros pre suf f d H. unfold run_verbosely. apply asks_only_bind; [constructor; [exact H|intros; constructor]|].
      intros a. apply asks_only_bind; [destruct (fmt_over_n bd (pr_space (fst a)) 1); constructor|].
      intros sh. apply asks_only_bind; [constructor; [exact I|constructor]|intros; constructor]. }
    assert (AO : asks_only ok (raw_analyse bd t l b previous)).
    { unfold raw_analyse. apply asks_only_bind; [constructor; [exact I|constructor]|]. intros _.
      apply asks_only_bind.
      { destruct (b_reset b) as [r|] eqn:ER; [|constructor]. apply asks_only_bind; [apply RV; left; first [exact ER|reflexivity]|constructor]. }
      intros d0. apply asks_only_bind.
      { destruct (b_warmup b) as [wu|] eqn:EW; [|constructor]. apply asks_only_bind; [apply RV; right; first [exact EW|reflexivity]|]. intros x.
        destruct (b_reset b) as [r|] eqn:ER; [|constructor]. apply asks_only_bind; [apply RV; left; first [exact ER|reflexivity]|constructor]. }
      intros d1. destruct M as [M|M]; rewrite M; [cbn [expect fbind]; constructor|].
      destruct (b_pass1 b); cbn [expect fbind]; constructor. }
    pose proof (asks_only_exec ok w _ AO _ _ _ _ E) as FA. rewrite Forall_forall in FA.
    intros c Hc. unfold bcalls in Hc. apply in_flat_map in Hc. destruct Hc as ([q a] & I1 & I2). specialize (FA _ I1). cbn [ev_query] in FA.
    destruct q as [f d|f d|f d|f d x|i]; cbn in FA, I2; try contradiction. destruct I2 as [<-|[]]. eauto.
Qed.
Print Assumptions C47_missing_pass.

(** ** C48: the data of a failed attempt goes to the reset function ... *)
Theorem C48_reset_gets_the_data : forall F D X S bd t l (b : builder F X) (w : world (@bans F D X) S) reset d s tr s' o,
  b_reset b = Some reset ->
  fexec w (raw_analyse bd t l b (Some d)) s tr s' o ->
  bcalls tr = [] /\ (exists p, o = Panic p) /\ ~ returns w \/
  exists a rest, bcalls tr = Ran reset (Some d) a :: rest.
Proof.
  intros F D X S bd t l b w reset d s tr s' o R E. unfold raw_analyse in E. rewrite R in E. cbn [b_out ask fbind run_verbosely fexec] in E.
  destruct E as [([] & s1 & tr' & W & E & ->)|(W & -> & ->)].
  - right. destruct E as [(a & s2 & tr2 & W2 & E & ->)|(W2 & -> & ->)]; eexists; eexists; reflexivity.
  - left. split; [reflexivity|]. split; [eauto|]. intros RR. apply (RR _ _ _ _ W). reflexivity.
Qed.
Print Assumptions C48_reset_gets_the_data.
(** ... and is dropped if there is none: the attempt behaves as if it were the first *)
Theorem C48_without_reset_the_data_is_lost : forall F D X S bd t l (b : builder F X) (w : world (@bans F D X) S) previous s tr s' o,
  b_reset b = None ->
  (fexec w (raw_analyse bd t l b previous) s tr s' o <-> fexec w (raw_analyse bd t l b None) s tr s' o) /\
  (fexec w (raw_analyse bd t l b previous) s tr s' o ->
     bcalls tr = [] \/
     exists f a rest, bcalls tr = Ran f None a :: rest /\
       (b_warmup b = Some f \/ b_warmup b = None /\ b_pass1 b = Some f)).
Proof.
  intros F D X S bd t l b w previous s tr s' o R. split.
  - unfold raw_analyse. rewrite R. reflexivity.
  - intros E. unfold raw_analyse in E. rewrite R in E. cbn [b_out ask fbind run_verbosely fexec] in E.
    destruct E as [([] & s1 & tr' & W & E & ->)|(W & -> & ->)]; [|left; reflexivity].
    destruct (b_warmup b) as [wu|] eqn:EW.
    + right. cbn [b_out ask fbind run_verbosely fexec] in E. destruct E as [(a & s2 & tr2 & W2 & E & ->)|(W2 & -> & ->)]; eexists; eexists; eexists; (split; [reflexivity|left; reflexivity]).
    + cbn [fbind] in E. destruct (b_pass1 b) as [p1|] eqn:E1; cbn [expect fbind] in E; [|destruct E as (-> & _); left; reflexivity].
      destruct (b_pass2 b) as [p2|]; cbn [expect fbind] in E; [|destruct E as (-> & _); left; reflexivity].
      right. cbn [b_out ask fbind run_verbosely fexec] in E. destruct E as [(a & s2 & tr2 & W2 & E & ->)|(W2 & -> & ->)]; eexists; eexists; eexists; (split; [reflexivity|right; auto]).
Qed.
Print Assumptions C48_without_reset_the_data_is_lost.

(** ** C49: the outcome of the test *)
Lemma verdict_transient {F D X} bd t l (b : builder F X) m1 m2 (last : D) i e :
  b_verdict bd t l b m1 m2 last (RTransient i e) -> i = (b, last).
Proof. intros (tc & sc & _ & _ & [(x & _ & _ & H)|[(_ & x & _ & _ & H)|(_ & _ & H)]]); [discriminate| |discriminate]. injection H as -> _. reflexivity. Qed.
Lemma verdict_fatal {F D X} bd t l (b : builder F X) m1 m2 (last : D) i e :
  b_verdict bd t l b m1 m2 last (RFatal i e) -> i = (b, last).
Proof. intros (tc & sc & _ & _ & [(x & _ & _ & H)|[(_ & x & _ & _ & H)|(_ & _ & H)]]); [|discriminate|discriminate]. injection H as -> _. reflexivity. Qed.
Lemma verdict_ok {F D X} bd t l (b : builder F X) m1 m2 (last : D) i :
  b_verdict bd t l b m1 m2 last (ROk i) -> i = (b, last).
Proof. intros (tc & sc & _ & _ & [(x & _ & _ & H)|[(_ & x & _ & _ & H)|(_ & _ & H)]]); [discriminate|discriminate|]. injection H as ->. reflexivity. Qed.

Section Outcome.
Context {F D X S : Type} (bd : build) (t : tolerance) (l : libm) (b : builder F X) (w : world (@bans F D X) S).
Lemma reattempt_val i s tr s' v : fexec w (reattempt bd t l i) s tr s' (Val v) ->
  exists s1 tr1, fexec w (raw_analyse bd t l (fst i) (Some (snd i))) s1 tr1 s' (Val v) /\ bcalls tr = bcalls tr1.
Proof.
  unfold reattempt. cbn [b_out ask fbind fexec]. intros [([] & s1 & tr' & W & E & ->)|(_ & _ & H)]; [|discriminate].
  exists s1, tr'. split; [exact E|reflexivity].
Qed.
Lemma raw_val previous s tr s' v : fexec w (raw_analyse bd t l b previous) s tr s' (Val v) ->
  exists m1 m2 last, attempt b previous (bcalls tr) m1 m2 last /\ b_verdict bd t l b m1 m2 last v.
Proof.
  intros E. destruct (C47_attempt _ _ _ _ _ _ _ _ _ _ _ _ _ _ E) as [(v' & m1 & m2 & last & V & A & B)|([p Y] & _)]; [|discriminate].
  apply val_inj in V. subst v'. eauto.
Qed.
Lemma tries_attempts : forall p s fs v tr s', tries (reattempt bd t l) w p s fs v tr s' ->
  forall previous, (p = raw_analyse bd t l b previous \/ exists d, previous = Some d /\ p = reattempt bd t l (b, d)) ->
  attempts bd t l b previous (map snd fs) v (bcalls tr).
Proof.
  assert (ONE : forall previous p s tr s' v, (p = raw_analyse bd t l b previous \/ exists d, previous = Some d /\ p = reattempt bd t l (b, d)) ->
     fexec w p s tr s' (Val v) -> exists m1 m2 last, attempt b previous (bcalls tr) m1 m2 last /\ b_verdict bd t l b m1 m2 last v).
  { intros previous p s tr s' v [->|(d & -> & ->)] E; [apply raw_val in E; exact E|].
    apply reattempt_val in E. destruct E as (s1 & tr1 & E & ->). cbn [fst snd] in E. apply raw_val in E. exact E. }
  induction 1 as [p s tr s' v E|p s tr s1 i e fs v tr' s' E T IH]; intros previous HP.
  - destruct (ONE _ _ _ _ _ _ HP E) as (m1 & m2 & last & A & B). econstructor; eassumption.
  - destruct (ONE _ _ _ _ _ _ HP E) as (m1 & m2 & last & A & B). pose proof (verdict_transient _ _ _ _ _ _ _ _ _ B) as ->.
    rewrite bcalls_app. cbn [map snd]. econstructor; [exact A|exact B|]. apply IH. right. exists last. auto.
Qed.
End Outcome.

(** It passes iff some attempt meets the expectations that were set, every attempt before
    it (at most max_reattempts) being a time mismatch; a space mismatch stops it at once. *)
Theorem C49_outcome : forall F D X S bd t l (b : builder F X) (w : world (@bans F D X) S) s tr s' e,
  let max := match b_max_reattempts b with Some n => n | None => 0 end in
  0 <= max < two32 ->
  fexec w (test_algorithm_async bd t l b) s tr s' (Val e) ->
  match e with
  | BPassed => exists es d, attempts bd t l b None es (ROk (b, d)) (bcalls tr) /\ Z.of_nat (length es) <= max
  | BPanicked es e => exists d,
      ( attempts bd t l b None es (RFatal (b, d) e) (bcalls tr) /\ Z.of_nat (length es) <= max   (* a space mismatch *)
      \/ attempts bd t l b None es (RTransient (b, d) e) (bcalls tr) /\ Z.of_nat (length es) = max) (* time mismatches only *)
  end.
Proof.
  intros F D X S bd t l b w s tr s' e max Hm E. unfold test_algorithm_async in E. change (unwrap_or (b_max_reattempts b) 0) with max in E.
  apply fexec_bind in E. destruct E as [(x & tr1 & s1 & tr2 & E1 & (-> & -> & E2) & ->)|(p & _ & Y)]; [|discriminate]. rewrite app_nil_r.
  assert (FIN : forall p s fs v tr s', tries (reattempt bd t l) w p s fs v tr s' -> p = raw_analyse bd t l b None ->
     attempts bd t l b None (map snd fs) v (bcalls tr)).
  { intros p s0 fs v tr0 s0' T ->. eapply tries_attempts; [exact T|]. left. reflexivity. }
  assert (LASTI : forall prev es v calls, attempts bd t l b prev es v calls -> forall i, (v = ROk i \/ exists e, v = RFatal i e \/ v = RTransient i e) -> exists d : D, i = (b, d)).
  { intros prev es v calls A. induction A as [prev calls m1 m2 d v A V|prev calls m1 m2 d e0 es v calls' A V _ IH]; intros i HI; [|apply IH, HI].
    destruct HI as [->|(e0 & [-> | ->])]; [apply verdict_ok in V|apply verdict_fatal in V|apply verdict_transient in V]; eauto. }
  apply retry_spec in E1. destruct x as [r|f|es r|es f|es f]; injection E2 as ->.
  - pose proof (FIN _ _ _ _ _ _ E1 eq_refl) as A. destruct (LASTI _ _ _ _ A r (or_introl eq_refl)) as [d ->]. exists [], d. split; [exact A|cbn [length]; lia].
  - destruct E1 as [i T]. pose proof (FIN _ _ _ _ _ _ T eq_refl) as A. destruct (LASTI _ _ _ _ A i ltac:(eauto)) as [d ->]. exists d. left. split; [exact A|cbn [length]; lia].
  - destruct E1 as (fs & T & _ & L). pose proof (FIN _ _ _ _ _ _ T eq_refl) as A. destruct (LASTI _ _ _ _ A r (or_introl eq_refl)) as [d ->].
    exists (map snd fs), d. split; [exact A|rewrite map_length; lia].
  - destruct E1 as (fs & i & T & -> & L). pose proof (FIN _ _ _ _ _ _ T eq_refl) as A. destruct (LASTI _ _ _ _ A i ltac:(eauto)) as [d ->]. exists d. right. split; [exact A|rewrite map_length; lia].
  - destruct E1 as (fs & i & T & -> & L). pose proof (FIN _ _ _ _ _ _ T eq_refl) as A. destruct (LASTI _ _ _ _ A i ltac:(eauto)) as [d ->]. exists d. left. split; [exact A|rewrite map_length; lia].
Qed.
Print Assumptions C49_outcome.

(** there is no other end when functions return, measurements are sane, both passes are given with non-zero sizes *)
Lemma test_panic {F D X S} bd t l (b : builder F X) (w : world (@bans F D X) S) s tr s' p :
  fexec w (test_algorithm_async bd t l b) s tr s' (Panic p) ->
  exists prev s0 tr1 tr0 q, fexec w (raw_analyse bd t l b prev) s0 tr0 s' (Panic q) /\ tr = tr1 ++ tr0 \/ ~ returns w.
Proof.
  intros E. unfold test_algorithm_async in E. apply fexec_bind in E. destruct E as [(x & tr1 & s1 & tr2 & E1 & (_ & _ & E2) & ->)|(q & E1 & Y)]; [discriminate|].
  unfold retry_with_delays in E1. apply fexec_bind in E1. destruct E1 as [(r & tr1 & s1 & tr2 & E1 & E2 & ->)|(q1 & E1 & _)].
  2:{ exists None, s, [], tr, q1. left. auto. }
  apply raw_val in E1. destruct E1 as (m1 & m2 & last & _ & V).
  assert (LOOP : forall n d es e s tr s' q, fexec w (retry_loop (reattempt bd t l) n (b, d) es e) s tr s' (Panic q) ->
     exists prev s0 tr1 tr0 q, fexec w (raw_analyse bd t l b prev) s0 tr0 s' (Panic q) /\ tr = tr1 ++ tr0 \/ ~ returns w).
  { clear. induction n as [|n IH]; intros d es e s tr s' q E; cbn [retry_loop] in E; [destruct E as (_ & _ & E); discriminate|].
    apply fexec_bind in E. destruct E as [(r & tr1 & s1 & tr2 & E1 & E2 & ->)|(q1 & E1 & _)].
    - destruct (reattempt_val _ _ _ _ _ _ _ _ _ E1) as (s2 & tr3 & E3 & _). cbn [fst snd] in E3. apply raw_val in E3. destruct E3 as (m1 & m2 & last & _ & V).
      destruct r as [o|i f|i f]; [destruct E2 as (_ & _ & E2); discriminate| |destruct E2 as (_ & _ & E2); discriminate].
      apply verdict_transient in V. subst i. apply IH in E2. destruct E2 as (prev & s0 & t1 & t0 & q2 & [[E2 ->]|N]); [|exists None, s, [], [], PExpect; right; exact N].
      exists prev, s0, (tr1 ++ t1), t0, q2. left. split; [exact E2|]. rewrite app_assoc. reflexivity.
    - unfold reattempt in E1. cbn [b_out ask fbind fexec fst snd] in E1. destruct E1 as [([] & s1 & tr' & W & E & ->)|(W & _ & _)].
      + exists (Some d), s1, [FEv (BOut (BIText ("retrying..." ++ newline)%string)) (Some tt)], tr', q1. left. auto.
      + exists None, s, [], [], PExpect. right. intros R. apply (R _ _ _ _ W). reflexivity. }
  destruct r as [o|i f|i f]; [destruct E2 as (_ & _ & E2); discriminate| |destruct E2 as (_ & _ & E2); discriminate].
  apply verdict_transient in V. subst i. apply LOOP in E2. destruct E2 as (prev & s0 & t1 & t0 & q2 & [[E2 ->]|N]); [|exists None, s, [], [], PExpect; right; exact N].
  exists prev, s0, (tr1 ++ t1), t0, q2. left. split; [exact E2|]. rewrite app_assoc. reflexivity.
Qed.
Theorem C49_no_other_end : forall F D X S bd t l (b : builder F X) (w : world (@bans F D X) S) s tr s' o,
  returns w -> usable b ->
  fexec w (test_algorithm_async bd t l b) s tr s' o -> b_sane tr -> exists e, o = Val e.
Proof.
  intros F D X S bd t l b w s tr s' o R U E SA. destruct o as [e|p|]; [eauto| |destruct (fexec_no_spin w _ _ _ _ _ E eq_refl)].
  exfalso. destruct (test_panic _ _ _ _ _ _ _ _ _ E) as (prev & s0 & tr1 & tr0 & q & [[E0 ->]|N]); [|exact (N R)].
  destruct (C47_attempt _ _ _ _ _ _ _ _ _ _ _ _ _ _ E0) as [(v & m1 & m2 & last & V & _)|(_ & N)]; [discriminate|].
  apply N. split; [exact R|]. split; [|exact U]. intros f d m d' I. apply (SA f d m d'). rewrite bcalls_app. apply in_or_app. right. exact I.
Qed.
Print Assumptions C49_no_other_end.

(** with no expectation set, whatever is measured: it passes, after one attempt *)
Theorem C49_no_expectation_always_passes : forall F D X S bd t l (b : builder F X) (w : world (@bans F D X) S) s tr s' e,
  b_time b = None -> b_space b = None ->
  fexec w (test_algorithm_async bd t l b) s tr s' (Val e) ->
  e = BPassed /\ exists m1 m2 last, attempt b None (bcalls tr) m1 m2 last.
Proof.
  intros F D X S bd t l b w s tr s' e T0 S0 E. unfold test_algorithm_async in E.
  apply fexec_bind in E. destruct E as [(x & tr1 & s1 & tr2 & E1 & (-> & -> & E2) & ->)|(p & _ & Y)]; [|discriminate]. rewrite app_nil_r.
  unfold retry_with_delays in E1. apply fexec_bind in E1. destruct E1 as [(r & tr3 & s3 & tr4 & E1 & E3 & ->)|(q1 & E1 & Y)]; [|discriminate].
  apply raw_val in E1. destruct E1 as (m1 & m2 & last & A & V).
  destruct V as (tc & sc & _ & _ & [(y & H & _)|[(_ & y & H & _)|(_ & _ & ->)]]); [congruence|congruence|].
  destruct E3 as (-> & -> & E3). apply val_inj in E3. subst x. apply val_inj in E2. subst e. split; [reflexivity|]. rewrite app_nil_r. eauto.
Qed.
Print Assumptions C49_no_expectation_always_passes.

(** auxiliary-space expectations, custom measurers (and stored custom measurements) have
    no influence: exactly the same executions *)
Definition differ_in_ignored_options {F X} (b b' : builder F X) : Prop :=
  b_name b = b_name b' /\ b_reset b = b_reset b' /\ b_max_reattempts b = b_max_reattempts b' /\ b_warmup b = b_warmup b' /\
  b_n1 b = b_n1 b' /\ b_pass1 b = b_pass1 b' /\ b_assert1 b = b_assert1 b' /\
  b_n2 b = b_n2 b' /\ b_pass2 b = b_pass2 b' /\ b_assert2 b = b_assert2 b' /\
  b_time b = b_time b' /\ b_space b = b_space b'.
Lemma raw_sim {F D X} bd t l (b b' : builder F X) (previous : option D) : differ_in_ignored_options b b' ->
  fsim (rr_rel (fun i i' => differ_in_ignored_options (fst i) (fst i') /\ snd i = snd i') (fun i i' => differ_in_ignored_options (fst i) (fst i') /\ snd i = snd i'))
    (raw_analyse bd t l b previous) (raw_analyse bd t l b' previous).
Proof.
  intros DI. pose proof DI as (H1 & H2 & H3 & H4 & H5 & H6 & H7 & H8 & H9 & H10 & H11 & H12).
  unfold raw_analyse. rewrite <- H1, <- H2, <- H4, <- H5, <- H6, <- H7, <- H8, <- H9, <- H10, <- H11, <- H12.
  Ltac simstep := eapply fsim_bind; [apply fsim_refl|]; intros ? ? <-.
  do 10 simstep. cbv zeta. do 4 simstep.
  destruct (b_space b) as [es|]; [destruct (worse_than _ es)|]; [simstep; constructor; cbn; auto| |];
    (destruct (b_time b) as [et|]; [destruct (worse_than _ et)|]; [simstep| |]; constructor; cbn; auto).
Qed.
Theorem C49_ignored_options : forall F D X S bd t l (b b' : builder F X) (w : world (@bans F D X) S) s tr s' o,
  differ_in_ignored_options b b' ->
  (fexec w (test_algorithm_async bd t l b) s tr s' o <-> fexec w (test_algorithm_async bd t l b') s tr s' o).
Proof.
  assert (ONE : forall F D X S bd t l (b b' : builder F X) (w : world (@bans F D X) S) s tr s' o, differ_in_ignored_options b b' ->
     fexec w (test_algorithm_async bd t l b) s tr s' o -> fexec w (test_algorithm_async bd t l b') s tr s' o).
  { intros F D X S bd t l b b' w s tr s' o DI. apply fsim_eq_exec. unfold test_algorithm_async.
    assert (M : b_max_reattempts b = b_max_reattempts b') by (apply DI). rewrite <- M.
    eapply fsim_bind; [apply fsim_retry with (RI := fun i i' => differ_in_ignored_options (fst i) (fst i') /\ snd i = snd i') (RO := fun i i' => differ_in_ignored_options (fst i) (fst i') /\ snd i = snd i')|].
    - intros [c d] [c' d'] [HC HD]. cbn [fst snd] in HC, HD. subst d'. unfold reattempt. eapply fsim_bind; [apply fsim_refl|]. intros ? ? <-. cbn [fst snd]. apply raw_sim, HC.
    - apply raw_sim, DI.
    - intros [o1|e1|es1 o1|es1 e1|es1 e1] [o2|e2|es2 o2|es2 e2|es2 e2] R; cbn in R; try contradiction; constructor; try reflexivity; try congruence; destruct R; congruence. }
  intros F D X S bd t l b b' w s tr s' o DI. split; apply ONE; [exact DI|].
  destruct DI as (H1 & H2 & H3 & H4 & H5 & H6 & H7 & H8 & H9 & H10 & H11 & H12). unfold differ_in_ignored_options. intuition auto.
Qed.
Print Assumptions C49_ignored_options.

(** ** C50: the builder after any sequence of method calls *)
Theorem C50_last_value_wins : forall F X name (ss : list (setting F)),
  let b := fold_left set ss (@new_builder F X name) in
  b_name b = name /\
  b_max_reattempts b = last_value (fun s => match s with WithMaxReattempts n => Some n | _ => None end) ss /\
  b_reset b = last_value (fun s => match s with WithResetFn f => Some f | _ => None end) ss /\
  b_warmup b = last_value (fun s => match s with WarmupPass f => Some f | _ => None end) ss /\
  b_pass1 b = last_value (fun s => match s with FirstPass _ f => Some f | _ => None end) ss /\
  b_n1 b = match last_value (fun s => match s with FirstPass n _ => Some n | _ => None end) ss with Some n => n | None => 0 end /\
  b_assert1 b = last_value (fun s => match s with FirstPassAssertion f => Some f | _ => None end) ss /\
  b_pass2 b = last_value (fun s => match s with SecondPass _ f => Some f | _ => None end) ss /\
  b_n2 b = match last_value (fun s => match s with SecondPass n _ => Some n | _ => None end) ss with Some n => n | None => 0 end /\
  b_assert2 b = last_value (fun s => match s with SecondPassAssertion f => Some f | _ => None end) ss /\
  b_time b = last_value (fun s => match s with WithTimeMeasurements c => Some c | _ => None end) ss /\
  b_space b = last_value (fun s => match s with WithSpaceMeasurements c => Some c | _ => None end) ss /\
  b_auxiliary b = last_value (fun s => match s with WithAuxiliarySpaceMeasurements c => Some c | _ => None end) ss /\
  b_measurements1 b = None /\ b_measurements2 b = None /\
  b_measurers b = flat_map (fun s => match s with
      | AddCustomMeasurement n e d f g | AddCustomMeasurementWithAverages n e d f g => [Measurer n e d f None g]
      | _ => [] end) ss.
Proof.
  assert (LV : forall F A (pick : setting F -> option A) ss s, last_value pick (ss ++ [s]) = match pick s with Some a => Some a | None => last_value pick ss end).
  { intros F A pick ss s. induction ss as [|a ss IH]; cbn [app last_value]; [destruct (pick s); reflexivity|]. rewrite IH. destruct (pick s); reflexivity. }
  intros F X name ss. induction ss as [|s ss IH] using rev_ind; [cbn; repeat split|].
  cbv zeta in *. rewrite fold_left_app. cbn [fold_left]. rewrite flat_map_app, !LV.
  destruct (fold_left set ss (new_builder name)) as [nm rs mx wu n1 p1 ms1 a1 n2 p2 ms2 a2 ti sp au cs].
  cbn [b_name b_reset b_max_reattempts b_warmup b_n1 b_pass1 b_measurements1 b_assert1 b_n2 b_pass2 b_measurements2 b_assert2 b_time b_space b_auxiliary b_measurers] in IH.
  destruct IH as (-> & I1 & I2 & I3 & I4 & I5 & I6 & I7 & I8 & I9 & I10 & I11 & I12 & -> & -> & I13).
  destruct s; cbn [set b_name b_reset b_max_reattempts b_warmup b_n1 b_pass1 b_measurements1 b_assert1 b_n2 b_pass2 b_measurements2 b_assert2 b_time b_space b_auxiliary b_measurers flat_map app];
    rewrite ?app_nil_r; repeat split; try assumption; rewrite I13; reflexivity.
Qed.
Print Assumptions C50_last_value_wins.
Theorem C50_methods_commute : forall F X (b : builder F X) s1 s2, kind_of s1 <> kind_of s2 -> set (set b s1) s2 = set (set b s2) s1.
Proof. intros F X [] s1 s2 H. destruct s1, s2; cbn [kind_of] in H; try congruence; reflexivity. Qed.
Print Assumptions C50_methods_commute.
(** ... from any state of the builder, also one that already holds measurements *)
Theorem C50_only_its_own : forall F X (b : builder F X) s, let k := kind_of s in
  b_name (set b s) = b_name b /\
  b_measurements1 (set b s) = b_measurements1 b /\ b_measurements2 (set b s) = b_measurements2 b /\
  (k <> KMax -> b_max_reattempts (set b s) = b_max_reattempts b) /\
  (k <> KReset -> b_reset (set b s) = b_reset b) /\
  (k <> KWarmup -> b_warmup (set b s) = b_warmup b) /\
  (k <> KPass1 -> b_n1 (set b s) = b_n1 b /\ b_pass1 (set b s) = b_pass1 b) /\
  (k <> KAssert1 -> b_assert1 (set b s) = b_assert1 b) /\
  (k <> KPass2 -> b_n2 (set b s) = b_n2 b /\ b_pass2 (set b s) = b_pass2 b) /\
  (k <> KAssert2 -> b_assert2 (set b s) = b_assert2 b) /\
  (k <> KTime -> b_time (set b s) = b_time b) /\
  (k <> KSpace -> b_space (set b s) = b_space b) /\
  (k <> KAuxiliary -> b_auxiliary (set b s) = b_auxiliary b) /\
  (k <> KCustom -> b_measurers (set b s) = b_measurers b).
Proof. intros F X [] []; cbn; repeat split; congruence. Qed.
Print Assumptions C50_only_its_own.

(** ** C51: measurers *)
Section Measurers.
Context {F D X S : Type} (w : world (@bans F D X) S).
Definition loaded (m : measurer F X) (x : X) : measurer F X :=
  Measurer (me_name m) (me_expected m) (me_description m) (me_before m) (Some x) (me_after m).
Lemma spec_each_before H d (ms : list (measurer F X)) :
  spec w H (each (measure_before d) ms) (fun c ms' => exists xs, length xs = length ms /\
     c = map (fun mx => Before (me_before (fst mx)) d (Some (snd mx))) (combine ms xs) /\
     ms' = map (fun mx => loaded (fst mx) (snd mx)) (combine ms xs)).
Proof.
  revert H. induction ms as [|m ms IH]; intros H; cbn [each].
  - apply spec_ret. exists []. repeat split.
  - eapply spec_bind with (Q1 := fun c m' => exists x, c = [Before (me_before m) d (Some x)] /\ m' = loaded m x).
    { unfold measure_before. eapply spec_bind; [apply spec_before|]. intros c x ->. apply spec_ret. exists x. rewrite app_nil_r. split; reflexivity. }
    intros c m' (x & -> & ->). eapply spec_bind; [apply IH|]. intros c r (xs & L & -> & ->). apply spec_ret. exists (x :: xs).
    cbn [length combine map fst snd app]. rewrite app_nil_r. auto.
Qed.
Lemma combine_rev {A B} (a : list A) : forall (c : list B), length a = length c -> combine (rev a) (rev c) = rev (combine a c).
Proof.
  assert (CA : forall (a1 a2 : list A) (c1 c2 : list B), length a1 = length c1 -> combine (a1 ++ a2) (c1 ++ c2) = combine a1 c1 ++ combine a2 c2).
  { induction a1 as [|x a1 IH]; intros a2 [|y c1] c2 L; try discriminate; [reflexivity|]. cbn. f_equal. apply IH. injection L. auto. }
  induction a as [|x a IH]; intros [|y c] L; try discriminate; [reflexivity|]. injection L as L. cbn [rev combine].
  rewrite CA by (rewrite !rev_length; exact L). rewrite (IH _ L). reflexivity.
Qed.
Lemma spec_all_before H d (ms : list (measurer F X)) :
  spec w H (measure_all_before d ms) (fun c ms' => exists xs, length xs = length ms /\ c = befores ms d xs /\
     ms' = map (fun mx => loaded (fst mx) (snd mx)) (combine ms xs)).
Proof.
  unfold measure_all_before. eapply spec_bind; [apply spec_each_before|]. intros c r (xs & L & -> & ->). apply spec_ret.
  rewrite rev_length in L. exists (rev xs). rewrite rev_length. split; [exact L|]. rewrite app_nil_r.
  assert (C : combine (rev ms) xs = rev (combine ms (rev xs))).
  { rewrite <- (rev_involutive xs) at 1. apply combine_rev. rewrite rev_length. auto. }
  rewrite C. unfold befores. rewrite !map_rev, rev_involutive. auto.
Qed.
Lemma spec_after_loop H d (ms : list (measurer F X)) : forall xs acc, length xs = length ms ->
  spec w H (after_loop d (map (fun mx => loaded (fst mx) (snd mx)) (combine ms xs)) acc)
    (fun c r => exists ps, length ps = length ms /\ c = afters ms d xs ps /\ r = (acc ++ reported ms ps, map idle ms)).
Proof.
  revert H. induction ms as [|m ms IH]; intros H [|x xs] acc L; try discriminate; cbn [combine map after_loop].
  - apply spec_ret. exists []. cbn. rewrite app_nil_r. auto.
  - injection L as L. eapply spec_bind with (Q1 := fun c r => exists p, c = [After (me_after m) d x (Some p)] /\ r = (p, idle m)).
    { unfold measure_after. cbn [fst snd loaded me_value me_after me_name me_expected me_description me_before]. eapply spec_bind; [apply spec_after|].
      intros c p ->. apply spec_ret. exists p. rewrite app_nil_r. split; reflexivity. }
    intros c r (p & -> & ->). cbn [fst snd]. eapply spec_bind; [apply IH, L|]. intros c r (ps & LP & -> & ->). apply spec_ret. exists (p :: ps).
    cbn [length afters combine map fst snd reported app]. rewrite app_nil_r. split; [auto|]. split; [reflexivity|].
    rewrite <- app_assoc. cbn [app as_custom_measurement idle me_name me_expected me_description]. reflexivity.
Qed.
End Measurers.

(** before, then any event (any other use of the world), then after: every measurer's
    before function is called once, in reverse order, then the event, then every after
    function once, in order, on its own before value; the results are reported in
    declaration order under the declared names, and the measurers are idle again *)
Theorem C51_paired : forall F D X S A (w : world (@bans F D X) S) (ms : list (measurer F X)) d d' (event : fprog bans A) s tr s' a r,
  fexec w (fbind (measure_all_before d ms) (fun ms1 => fbind event (fun a => fbind (measure_all_after d' ms1) (fun r => FRet (a, r))))) s tr s' (Val (a, r)) ->
  exists xs ps s1 s2 tr2, length xs = length ms /\ length ps = length ms /\
    fexec w event s1 tr2 s2 (Val a) /\
    bcalls tr = befores ms d xs ++ bcalls tr2 ++ afters ms d' xs ps /\
    r = (reported ms ps, map idle ms).
Proof.
  intros F D X S A w ms d d' event s tr s' a r E.
  apply fexec_bind in E. destruct E as [(ms1 & tr1 & s1 & tr2 & E1 & E2 & ->)|(p & _ & Y)]; [|discriminate].
  destruct (spec_all_before w True d ms _ _ _ _ E1) as [(v & V & xs & L & C1 & ->)|([p Y] & _)]; [|discriminate]. injection V as ->.
  apply fexec_bind in E2. destruct E2 as [(a1 & tr3 & s2 & tr4 & E2 & E3 & ->)|(p & _ & Y)]; [|discriminate].
  apply fexec_bind in E3. destruct E3 as [(r1 & tr5 & s3 & tr6 & E3 & (-> & -> & E4) & ->)|(p & _ & Y)]; [|discriminate]. injection E4 as <- <-.
  unfold measure_all_after in E3. destruct (spec_after_loop w True d' ms xs [] L _ _ _ _ E3) as [(v & V & ps & LP & C2 & ->)|([p Y] & _)]; [|discriminate]. injection V as ->.
  exists xs, ps, s1, s2, tr3. rewrite !bcalls_app, C1, C2. cbn [bcalls flat_map app]. rewrite app_nil_r. auto 10.
Qed.
Print Assumptions C51_paired.
(** no panic but those of the user's functions *)
Theorem C51_no_panic : forall F D X S A (w : world (@bans F D X) S) (ms : list (measurer F X)) d d' (event : fprog bans A) s tr s' o,
  returns w -> (forall s tr s' p, ~ fexec w event s tr s' (Panic p)) ->
  fexec w (fbind (measure_all_before d ms) (fun ms1 => fbind event (fun a => fbind (measure_all_after d' ms1) (fun r => FRet (a, r))))) s tr s' o ->
  exists v, o = Val v.
Proof.
  intros F D X S A w ms d d' event s tr s' o R NE E.
  assert (NP : forall p, o <> Panic p); [|destruct o as [v|p|]; [eauto|destruct (NP p eq_refl)|destruct (fexec_no_spin w _ _ _ _ _ E eq_refl)]].
  intros p ->. assert (CS : forall B (m : fprog (@bans F D X) B) H Q s tr s' q, spec w H m Q -> fexec w m s tr s' (Panic q) -> H -> (forall f d a, ~ In (Ran f d a) (bcalls tr)) -> False).
  { intros B m H Q s0 tr0 s0' q SP E0 h NR. destruct (SP _ _ _ _ E0) as [(v & V & _)|(_ & N)]; [discriminate|]. apply N. split; [exact R|]. split; [|exact h].
    intros f dd m0 d0 I. destruct (NR _ _ _ I). }
  set (ok := fun q : @bquery F D X => match q with BRun _ _ => False | _ => True end).
  assert (NR : forall B (m : fprog (@bans F D X) B) s tr s' o, asks_only ok m -> fexec w m s tr s' o -> forall f d a, ~ In (Ran f d a) (bcalls tr)).
  { intros B m s0 tr0 s0' o0 AO E0 f dd a I. pose proof (asks_only_exec ok w _ AO _ _ _ _ E0) as FA. rewrite Forall_forall in FA.
    unfold bcalls in I. apply in_flat_map in I. destruct I as ([q aa] & I1 & I2). specialize (FA _ I1). destruct q; cbn in FA, I2; try contradiction; destruct I2 as [I2|[]]; discriminate. }
  apply fexec_bind in E. destruct E as [(ms1 & tr1 & s1 & tr2 & E1 & E2 & ->)|(q & E1 & _)].
  - destruct (spec_all_before w True d ms _ _ _ _ E1) as [(v & V & xs & L & C1 & ->)|([q Y] & _)]; [|discriminate]. injection V as ->.
    apply fexec_bind in E2. destruct E2 as [(a1 & tr3 & s2 & tr4 & E2 & E3 & ->)|(q & E2 & _)]; [|exact (NE _ _ _ _ E2)].
    apply fexec_bind in E3. destruct E3 as [(r1 & tr5 & s3 & tr6 & E3 & (_ & _ & E4) & ->)|(q & E3 & _)]; [discriminate|].
    unfold measure_all_after in E3. eapply CS; [apply (spec_after_loop w True d' ms xs [] L)|exact E3|exact I|]. eapply NR; [|exact E3].
    generalize (map (fun mx : measurer F X * X => loaded (fst mx) (snd mx)) (combine ms xs)) ([] : list custom_measurement). clear.
    induction l as [|m l IH]; intros acc; cbn [after_loop]; [constructor|]. apply asks_only_bind.
    + unfold measure_after. destruct (me_value m); [|constructor]. apply asks_only_bind; [constructor; [exact I|constructor]|constructor].
    + intros a. apply asks_only_bind; [apply IH|constructor].
  - eapply CS; [apply (spec_all_before w True d ms)|exact E1|exact I|]. eapply NR; [|exact E1]. unfold measure_all_before.
    apply asks_only_bind; [|constructor]. generalize (rev ms). clear. induction l as [|m l IH]; cbn [each]; [constructor|]. apply asks_only_bind.
    + unfold measure_before. apply asks_only_bind; [constructor; [exact I|constructor]|constructor].
    + intros a. apply asks_only_bind; [exact IH|constructor].
Qed.
Print Assumptions C51_no_panic.
(** after without before (a new or already used measurer first in line): a panic, and no call *)
Theorem C51_after_without_before_panics : forall F D X S (w : world (@bans F D X) S) m (ms : list (measurer F X)) d s tr s' o,
  fexec w (measure_all_after d (idle m :: ms)) s tr s' o -> o = Panic PMeasurer /\ tr = [].
Proof. intros F D X S w m ms d s tr s' o (-> & _ & ->). split; reflexivity. Qed.
Theorem C51_new_measurers_are_idle : forall F X n e d (f g : F), idle (new_measurer n e d f g : measurer F X) = new_measurer n e d f g.
Proof. reflexivity. Qed.

(** ** C69: the dry run [test_run] *)
Theorem C69_dry_run : forall F D X S (b : builder F X) (w : world (@bans F D X) S) s tr s' o,
  fexec w (test_run b) s tr s' o ->
  let ms := b_measurers b in
  (o = Val tt /\
   exists c0 r0 c1 w0 c2 r1 pass1 m1 d1 c3 r2 pass2 m2 d2 xs1 ps1 xs2 ps2,
     b_pass1 b = Some pass1 /\ b_pass2 b = Some pass2 /\
     optionally (b_reset b) None None c0 r0 /\         (* a reset, *)
     optionally (b_warmup b) r0 None c1 w0 /\          (* the warm-up on its result, *)
     optionally (b_reset b) w0 None c2 r1 /\           (* a reset of the warm-up's result; r1 goes to pass 1 *)
     optionally (b_reset b) (Some d1) None c3 r2 /\    (* a reset of pass 1's result; r2 goes to pass 2 *)
     length xs1 = length ms /\ length ps1 = length ms /\ length xs2 = length ms /\ length ps2 = length ms /\
     bcalls tr = c0 ++ c1 ++ c2
       ++ befores ms r1 xs1 ++ [Ran pass1 r1 (Some (m1, d1))] ++ afters ms (Some d1) xs1 ps1 ++ asserted (b_assert1 b) d1
       ++ c3
       ++ befores ms r2 xs2 ++ [Ran pass2 r2 (Some (m2, d2))] ++ afters ms (Some d2) xs2 ps2 ++ asserted (b_assert2 b) d2)
  \/ ((exists p, o = Panic p) /\ ~ (returns w /\ b_sane tr /\ b_pass1 b <> None /\ b_pass2 b <> None)).
Proof.
  intros F D X S b w s tr s' o E. cbv zeta.
  assert (SI : forall H f d, spec w H (run_if f d) (fun c r => optionally f d None c r)).
  { intros H f d. unfold run_if. destruct f as [f|]; [|apply spec_ret; cbn; auto].
    eapply spec_bind; [apply spec_run0|]. intros c [m x] ->. apply spec_ret. cbn. eauto. }
  assert (SD : forall H ms, spec w H (dump ms) (fun c _ => c = [])).
  { intros H ms. revert H. induction ms as [|m ms IH]; intros H; cbn [dump]; [apply spec_ret; reflexivity|].
    eapply spec_bind; [apply spec_out|]. intros c u ->. cbn [app]. apply IH. }
  assert (AL : forall H d ms xs, length xs = length ms -> spec w H (measure_all_after d (map (fun mx : measurer F X * X => loaded (fst mx) (snd mx)) (combine ms xs)))
    (fun c r => exists ps, length ps = length ms /\ c = afters ms d xs ps /\ r = (reported ms ps, map idle ms))).
  { intros H d ms xs L. unfold measure_all_after. exact (spec_after_loop w H d ms xs [] L). }
  assert (SP : spec w (b_pass1 b <> None /\ b_pass2 b <> None) (test_run b) (fun c _ =>
    exists c0 r0 c1 w0 c2 r1 pass1 m1 d1 c3 r2 pass2 m2 d2 xs1 ps1 xs2 ps2,
     b_pass1 b = Some pass1 /\ b_pass2 b = Some pass2 /\
     optionally (b_reset b) None None c0 r0 /\ optionally (b_warmup b) r0 None c1 w0 /\ optionally (b_reset b) w0 None c2 r1 /\
     optionally (b_reset b) (Some d1) None c3 r2 /\
     length xs1 = length (b_measurers b) /\ length ps1 = length (b_measurers b) /\ length xs2 = length (b_measurers b) /\ length ps2 = length (b_measurers b) /\
     c = c0 ++ c1 ++ c2
       ++ befores (b_measurers b) r1 xs1 ++ [Ran pass1 r1 (Some (m1, d1))] ++ afters (b_measurers b) (Some d1) xs1 ps1 ++ asserted (b_assert1 b) d1
       ++ c3
       ++ befores (b_measurers b) r2 xs2 ++ [Ran pass2 r2 (Some (m2, d2))] ++ afters (b_measurers b) (Some d2) xs2 ps2 ++ asserted (b_assert2 b) d2)).
  2:{ destruct (SP _ _ _ _ E) as [([] & -> & H)|N]; [left; split; [reflexivity|exact H]|right; exact N]. }
  unfold test_run. eapply spec_bind; [apply SI|]. intros c0 r0 O0. eapply spec_bind; [apply SI|]. intros c1 w0 O1. eapply spec_bind; [apply SI|]. intros c2 r1 O2.
  eapply spec_bind; [apply spec_all_before|]. intros c ms1 (xs1 & L1 & -> & ->).
  eapply spec_bind; [apply SI|]. intros cp p1 OP1. eapply spec_bind; [apply spec_expect|].
  { intros H. unfold optionally in OP1. destruct (b_pass1 b) as [f|]; [destruct OP1 as (? & ? & _ & ->); discriminate|tauto]. }
  intros c d1 (-> & ->). unfold optionally in OP1. destruct (b_pass1 b) as [f1|]; [|destruct OP1; discriminate]. destruct OP1 as (m1 & d1' & -> & H1). injection H1 as <-.
  eapply spec_bind; [apply AL, L1|]. intros c r (ps1 & LP1 & -> & ->). cbn [fst snd].
  eapply spec_bind; [apply SD|]. intros c u ->. eapply spec_bind; [apply (spec_assertion w _ (b_assert1 b) d1)|]. intros c u' ->.
  eapply spec_bind; [apply SI|]. intros c3 r2 O3.
  eapply spec_bind; [apply spec_all_before|]. intros c ms2 (xs2 & L2 & -> & ->). rewrite map_length in L2.
  assert (ML : map (fun mx : measurer F X * X => loaded (fst mx) (snd mx)) (combine (map idle (b_measurers b)) xs2) = map (fun mx => loaded (fst mx) (snd mx)) (combine (b_measurers b) xs2)).
  { generalize (b_measurers b) xs2. clear. induction l as [|m l IH]; intros [|x xs]; cbn; try reflexivity. rewrite IH. reflexivity. }
  assert (BL : befores (map idle (b_measurers b)) r2 xs2 = befores (b_measurers b) r2 xs2).
  { unfold befores. f_equal. generalize (b_measurers b) xs2. clear. induction l as [|m l IH]; intros [|x xs]; cbn; try reflexivity. rewrite IH. reflexivity. }
  rewrite ML, BL. eapply spec_bind; [apply SI|]. intros cp p2 OP2. eapply spec_bind; [apply spec_expect|].
  { intros H. unfold optionally in OP2. destruct (b_pass2 b) as [f|]; [destruct OP2 as (? & ? & _ & ->); discriminate|tauto]. }
  intros c d2 (-> & ->). unfold optionally in OP2. destruct (b_pass2 b) as [f2|]; [|destruct OP2; discriminate]. destruct OP2 as (m2 & d2' & -> & H2). injection H2 as <-.
  eapply spec_bind; [apply AL, L2|]. intros c r (ps2 & LP2 & -> & ->). cbn [fst snd].
  eapply spec_bind; [apply SD|]. intros c u2 ->. eapply spec_weaken; [apply (spec_assertion w _ (b_assert2 b) d2)|]. intros c u3 ->.
  exists c0, r0, c1, w0, c2, r1, f1, m1, d1, c3, r2, f2, m2, d2, xs1, ps1, xs2, ps2. cbn [app]. auto 20.
Qed.
Print Assumptions C69_dry_run.
(** unlike in [test_algorithm], without a reset function the warm-up's and the first
    pass's data are lost: both passes are called with nothing *)
Theorem C69_without_reset_passes_get_nothing : forall F D X S (b : builder F X) (w : world (@bans F D X) S) s tr s' f1 f2,
  b_reset b = None -> b_pass1 b = Some f1 -> b_pass2 b = Some f2 -> fexec w (test_run b) s tr s' (Val tt) ->
  exists pre a1 mid a2 post, bcalls tr = pre ++ [Ran f1 None (Some a1)] ++ mid ++ [Ran f2 None (Some a2)] ++ post.
Proof.
  intros F D X S b w s tr s' f1 f2 R P1 P2 E. destruct (C69_dry_run _ _ _ _ _ _ _ _ _ _ E) as [(_ & c0 & r0 & c1 & w0 & c2 & r1 & p1 & m1 & d1 & c3 & r2 & p2 & m2 & d2 & xs1 & ps1 & xs2 & ps2 & Q1 & Q2 & O0 & O1 & O2 & O3 & _ & _ & _ & _ & ->)|([p Y] & _)]; [|discriminate].
  rewrite R in *. cbn [optionally] in *. destruct O2 as [-> ->]. destruct O3 as [-> ->]. rewrite P1 in Q1. rewrite P2 in Q2. injection Q1 as <-. injection Q2 as <-.
  exists (c0 ++ c1 ++ befores (b_measurers b) None xs1), (m1, d1), (afters (b_measurers b) (Some d1) xs1 ps1 ++ asserted (b_assert1 b) d1 ++ befores (b_measurers b) None xs2), (m2, d2), (afters (b_measurers b) (Some d2) xs2 ps2 ++ asserted (b_assert2 b) d2).
  rewrite <- !app_assoc. reflexivity.
Qed.
Print Assumptions C69_without_reset_passes_get_nothing.

(** ** Concrete cases.  A world whose state is a clock: functions 1 (reset), 2 (warm-up),
    3 and 4 (passes), 5 and 6 (assertions), 10-13 (measurers) on integer data; a pass
    takes as many seconds as the data it is given. *)
Definition demo_answer (s : Z) (q : @bquery Z Z Z) : Z * option (bans q) :=
  match q as q' return Z * option (bans q') with
  | BRun f d =>
      let x := match d with Some d => d | None => 0 end in
      let r := if Z.eqb f 1 then x else x + 1 in
      (s + 1, Some (PassResult ((x + 1) * 1000000000) (SpacePass 0 0 1000000 0), r))
  | BAssert f d => (s, if Z.eqb d 99 then None else Some tt)
  | BBefore f d => (s + 1, Some s)
  | BAfter f d x => (s + 1, Some (duration_measurement (s - x)))
  | BOut _ => (s, Some tt)
  end.
Definition demo_settings : list (setting Z) :=
  [ SecondPass 1 40; WithResetFn 1; WarmupPass 2; WithMaxReattempts 1; FirstPass 1000 3; FirstPassAssertion 5; SecondPass 2000 4; SecondPassAssertion 6;
    WithTimeMeasurements O1; AddCustomMeasurement "time" O1 "elapsed" 10 11; AddCustomMeasurement "again" ON "elapsed" 12 13 ].
Definition demo_builder : builder Z Z := fold_left set demo_settings (new_builder "demo").
Definition demo_run {A} (m : fprog (@bans Z Z Z) A) := frun demo_answer m 0.
Definition asked (tr : list (fevent (@bans Z Z Z))) : list (Z * option Z) :=
  flat_map (fun c => match c with Ran f d _ => [(f, d)] | Asserted f d _ => [(f, Some d)] | Before f d _ => [(f, d)] | After f d x _ => [(f, Some x)] end) (bcalls tr).
(** two attempts, both with twice the time in pass 2: given up; the second attempt's
    first call is the reset, on the data of the first *)
Example C47_C49_example :
  let '(tr, _, o) := demo_run (test_algorithm_async Debug Tol25 demo_libm demo_builder) in
  asked tr = [(1, None); (2, Some 0); (1, None); (3, Some 0); (5, Some 1); (1, Some 1); (4, Some 1); (6, Some 2);
              (1, Some 2); (2, Some 2); (1, None); (3, Some 0); (5, Some 1); (1, Some 1); (4, Some 1); (6, Some 2)] /\
  exists es e, o = Val (BPanicked es e) /\ length es = 1%nat /\ be_what e = Time.
Proof. vm_compute. split; [reflexivity|]. eexists. eexists. split; [reflexivity|]. split; reflexivity. Qed.
Example C47_example_usable : usable demo_builder.
Proof. unfold usable. cbn -[two32]. rewrite two32_val. split; [discriminate|]. split; [discriminate|]. lia. Qed.
Example C47_example_sane : let '(tr, _, _) := demo_run (test_algorithm_async Debug Tol25 demo_libm demo_builder) in b_sane tr.
Proof.
  destruct (demo_run (test_algorithm_async Debug Tol25 demo_libm demo_builder)) as [[tr s'] o] eqn:E.
  assert (L : forall f d m d', In (Ran f d (Some (m, d'))) (bcalls tr) -> 0 <= pr_time m <= 10000000000 /\ pr_space m = SpacePass 0 0 1000000 0).
  { assert (T : tr = fst (fst (demo_run (test_algorithm_async Debug Tol25 demo_libm demo_builder)))) by (rewrite E; reflexivity). clear E.
    assert (B : forallb (fun c : bcall => match c with Ran _ _ (Some (m, _)) => (0 <=? pr_time m) && (pr_time m <=? 10000000000) && (used_memory_before (pr_space m) =? 0) && (used_memory_after (pr_space m) =? 0) && (max_used_memory (pr_space m) =? 1000000) && (min_used_memory (pr_space m) =? 0) | _ => true end) (bcalls tr) = true).
    { rewrite T. vm_compute. reflexivity. }
    intros f d m d' I. rewrite forallb_forall in B. specialize (B _ I). cbn beta iota in B.
    destruct m as [t0 [a b c e]]. cbn [pr_time pr_space used_memory_before used_memory_after max_used_memory min_used_memory] in *.
    rewrite !andb_true_iff, !Z.leb_le, !Z.eqb_eq in B. destruct B as [[[[[B1 B2] B3] B4] B5] B6]. subst. split; [lia|reflexivity]. }
  intros f d m d' I. destruct (L _ _ _ _ I) as [H1 H2]. destruct m as [t0 sp]. cbn [pr_time pr_space] in *. subst sp.
  unfold sane, duration_sane, well_formed. cbn [pr_time pr_space used_memory_before used_memory_after max_used_memory min_used_memory]. pose proof two64_val. unfold nanos_per_sec. repeat split; try lia.
Qed.
(** the order of the method calls: the last second_pass counts, measurers in declaration order *)
Example C50_example : b_pass2 demo_builder = Some 4 /\ b_n2 demo_builder = 2000 /\ map me_before (b_measurers demo_builder) = [10; 12].
Proof. repeat split. Qed.
(** the dry run: measurers 12, 10 before, 11, 13 after, each after on its own before value *)
Example C51_C69_example :
  let '(tr, _, o) := demo_run (test_run demo_builder) in
  o = Val tt /\
  asked tr = [(1, None); (2, Some 0); (1, Some 1); (12, Some 1); (10, Some 1); (3, Some 1); (11, Some 4); (13, Some 3); (5, Some 2);
              (1, Some 2); (12, Some 2); (10, Some 2); (4, Some 2); (11, Some 10); (13, Some 9); (6, Some 3)].
Proof. vm_compute. split; reflexivity. Qed.
(** without reset: the retry starts from nothing; the dry run gives both passes nothing *)
Definition demo_no_reset : builder Z Z := fold_left set [FirstPass 1000 3; SecondPass 2000 4; WithTimeMeasurements O1; WithMaxReattempts 1] (new_builder "no reset").
Example C48_example :
  asked (fst (fst (demo_run (test_algorithm_async Debug Tol25 demo_libm demo_no_reset)))) = [(3, None); (4, Some 1); (3, None); (4, Some 1)] /\
  asked (fst (fst (demo_run (test_run demo_no_reset)))) = [(3, None); (4, None)].
Proof. vm_compute. split; reflexivity. Qed.
Example C49_example_ignored : differ_in_ignored_options demo_builder (set (set demo_builder (WithAuxiliarySpaceMeasurements O1)) (AddCustomMeasurement "x" O1 "y" 20 21)).
Proof. repeat split. Qed.
