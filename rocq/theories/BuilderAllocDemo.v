(** * The hypotheses of C94 and C95 are met: passes allocating n bytes and taking n us. *)
From Coq Require Import List ZArith Lia Bool Reals Lra Psatz String.
From Verif Require Import Machine Complexity Floats Analysis AnalysisF64b AnalysisF64d GrowthSpec Bridge Bridge4 Alloc AllocSpec AllocProofs Report Crud CrudSpec Free StandardSpec Present Builder BuilderSpec PropsBuilder EndToEnd EndToEndSpec EndToEndProofs PropsEndToEnd EndToEndDemo BuilderAlloc BuilderAllocSpec BuilderAllocProofs PropsBuilderAlloc Demo.
Import ListNotations.
Open Scope Z_scope.

Section Count.
Context {F D X : Type}.
Local Notation bans := (@bans F D X).
(** ** at most [k] measured calls on any path *)
Definition is_run (q : @bquery F D X) : nat := match q with BRun _ _ => 1%nat | _ => 0%nat end.
Inductive runs_le {A} : nat -> fprog bans A -> Prop :=
| rl_ret k a : runs_le k (FRet a)
| rl_stop k p : runs_le k (FStop p)
| rl_ask k q c : (forall a, runs_le k (c a)) -> runs_le (k + is_run q) (FAsk q c).
Lemma runs_le_more {A} k (m : fprog bans A) : runs_le k m -> forall k', (k <= k')%nat -> runs_le k' m.
Proof.
  induction 1 as [k a|k p|k q c H IH]; intros k' L; try constructor.
  replace k' with ((k' - is_run q) + is_run q)%nat by lia. constructor. intros a. apply IH. lia.
Qed.
Lemma runs_le_bind {A B} k (m : fprog bans A) : runs_le k m -> forall k' (f : A -> fprog bans B), (forall a, runs_le k' (f a)) -> runs_le (k + k') (fbind m f).
Proof.
  induction 1 as [k a|k p|k q c H IH]; intros k' f F0; cbn [fbind].
  - apply runs_le_more with k'; [apply F0|lia].
  - constructor.
  - replace (k + is_run q + k')%nat with (k + k' + is_run q)%nat by lia. constructor. intros a. apply IH, F0.
Qed.
Lemma runs_le_lift {A} (x : res A) : runs_le 0 (flift x). Proof. destruct x; constructor. Qed.
Lemma runs_le_ask q : runs_le (is_run q) (ask q).
Proof. change (is_run q) with (0 + is_run q)%nat. constructor. intros a. constructor. Qed.
Lemma runs_le_verbosely b pre suf f d : runs_le 1 (@run_verbosely F D X b pre suf f d).
Proof.
  unfold run_verbosely. apply (runs_le_bind 1 _ (runs_le_ask (BRun f d)) 0). intros x. apply (runs_le_bind 0 _ (runs_le_lift _) 0). intros s.
  apply (runs_le_bind 0 _ (runs_le_ask (BOut _)) 0). intros _. constructor.
Qed.
Lemma runs_le_attempt bd t l (b : builder F X) previous : runs_le 6 (@raw_analyse F D X bd t l b previous).
Proof.
  assert (RV : forall {A} pre suf f d (k : pass_result * D -> fprog bans A), (forall x, runs_le 0 (k x)) -> runs_le 1 (fbind (run_verbosely bd pre suf f d) k)).
  { intros A pre suf f d k H. apply (runs_le_bind 1 _ (runs_le_verbosely _ _ _ _ _) 0), H. }
  unfold raw_analyse. apply (runs_le_bind 0 _ (runs_le_ask (BOut _)) 6). intros _.
  apply (runs_le_bind 1 _). { destruct (b_reset b); [apply RV; intros x|]; constructor. } intros d0.
  apply (runs_le_bind 2 _).
  { destruct (b_warmup b); [|constructor]. apply (runs_le_bind 1 _ (runs_le_verbosely _ _ _ _ _) 1). intros x. destruct (b_reset b); [apply RV; intros y|]; constructor. } intros d1.
  assert (EX : forall A (o : option A), runs_le 0 (@expect F D X A o)) by (intros A [a|]; constructor).
  apply (runs_le_bind 0 _ (EX _ _) 3). intros p1. apply (runs_le_bind 0 _ (EX _ _) 3). intros p2.
  assert (AS : forall o d, runs_le 0 (@run_assertion F D X o d)) by (intros [f|] d; [apply (runs_le_ask (BAssert f d))|constructor]).
  apply (runs_le_bind 1 _ (runs_le_verbosely _ _ _ _ _) 2). intros x1. apply (runs_le_bind 0 _ (AS _ _) 2). intros _.
  apply (runs_le_bind 1 _). { destruct (b_reset b); [apply RV; intros x|]; constructor. } intros d2.
  apply (runs_le_bind 1 _ (runs_le_verbosely _ _ _ _ _) 0). intros x2. apply (runs_le_bind 0 _ (AS _ _) 0). intros _.
  apply (runs_le_bind 0 _ (runs_le_lift _) 0). intros sc. apply (runs_le_bind 0 _ (runs_le_ask (BOut _)) 0). intros _. apply (runs_le_bind 0 _ (runs_le_lift _) 0). intros rep.
  apply (runs_le_bind 0 _ (runs_le_ask (BOut _)) 0). intros _.
  destruct (match b_space b with Some e => if worse_than sc e then Some e else None | None => None end).
  - apply (runs_le_bind 0 _ (runs_le_ask (BOut _)) 0). intros _. constructor.
  - destruct (match b_time b with Some _ => _ | None => None end); [apply (runs_le_bind 0 _ (runs_le_ask (BOut _)) 0); intros _|]; constructor.
Qed.
Lemma runs_le_test bd t l (b : builder F X) : runs_le (6 * (1 + Z.to_nat (reattempts b))) (@test_algorithm_async F D X bd t l b).
Proof.
  unfold test_algorithm_async. change (unwrap_or (b_max_reattempts b) 0) with (reattempts b). generalize (Z.to_nat (reattempts b)) as max. intros max.
  replace (6 * (1 + max))%nat with (6 * (1 + max) + 0)%nat by lia. apply runs_le_bind; [|intros x; constructor].
  unfold retry_with_delays. replace (6 * (1 + max))%nat with (6 + 6 * max)%nat by lia.
  apply runs_le_bind; [apply runs_le_attempt|]. intros [o|i e|i f]; [constructor| |constructor].
  assert (L : forall n i errs e, runs_le (6 * n) (retry_loop (@reattempt F D X bd t l) n i errs e)).
  { induction n as [|n IH]; intros i0 errs e0; cbn [retry_loop]; [constructor|].
    replace (6 * Datatypes.S n)%nat with (6 + 6 * n)%nat by lia.
    apply runs_le_bind; [unfold reattempt; apply (runs_le_bind 0 _ (runs_le_ask (BOut _)) 6); intros _; apply runs_le_attempt|].
    intros [o|i1 e1|i1 f1]; [constructor|apply IH|constructor]. }
  apply L.
Qed.
End Count.

(** ** the program: reset is function 1, the warm-up 2, the passes 3 and 4, the assertion 5 *)
Definition async_ops (f : Z) : list aop := demo_ops (if f =? 3 then 1000 else if f =? 4 then 2000 else 64).
Definition async_time (f : Z) : duration := if f =? 3 then 1000000 else if f =? 4 then 2000000 else 5.
Definition async_closure : async_behaviour Z Z Z unit := fun _ q _ ops d r =>
  match q as q' return option (user_value q') -> Prop with
  | BRun f data => fun r => ops = async_ops f /\ d = async_time f /\ r = Some f
  | BAssert _ _ => fun r => ops = [] /\ r = Some tt
  | BBefore _ _ => fun r => ops = [] /\ r = Some 0
  | BAfter _ _ _ => fun r => ops = [] /\ r = Some (duration_measurement 1)
  | BOut _ => fun r => ops = [] /\ r = Some tt
  end r.
Definition async_builder (mt ms : option complexity) : builder Z Z :=
  Builder "demo" (Some 1) (Some 2) (Some 2) 1000 (Some 3) None (Some 5) 2000 (Some 4) None (Some 5) mt ms None [].

Lemma async_history b {A} (m : fprog (@bans Z Z Z) A) k : runs_le k m -> forall s tr s' o j,
  fexec (async_world b async_closure) m s tr s' o -> tame j (m_history s) -> exists j', (j' <= j + k)%nat /\ tame j' (m_history s').
Proof.
  induction 1 as [k a|k p|k q c H IH]; intros s tr s' o j Y T.
  - destruct Y as (_ & -> & _). exists j. split; [lia|exact T].
  - destruct Y as (_ & -> & _). exists j. split; [lia|exact T].
  - assert (ST : forall s2 (a : option (bans q)), async_world b async_closure s q s2 a -> tame (j + is_run q) (m_history s2)).
    { intros s2 a W. unfold async_world in W. destruct q; destruct W as (ops & d & r & CC & HH & _); rewrite HH; destruct CC as (-> & _).
      1: cbn [is_run]; constructor; [destruct (_ =? 3); [lia|destruct (_ =? 4); lia]|exact T].
      all: rewrite app_nil_r; cbn [is_run]; rewrite Nat.add_0_r; exact T. }
    destruct Y as [(a & s2 & tr' & W & Y & _)|(W & _)].
    + destruct (IH a _ _ _ _ _ Y (ST _ _ W)) as (j' & L & T'). exists j'. split; [lia|exact T'].
    + exists (j + is_run q)%nat. split; [lia|exact (ST _ _ W)].
Qed.
Lemma async_answers b : answers (async_world b async_closure).
Proof.
  intros s q.
  assert (PL : forall q (r : option (user_value q)), (forall u u', async_closure u q u' [] 0 r) -> exists s' x, plain b async_closure q s s' x).
  { intros q0 r HC. exists (MState (m_alloc s) (m_history s) tt), r, [], 0, r. split; [apply HC|]. split; [cbn [m_history]; rewrite app_nil_r; reflexivity|]. cbn [arun m_alloc]. auto. }
  destruct q as [f data|f data|f data|f data x|i].
  - destruct (run_async_pass_space b (m_alloc s) (async_ops f)) as [[al m]|p|] eqn:E.
    + exists (MState al (m_history s ++ OSave :: async_ops f) tt), (Some (PassResult (async_time f) m, f)), (async_ops f), (async_time f), (Some f). rewrite E. repeat split.
    + exists (MState (m_alloc s) (m_history s ++ OSave :: async_ops f) tt), None, (async_ops f), (async_time f), (Some f). rewrite E. repeat split.
    + exists (MState (m_alloc s) (m_history s ++ OSave :: async_ops f) tt), None, (async_ops f), (async_time f), (Some f). rewrite E. repeat split.
  - apply (PL (BAssert f data) (Some tt)). split; reflexivity.
  - apply (PL (BBefore f data) (Some 0)). split; reflexivity.
  - apply (PL (BAfter f data x) (Some (duration_measurement 1))). split; reflexivity.
  - apply (PL (BOut i) (Some tt)). split; reflexivity.
Qed.
Lemma async_returns : never_panics async_closure.
Proof. intros u q u' ops d r C. destruct q; [destruct C as (_ & _ & ->)|destruct C as (_ & ->)..]; discriminate. Qed.
Lemma async_behaved : well_behaved kept_slots async_closure.
Proof.
  intros u f data u' ops d r (-> & -> & _). unfold duration_sane, nanos_per_sec, async_time, async_ops, kept_slots.
  destruct (f =? 3); [|destruct (f =? 4)]; (split; [lia|cbn; lia]).
Qed.

(** tests of the same program: limits O(n) and O(n), or no limits at all, and it passes; O(1) memory
    and it is rejected for space; O(1) time, for time, whether or not there is a memory limit *)
Example C94_example : forall b t mt ms, exists tr s' o,
  fexec (async_world b async_closure) (test_algorithm_async b t good_libm (async_builder mt ms)) (MState (ainit ring_slots) [] tt) tr s' o /\
  roomy (m_history s') /\
  (mt = Some ON -> ms = Some ON -> o = Val BPassed /\ length (bcalls tr) = 8%nat) /\
  (mt = None -> ms = None -> o = Val BPassed) /\
  (ms = Some O1 -> o = Val (BPanicked [] (BError "demo" Space O1 ON)) /\ length (bcalls tr) = 8%nat) /\
  (mt = Some O1 -> ms = None \/ ms = Some ON ->
     o = Val (BPanicked [BError "demo" Time O1 ON; BError "demo" Time O1 ON] (BError "demo" Time O1 ON)) /\ length (bcalls tr) = 24%nat).
Proof.
  intros b t mt ms.
  destruct (fexec_exists _ (test_algorithm_async b t good_libm (async_builder mt ms)) (async_answers b) (MState (ainit ring_slots) [] tt)) as (tr & s' & o & Y).
  exists tr, s', o. split; [exact Y|].
  destruct (async_history b _ _ (runs_le_test b t good_libm (async_builder mt ms)) _ _ _ _ 0%nat Y tame_nil) as (j & L & T).
  change (Z.to_nat (reattempts (async_builder mt ms))) with 2%nat in L.
  assert (R : roomy (m_history s')). { apply tame_roomy with j; [|exact T]. rewrite two32_val. lia. }
  split; [exact R|].
  destruct (C94_end_to_end Z Z Z unit b t good_libm (async_builder mt ms) async_closure 3 4 1000 Ln 1 Ln [] (ainit ring_slots) [] tt tr s' o) as (runs & ME & LEN);
    [exact good_libm_accurate|reflexivity|reflexivity|cbn; lia|rewrite two32_val; cbn; lia|intros [?|?]; discriminate|intros [?|?]; discriminate|lra|lra| | |exact async_returns|exact async_behaved|rewrite two32_val; cbn; lia|reflexivity|exact Y|exact R|].
  - intros u data u' ops d r (-> & -> & _). change (b_n1 (async_builder mt ms)) with 1000. change (async_ops 3) with (demo_ops 1000). change (async_time 3) with 1000000. unfold follows. cbn [law_fun].
    split; [lra|]. exists 1000. split; [apply demo_peak; lia|lra].
  - intros u data u' ops d r (-> & -> & _). change (b_n2 (async_builder mt ms)) with 2000. change (async_ops 4) with (demo_ops 2000). change (async_time 4) with 2000000. unfold follows. cbn [law_fun].
    split; [lra|]. exists 2000. split; [apply demo_peak; lia|lra].
  - change (calls_per_attempt (async_builder mt ms)) with 8 in LEN.
    unfold b_must_end in ME. change (reattempts (async_builder mt ms)) with 2 in ME. change (Z.to_nat 2) with 2%nat in ME. cbn [async_builder b_space b_time b_name law_class repeat within] in ME.
    assert (K : forall a c, clt a c -> cle c a -> False) by (unfold clt, cle; intros; lia).
    assert (K1 : clt O1 ON) by (unfold clt; cbn; lia). assert (K2 : ~ clt ON ON) by (unfold clt; lia).
    split; [intros -> ->|split; [intros -> ->|split; [intros ->|intros -> HM]]].
    + destruct ME as [(e & Q & A & _)|[(_ & e & Q & A & _)|(_ & _ & -> & ->)]]; [injection Q as <-; destruct (K2 A)|injection Q as <-; destruct (K2 A)|]. split; [reflexivity|lia].
    + destruct ME as [(e & Q & _)|[(_ & e & Q & _)|(_ & _ & -> & _)]]; [discriminate|discriminate|reflexivity].
    + destruct ME as [(e & Q & A & -> & ->)|[(W & _)|(W & _)]]; [injection Q as <-; split; [reflexivity|lia]| |]; destruct (K _ _ K1 (W _ eq_refl)).
    + destruct ME as [(e & Q & A & _)|[(_ & e & Q & A & -> & ->)|(_ & W & _)]].
      * destruct HM as [-> | ->]; [discriminate|]. injection Q as <-. destruct (K2 A).
      * injection Q as <-. split; [reflexivity|lia].
      * destruct (K _ _ K1 (W _ eq_refl)).
Qed.

(** a program that allocates nothing, allowed O(n) memory: rejected; without a memory limit it is not *)
Definition lean_closure : async_behaviour Z Z Z unit := fun _ q _ ops d r =>
  ops = [] /\ d = 1000000 /\ match q as q' return option (user_value q') -> Prop with
  | BRun f data => fun r => r = Some f
  | BAssert _ _ => fun r => r = Some tt
  | BBefore _ _ => fun r => r = Some 0
  | BAfter _ _ _ => fun r => r = Some (duration_measurement 1)
  | BOut _ => fun r => r = Some tt
  end r.
Lemma lean_answers b : answers (async_world b lean_closure).
Proof.
  intros s q.
  assert (PL : forall q (r : option (user_value q)), (forall u u', lean_closure u q u' [] 1000000 r) -> exists s' x, plain b lean_closure q s s' x).
  { intros q0 r HC. exists (MState (m_alloc s) (m_history s) tt), r, [], 1000000, r. split; [apply HC|]. split; [cbn [m_history]; rewrite app_nil_r; reflexivity|]. cbn [arun m_alloc]. auto. }
  destruct q as [f data|f data|f data|f data x|i].
  - destruct (run_async_pass_space b (m_alloc s) []) as [[al m]|p|] eqn:E.
    + exists (MState al (m_history s ++ [OSave]) tt), (Some (PassResult 1000000 m, f)), [], 1000000, (Some f). rewrite E. repeat split.
    + exists (MState (m_alloc s) (m_history s ++ [OSave]) tt), None, [], 1000000, (Some f). rewrite E. repeat split.
    + exists (MState (m_alloc s) (m_history s ++ [OSave]) tt), None, [], 1000000, (Some f). rewrite E. repeat split.
  - apply (PL (BAssert f data) (Some tt)). repeat split.
  - apply (PL (BBefore f data) (Some 0)). repeat split.
  - apply (PL (BAfter f data x) (Some (duration_measurement 1))). repeat split.
  - apply (PL (BOut i) (Some tt)). repeat split.
Qed.
Lemma lean_history b {A} (m : fprog (@bans Z Z Z) A) k : runs_le k m -> forall s tr s' o j,
  fexec (async_world b lean_closure) m s tr s' o -> m_history s = repeat OSave j -> exists j', (j' <= j + k)%nat /\ m_history s' = repeat OSave j'.
Proof.
  induction 1 as [k a|k p|k q c H IH]; intros s tr s' o j Y T.
  - destruct Y as (_ & -> & _). exists j. split; [lia|exact T].
  - destruct Y as (_ & -> & _). exists j. split; [lia|exact T].
  - assert (ST : forall s2 (a : option (bans q)), async_world b lean_closure s q s2 a -> m_history s2 = repeat OSave (j + is_run q)).
    { intros s2 a W. unfold async_world in W. destruct q; destruct W as (ops & d & r & CC & HH & _); rewrite HH; destruct CC as (-> & _); rewrite T; cbn [is_run].
      1: rewrite repeat_app; reflexivity. all: rewrite Nat.add_0_r, app_nil_r; reflexivity. }
    destruct Y as [(a & s2 & tr' & W & Y & _)|(W & _)].
    + destruct (IH a _ _ _ _ _ Y (ST _ _ W)) as (j' & L & T'). exists j'. split; [lia|exact T'].
    + exists (j + is_run q)%nat. split; [lia|exact (ST _ _ W)].
Qed.
Example C95_example : forall b t, exists tr s',
  fexec (async_world b lean_closure) (test_algorithm_async b t demo_libm (async_builder None (Some ON))) (MState (ainit ring_slots) [] tt) tr s'
    (Val (BPanicked [] (BError "demo" Space ON WorseThanExponential))).
Proof.
  intros b t.
  destruct (fexec_exists _ (test_algorithm_async b t demo_libm (async_builder None (Some ON))) (lean_answers b) (MState (ainit ring_slots) [] tt)) as (tr & s' & o & Y).
  exists tr, s'.
  destruct (lean_history b _ _ (runs_le_test b t demo_libm (async_builder None (Some ON))) _ _ _ _ 0%nat Y eq_refl) as (j & L & T).
  change (Z.to_nat (reattempts (async_builder None (Some ON)))) with 2%nat in L.
  assert (PK : peak [] 0). { unfold peak, levels. cbn. split; [left; reflexivity|]. intros x [<-|[]]. cbn. lia. }
  destruct (C95_no_growth_fails Z Z Z unit b t demo_libm (async_builder None (Some ON)) lean_closure 3 4 ON [] (ainit ring_slots) [] tt tr s' o) as [-> _];
    [exact demo_powf_zero|reflexivity|reflexivity|rewrite two32_val; cbn; lia|rewrite two32_val; cbn; lia| | | | |rewrite two32_val; cbn; lia|reflexivity|exact Y| |reflexivity|discriminate|exact Y].
  - intros u data u' ops d r (-> & _). exact PK.
  - intros u data u' ops d r (-> & _). exact PK.
  - intros u q u' ops d r (_ & _ & C). destruct q; rewrite C; discriminate.
  - intros u f data u' ops d r (-> & -> & _). unfold duration_sane, nanos_per_sec, kept_slots. split; [lia|cbn; lia].
  - rewrite T. pose proof two64_val as V64. pose proof two32_val as V32.
    assert (F : Forall (eq OSave) (repeat OSave j)) by (apply Forall_forall; intros x Hx; apply repeat_spec in Hx; auto).
    assert (TOT : forall f, f OSave = 0 -> forall h0, Forall (eq OSave) h0 -> total f h0 = 0).
    { intros f F0 h0 FF. unfold total. induction FF as [|x h0 <- FF IH]; [reflexivity|]. cbn [map sum fold_right]. rewrite F0. unfold sum in IH. rewrite IH. reflexivity. }
    assert (LV : forall x, In x (levels [] (repeat OSave j)) -> x = 0).
    { intros x Hx. unfold levels in Hx. apply in_map_iff in Hx. destruct Hx as (i & <- & _). apply TOT; [reflexivity|].
      cbn [app]. rewrite Forall_forall in F |- *. intros y Hy. apply F. rewrite <- (firstn_skipn i). apply in_or_app. left. exact Hy. }
    assert (SV : saves (repeat OSave j) = Z.of_nat j).
    { clear. unfold saves, total. induction j as [|j IH]; [reflexivity|]. cbn [repeat map sum fold_right is_save]. unfold sum in IH. rewrite IH. lia. }
    split; [|intros x Hx; rewrite (LV x Hx); lia].
    split; [revert F; apply Forall_impl; intros x <-; exact I|]. split; [intros x Hx; rewrite (LV x Hx); lia|].
    rewrite !(TOT _ eq_refl _ F), SV, repeat_length. repeat split; lia.
Qed.
