(** * A measured region with concurrent work inside: save point, any concurrent
      allocations, delta_statistics once they are done. *)
From Coq Require Import List ZArith Lia Bool Arith.
From Verif Require Import Machine Ring RingSeq RingConc RingWrap Alloc AllocSpec AllocProofs AllocConc AllocConcSpec AllocConcProofs AllocConcProofs2.
Import ListNotations.
Open Scope Z_scope.

Lemma put_put s t p q : put (put s t p) t q = put s t q.
Proof. unfold put. cbn. rewrite upd_upd. reflexivity. Qed.

Lemma go b S t p q rest S' p' : nth_error (a_threads S) t = Some q ->
  athread_step b (put S t p) t p false = Some (put (put S' t p) t p') ->
  acrun b (put S t p) (AStep t false :: rest) = acrun b (put S' t p') rest.
Proof.
  intros H1 H2. cbn [acrun acstep]. replace (nth_error (a_threads (put S t p)) t) with (Some p).
  - rewrite H2, put_put. reflexivity.
  - symmetry. cbn. apply (nth_upd_same _ _ q). exact H1.
Qed.

Lemma go_snap b S t q h todo : nth_error (a_threads S) t = Some q -> forall acc rest,
  acrun b (put S t (SSnap h todo acc)) (repeat (AStep t false) (length todo) ++ rest) =
  acrun b (put S t (SSnap h [] (acc ++ map (a_mem S) todo))) rest.
Proof.
  intros Hq. induction todo as [|f todo IH]; intros acc rest; cbn [length repeat app map].
  - rewrite app_nil_r. reflexivity.
  - rewrite (go _ _ _ _ q _ S (SSnap h todo (acc ++ [a_mem S f]))); [|exact Hq|reflexivity].
    rewrite IH, <- app_assoc. reflexivity.
Qed.

Lemma go_loads b S t q k mn mx sp : nth_error (a_threads S) t = Some q -> nth_error (a_sps S) k = Some sp ->
  forall todo acc rest ds,
  (forall i f, nth_error todo i = Some f -> exists d, nth_error ds i = Some d /\
     usize_sub b (a_mem S f) (snap_at sp (length acc + i)) = Val d) -> length ds = length todo ->
  acrun b (put S t (DLoads k mn mx todo acc)) (repeat (AStep t false) (length todo) ++ rest) =
  acrun b (put S t (DLoads k mn mx [] (acc ++ ds))) rest.
Proof.
  intros Hq Hk. induction todo as [|f todo IH]; intros acc rest ds Hd HL; cbn [length repeat app].
  - destruct ds; [|discriminate]. rewrite app_nil_r. reflexivity.
  - destruct ds as [|d ds]; [discriminate|]. destruct (Hd 0%nat f eq_refl) as (d' & E & Es). injection E as <-. rewrite Nat.add_0_r in Es.
    rewrite (go _ _ _ _ q _ S (DLoads k mn mx todo (acc ++ [d]))); [|exact Hq|].
    + rewrite (IH _ _ ds); [rewrite <- app_assoc; reflexivity| |injection HL as HL; exact HL].
      intros i g Hg. destruct (Hd (Datatypes.S i) g Hg) as (d2 & E2 & Es2). exists d2. split; [exact E2|].
      rewrite app_length. cbn [length]. rewrite <- Es2. f_equal. f_equal. lia.
    + cbn [athread_step]. replace (nth_error (a_sps (put S t (DLoads k mn mx (f :: todo) acc))) k) with (Some sp) by (symmetry; exact Hk).
      replace (a_mem (put S t (DLoads k mn mx (f :: todo) acc)) f) with (a_mem S f) by reflexivity. rewrite Es. reflexivity.
Qed.

Lemma solo_save b sz s t : (1 <= sz)%nat -> dinv sz s -> fits (a_started s ++ [OSave]) ->
  idle_all s -> (t < length (a_threads s))%nat ->
  exists s' hist, acrun b s (acall t OSave save_steps) = Some s' /\
    a_threads s' = a_threads s /\ a_started s' = a_started s ++ [OSave] /\ a_deltas s' = a_deltas s /\
    (forall f, f <> FMin -> f <> FMax -> a_mem s' f = a_mem s f) /\
    a_mem s' FMin = a_mem s FCur /\ a_mem s' FMax = a_mem s FCur /\
    ring_inv sz hist (a_ring s') /\
    a_sps s' = a_sps s ++ [(Z.of_nat (length hist), map (a_mem s') snapshot_fields)].
Proof.
  intros Hsz (hist & HR & HE & HC & HP & HW & HK & HS) HF HI Ht.
  assert (nth_error (a_threads s) t = Some AIdle) as Et.
  { destruct (nth_error (a_threads s) t) as [p|] eqn:E; [|apply nth_error_None in E; lia].
    pose proof (Forall_nth _ _ _ _ HI E) as H. cbn beta in H. rewrite H. reflexivity. }
  assert (sum (map enq_pend (a_threads s)) = 0) as HZ.
  { clear - HI. unfold idle_all, sum in *. induction HI as [|p l Hp HI IH]; [reflexivity|]. cbn [map fold_right]. rewrite IH, Hp. reflexivity. }
  assert (saves (a_started s) + 1 < two32) as HB.
  { destruct HF as (_ & _ & H). rewrite saves_snoc in H. exact H. }
  destruct (enqueue_ok b sz hist _ (a_mem s FMin, a_mem s FMax) ltac:(lia) HR ltac:(lia)) as (r' & Er & HR').
  set (s1 := put_started s OSave).
  set (s2 := put_ring s1 r').
  set (s3 := put_mem s2 (set (a_mem s) FMin (a_mem s FCur))).
  set (s4 := put_mem s3 (set (a_mem s3) FMax (a_mem s FCur))).
  set (h := consumer r').
  set (s5 := put_sp s4 (h, map (a_mem s4) snapshot_fields)).
  exists (put s5 t AIdle), (hist ++ [(a_mem s FMin, a_mem s FMax)]).
  assert (upd t AIdle (a_threads s) = a_threads s) as EU.
  { clear - Et. revert t Et. induction (a_threads s) as [|p l IH]; intros [|t] E; cbn [nth_error upd] in *; try discriminate.
    - injection E as ->. reflexivity.
    - f_equal. apply IH. exact E. }
  split.
  { unfold acall, save_steps. cbn [acrun acstep]. rewrite Et. cbn [can_start first_apc]. fold s1.
    change (repeat (AStep t false) 21) with
      (AStep t false :: AStep t false :: AStep t false :: AStep t false :: AStep t false :: AStep t false :: AStep t false :: AStep t false ::
       (repeat (AStep t false) (length snapshot_fields) ++ [AStep t false])).
    rewrite (go _ _ _ _ AIdle _ s1 (SLoadMax (a_mem s FMin))); [|exact Et|reflexivity].
    rewrite (go _ _ _ _ AIdle _ s1 (SEnq (a_mem s FMin) (a_mem s FMax))); [|exact Et|reflexivity].
    rewrite (go _ _ _ _ AIdle _ s2 SConsumer); [|exact Et|].
    2:{ cbn [athread_step]. replace (a_ring (put s1 t (SEnq (a_mem s FMin) (a_mem s FMax)))) with (a_ring s) by reflexivity.
        rewrite Er. reflexivity. }
    rewrite (go _ _ _ _ AIdle _ s2 (SLoadCur1 h)); [|exact Et|reflexivity].
    rewrite (go _ _ _ _ AIdle _ s2 (SStoreMin h (a_mem s FCur))); [|exact Et|reflexivity].
    rewrite (go _ _ _ _ AIdle _ s3 (SLoadCur2 h)); [|exact Et|reflexivity].
    rewrite (go _ _ _ _ AIdle _ s3 (SStoreMax h (a_mem s FCur))); [|exact Et|reflexivity].
    rewrite (go _ _ _ _ AIdle _ s4 (SSnap h snapshot_fields [])); [|exact Et|reflexivity].
    rewrite (go_snap _ _ _ AIdle); [|exact Et]. cbn [app].
    rewrite (go _ _ _ _ AIdle _ s5 AIdle); [|exact Et|reflexivity]. reflexivity. }
  fold s1. split; [exact EU|]. split; [reflexivity|]. split; [reflexivity|].
  assert (a_mem (put s5 t AIdle) = a_mem s4) as Em by reflexivity.
  split. { intros f F1 F2. rewrite Em. unfold s4, s3. fld. rewrite !set_other by assumption. reflexivity. }
  split. { rewrite Em. unfold s4, s3. fld. rewrite set_other by discriminate. apply set_same. }
  split. { rewrite Em. unfold s4, s3. fld. apply set_same. }
  split; [exact HR'|]. rewrite Em. unfold s5. fld. f_equal. f_equal. f_equal. unfold h, consumer. destruct HR' as (_ & H & _). exact H.
Qed.

(** steps without save points *)
Definition no_saver (s : acst) : Prop := forall t p, nth_error (a_threads s) t = Some p -> saving p = false.
Lemma no_save_step b s a s' : no_saver s -> saves (calls [a]) = 0 -> Forall wf_pc (a_threads s) -> acstep b s a = Some s' ->
  no_saver s' /\ Forall wf_pc (a_threads s') /\ a_ring s' = a_ring s /\ a_sps s' = a_sps s /\
  a_mem s' FMin <= a_mem s FMin /\ a_mem s FMax <= a_mem s' FMax.
Proof.
  intros HN Hs HW E. 
  assert (forall t p ts, (forall u q, nth_error ts u = Some q -> saving q = false) -> saving p = false ->
            forall u q, nth_error (upd t p ts) u = Some q -> saving q = false) as HU.
  { intros t p ts H1 H2 u q Hu. rewrite nth_error_upd in Hu. destruct (Nat.eqb t u); [|eapply H1; exact Hu].
    destruct (Nat.ltb t (length ts)); [|discriminate]. injection Hu as <-. exact H2. }
  destruct a as [t op|t sp]; cbn [acstep] in E.
  - destruct (nth_error (a_threads s) t) as [p|] eqn:Et; [|discriminate]. destruct p; try discriminate.
    destruct (can_start s op); [|discriminate]. injection E as <-. unfold no_saver. fld.
    split; [apply HU; [exact HN|]|split; [apply Forall_upd; [exact HW|apply wf_first]|repeat split; lia]].
    destruct op; cbn [first_apc]; try reflexivity; try (unfold after_adds; destruct (adds_of _); reflexivity).
    exfalso. cbn in Hs. lia.
  - destruct (nth_error (a_threads s) t) as [p|] eqn:Et; [|discriminate].
    apply step_shapes in E. pose proof (HN t p Et) as Hp. pose proof (Forall_nth _ _ _ _ HW Et) as Hw.
    inversion E; subst; cbn [saving wf_pc] in *; try discriminate; unfold no_saver; fld;
      try (split; [apply HU; [exact HN|reflexivity]|split; [apply Forall_upd; [exact HW|exact I]|repeat split; lia]]).
    + apply cur_last_tl in Hw. destruct Hw as (W & F1 & F2 & _). rewrite !set_other by congruence.
      split; [apply HU; [exact HN|destruct l; reflexivity]|split; [apply Forall_upd; [exact HW|apply wf_after; exact W]|repeat split; lia]].
    + rewrite set_same, set_other by discriminate. split; [apply HU; [exact HN|reflexivity]|split; [apply Forall_upd; [exact HW|exact I]|repeat split; lia]].
    + rewrite set_same, set_other by discriminate. split; [apply HU; [exact HN|reflexivity]|split; [apply Forall_upd; [exact HW|exact I]|repeat split; lia]].
Qed.

Lemma no_save_run b sched : forall s s', no_saver s -> saves (calls sched) = 0 -> Forall wf_pc (a_threads s) -> sinv s ->
  acrun b s sched = Some s' ->
  a_ring s' = a_ring s /\ a_sps s' = a_sps s /\ a_mem s' FMin <= a_mem s FMin /\ a_mem s FMax <= a_mem s' FMax /\ sinv s'.
Proof.
  induction sched as [|a sched IH]; intros s s' HN Hs HW HI; cbn [acrun].
  - intros [= <-]. repeat split; try lia; apply HI.
  - destruct (acstep b s a) as [s1|] eqn:E; [|discriminate]. intros R.
    change (a :: sched) with ([a] ++ sched) in Hs. rewrite calls_app, saves_app in Hs.
    pose proof (saves_nonneg (calls [a])). pose proof (saves_nonneg (calls sched)).
    destruct (no_save_step b s a s1 HN ltac:(lia) HW E) as (N1 & W1 & R1 & S1 & M1 & X1).
    assert (sinv s1) as I1.
    { eapply sinv_step; [|exact HI|exact E]. intros t u p q Et _ Hp _. rewrite (HN t p Et) in Hp. discriminate. }
    destruct (IH s1 s' N1 ltac:(lia) W1 I1 R) as (R2 & S2 & M2 & X2 & I2).
    rewrite R2, S2. repeat split; try assumption; try lia; apply I2.
Qed.

Lemma calls_repeat t n : calls (repeat (AStep t false) n) = [].
Proof. induction n; [reflexivity|]. cbn. exact IHn. Qed.

(** ** In a region without save points, min and max only take values the usage really had in it *)
Definition vinv (V : list Z) (s : acst) : Prop :=
  In (a_mem s FCur) V /\ In (a_mem s FMin) V /\ In (a_mem s FMax) V /\
  Forall (fun p => incl (pc_vals p) V) (a_threads s) /\ Forall wf_pc (a_threads s).

Lemma vinv_step b V s a s' : vinv V s -> acstep b s a = Some s' -> vinv (V ++ [a_mem s' FCur]) s'.
Proof.
  intros (HC & HMn & HMx & HT & HW) E.
  assert (forall c, incl V (V ++ [c])) as HL by (intros c x Hx; apply in_or_app; left; exact Hx).
  assert (forall c, Forall (fun p => incl (pc_vals p) (V ++ [c])) (a_threads s)) as HT'.
  { intros c. eapply Forall_impl; [|exact HT]. intros q Hq x Hx. apply HL. apply Hq. exact Hx. }
  destruct a as [t op|t sp]; cbn [acstep] in E.
  - destruct (nth_error (a_threads s) t) as [p|] eqn:Et; [|discriminate]. destruct p; try discriminate.
    destruct (can_start s op); [|discriminate]. injection E as <-. split; [apply HL; exact HC|]. split; [apply HL; exact HMn|].
    split; [apply HL; exact HMx|].
    fld. split; apply Forall_upd; auto; [|apply wf_first].
    destruct op as [| | |o n ok| |]; cbn [first_apc]; try (intros x []).
  - destruct (nth_error (a_threads s) t) as [p|] eqn:Et; [|discriminate].
    apply step_shapes in E. pose proof (Forall_nth _ _ _ _ HT Et) as Hp. pose proof (Forall_nth _ _ _ _ HW Et) as Hw.
    assert (forall s0 p', a_threads s0 = a_threads s -> wf_pc p' ->
              In (a_mem s0 FMin) V -> In (a_mem s0 FMax) V -> incl (pc_vals p') V ->
              vinv (V ++ [a_mem s0 FCur]) (put s0 t p')) as K.
    { intros s0 p' H1 H4 H5 H6 H7. unfold vinv. fld. rewrite H1.
      split; [apply in_or_app; right; left; reflexivity|]. split; [apply HL; exact H5|].
      split; [apply HL; exact H6|]. split; apply Forall_upd; auto.
      intros x Hx. apply HL. apply H7. exact Hx. }
    assert (forall x, incl [x] V <-> In x V) as I1.
    { intros x. split; [intros H; apply H; left; reflexivity|intros H y [<-|[]]; exact H]. }
    inversion E; subst; cbn [pc_vals] in Hp;
      match goal with |- vinv _ (put ?X _ ?p) => apply (K X p) end;
      fld; cbn [wf_pc pc_vals]; try reflexivity; try exact I; try assumption; try (intros x []; fail);
      try (apply I1; assumption); try (rewrite set_same; apply I1; assumption); try (rewrite set_other by discriminate; assumption).
    all: apply cur_last_tl in Hw; destruct Hw as (W & F1 & F2 & _).
    1: apply wf_after; exact W.
    1, 2: rewrite set_other by congruence; assumption.
    destruct l; intros x [].
Qed.

(** the values the usage had along a run *)
Definition visited b (s : acst) (mid : list aaction) (x : Z) : Prop :=
  exists mid1 mid2 s', mid = mid1 ++ mid2 /\ acrun b s mid1 = Some s' /\ a_mem s' FCur = x.

Lemma vinv_run b : forall mid V s s', vinv V s -> acrun b s mid = Some s' ->
  exists V', vinv V' s' /\ forall x, In x V' -> In x V \/ visited b s mid x.
Proof.
  induction mid as [|a mid IH]; intros V s s' H; cbn [acrun].
  - intros [= <-]. exists V. split; [exact H|]. auto.
  - destruct (acstep b s a) as [s1|] eqn:E; [|discriminate]. intros R.
    destruct (IH _ _ _ (vinv_step _ _ _ _ _ H E) R) as (V' & H' & HV). exists V'. split; [exact H'|].
    intros x Hx. destruct (HV x Hx) as [HI|(m1 & m2 & s2 & E2 & R2 & Ex)].
    + apply in_app_or in HI. destruct HI as [HI|[<-|[]]]; [left; exact HI|right].
      exists [a], mid, s1. split; [reflexivity|]. split; [cbn [acrun]; rewrite E; reflexivity|reflexivity].
    + right. exists (a :: m1), m2, s2. split; [rewrite E2; reflexivity|]. split; [cbn [acrun]; rewrite E; exact R2|exact Ex].
Qed.

Lemma minmax_visited b s mid s' : idle_all s -> a_mem s FMin = a_mem s FCur -> a_mem s FMax = a_mem s FCur ->
  acrun b s mid = Some s' -> visited b s mid (a_mem s' FMin) /\ visited b s mid (a_mem s' FMax).
Proof.
  intros HI H1 H2 R.
  assert (vinv [a_mem s FCur] s) as H.
  { split; [left; reflexivity|]. split; [left; auto|]. split; [left; auto|].
    split; (eapply Forall_impl; [|exact HI]); intros p ->; [intros x []|exact I]. }
  destruct (vinv_run _ _ _ _ _ H R) as (V & (_ & A & B & _) & HV).
  assert (forall x, In x V -> visited b s mid x) as K.
  { intros x Hx. destruct (HV x Hx) as [[<-|[]]|K]; [|exact K]. exists [], mid, s. auto. }
  split; apply K; assumption.
Qed.

Lemma measured_region b sz n sched0 s0 t mid u s1 :
  (1 <= sz)%nat -> Z.of_nat sz < two32 -> (t < n)%nat -> (u < n)%nat ->
  acrun b (acinit sz n) sched0 = Some s0 -> idle_all s0 ->
  saves (calls mid) = 0 ->
  fits (calls sched0 ++ OSave :: calls mid) ->
  acrun b s0 (acall t OSave save_steps ++ mid) = Some s1 -> idle_all s1 ->
  exists s2 mn mx,
    acrun b s1 (acall u (ODelta (length (a_sps s0))) delta_steps) = Some s2 /\
    a_deltas s2 = a_deltas s1 ++
      [(length (a_sps s0),
        Some (map (fun f => total (contrib f) (calls mid)) counter_fields ++ [a_mem s1 FCur; mn; mx]))] /\
    mn <= a_mem s0 FCur <= mx /\ mn <= a_mem s1 FCur <= mx /\
    (forall x, x = mn \/ x = mx -> exists mid1 mid2 s', mid = mid1 ++ mid2 /\
       acrun b s0 (acall t OSave save_steps ++ mid1) = Some s' /\ a_mem s' FCur = x).
Proof.
  intros Hsz HszB Ht Hu R0 I0 Hsv HF R1 I1.
  assert (forall sched (s s' : acst), acrun b s sched = Some s' -> length (a_threads s') = length (a_threads s)) as HLen.
  { induction sched as [|a sched IH]; intros s s'; cbn [acrun]; [intros [= <-]; reflexivity|].
    destruct (acstep b s a) as [s3|] eqn:E; [|discriminate]. intros R. rewrite (IH _ _ R).
    destruct a as [v op|v sp]; cbn [acstep] in E; destruct (nth_error (a_threads s) v) as [p|]; try discriminate.
    - destruct p; try discriminate. destruct (can_start s op); [|discriminate]. injection E as <-. cbn. apply upd_length.
    - apply step_shapes in E. inversion E; subst; fld; apply upd_length. }
  pose proof (HLen _ _ _ R0) as L0. cbn [acinit a_threads] in L0. rewrite repeat_length in L0.
  assert (fits (calls sched0 ++ [OSave])) as HF1.
  { apply (fits_prefix _ (calls mid)). rewrite <- app_assoc. exact HF. }
  pose proof (dinv_run b sz n sched0 Hsz HszB s0 R0 (fits_prefix _ _ HF1)) as D0.
  pose proof (started_run _ _ _ _ R0) as St0. cbn [acinit a_started app] in St0.
  destruct (solo_save b sz s0 t Hsz D0 ltac:(rewrite St0; exact HF1) I0 ltac:(lia)) as
    (sv & hist & Rs & Ts & Ss & Ds & Ms & Mmin & Mmax & HR & Sps).
  rewrite acrun_app, Rs in R1.
  assert (idle_all sv) as Isv by (unfold idle_all; rewrite Ts; exact I0).
  assert (no_saver sv) as Nsv by (intros v p Ev; pose proof (Forall_nth _ _ _ _ Isv Ev) as K; cbn beta in K; rewrite K; reflexivity).
  assert (Forall wf_pc (a_threads sv)) as Wsv by (eapply Forall_impl; [|exact Isv]; intros p ->; exact I).
  assert (a_mem sv FCur = a_mem s0 FCur) as MC by (apply Ms; discriminate).
  assert (sinv sv) as SIsv by (apply sinv_idle; [exact Isv|unfold bounded; lia]).
  destruct (no_save_run b mid sv s1 Nsv Hsv Wsv SIsv R1) as (ER & ESp & Emn & Emx & SI1).
  pose proof (bounded_idle s1 SI1 I1) as [B1 B2].
  pose proof (HLen _ _ _ R1) as L1. rewrite Ts in L1.
  (* exact counters *)
  assert (acrun b (acinit sz n) (sched0 ++ acall t OSave save_steps) = Some sv) as Rsv by (rewrite acrun_app, R0; exact Rs).
  assert (acrun b (acinit sz n) ((sched0 ++ acall t OSave save_steps) ++ mid) = Some s1) as Rs1 by (rewrite acrun_app, Rsv; exact R1).
  assert (calls (sched0 ++ acall t OSave save_steps) = calls sched0 ++ [OSave]) as Csv.
  { rewrite calls_app. f_equal. }
  assert (forall f, In f counter_fields ->
     0 <= a_mem sv f /\ a_mem s1 f - a_mem sv f = total (contrib f) (calls mid) /\ a_mem s1 f < two64 /\ a_mem sv f <= a_mem s1 f) as Hcnt.
  { intros f Hf. destruct (counter_not_minmax f Hf) as (N1 & N2 & _).
    destruct (dinv_run b sz n _ Hsz HszB sv Rsv ltac:(rewrite Csv; exact HF1)) as (h1 & _ & _ & C1 & _).
    destruct (dinv_run b sz n _ Hsz HszB s1 Rs1 ltac:(rewrite calls_app, Csv, <- app_assoc; exact HF)) as (h2 & _ & _ & C2 & _).
    destruct (C1 f Hf) as [P1 E1]. destruct (C2 f Hf) as [P2 E2].
    rewrite (pend_idle f sv Isv) in E1. rewrite (pend_idle f s1 I1) in E2.
    rewrite (started_run _ _ _ _ Rsv), Csv in E1. rewrite (started_run _ _ _ _ Rs1), calls_app, Csv in E2.
    cbn [acinit a_started app] in E1, E2. rewrite !total_app in E1. rewrite !total_app in E2.
    assert (0 <= total (contrib f) (calls mid)) as Hnn.
    { apply total_nonneg. intros op Ho. apply contrib_nonneg; [exact Hf|]. destruct HF as [HF _]. rewrite Forall_forall in HF.
      apply HF. apply in_or_app. right. right. exact Ho. }
    destruct HF as (_ & HF & _). specialize (HF f Hf). change (OSave :: calls mid) with ([OSave] ++ calls mid) in HF. rewrite !total_app in HF.
    repeat split; lia. }
  (* the delta call *)
  assert (nth_error (a_threads s1) u = Some AIdle) as Eu.
  { destruct (nth_error (a_threads s1) u) as [p|] eqn:E; [|apply nth_error_None in E; lia].
    pose proof (Forall_nth _ _ _ _ I1 E) as H. cbn beta in H. rewrite H. reflexivity. }
  set (k := length (a_sps s0)).
  assert (nth_error (a_sps s1) k = Some (Z.of_nat (length hist), map (a_mem sv) snapshot_fields)) as Ek.
  { rewrite ESp, Sps. rewrite nth_error_app2 by (unfold k; lia). unfold k. rewrite Nat.sub_diag. reflexivity. }
  assert (Z.of_nat (length hist) < two32) as Hhl.
  { destruct (dinv_run b sz n _ Hsz HszB sv Rsv ltac:(rewrite Csv; exact HF1)) as (h1 & HR1 & E1 & _).
    rewrite (ring_len_unique _ _ _ _ HR HR1). rewrite (started_run _ _ _ _ Rsv), Csv in E1. cbn [acinit a_started app] in E1.
    destruct HF1 as (_ & _ & HB).
    assert (0 <= sum (map enq_pend (a_threads sv))); [|lia]. clear. unfold sum. induction (a_threads sv) as [|q l IH]; cbn [map fold_right]; [lia|].
    destruct q; cbn [enq_pend]; lia. }
  rewrite <- ER in HR.
  destruct (peek_ok b sz hist _ (length hist) ltac:(lia) HszB HR Hhl ltac:(lia)) as (p1 & p2 & Ep & Es).
  rewrite skipn_all in Ep, Es. cbn [length] in Ep, Es. destruct (Nat.ltb_spec sz 0); [lia|].
  specialize (Es ltac:(lia)). cbn [map] in Es.
  set (S1 := put_started s1 (ODelta k)).
  set (mn := Z.min (two64 - 1) (a_mem s1 FMin)). set (mx := Z.max 0 (a_mem s1 FMax)).
  set (ds := map (fun f => total (contrib f) (calls mid)) counter_fields).
  set (S2 := put_delta S1 (k, Some (ds ++ [a_mem s1 FCur; mn; mx]))).
  exists (put S2 u AIdle), mn, mx.
  split.
  { unfold acall, delta_steps. cbn [acrun acstep]. rewrite Eu. cbn [can_start first_apc].
    assert ((k <? length (a_sps s1))%nat = true) as ->.
    { apply Nat.ltb_lt. apply nth_error_Some. rewrite Ek. discriminate. }
    fold S1.
    change (repeat (AStep u false) 13) with
      (AStep u false :: AStep u false :: AStep u false :: (repeat (AStep u false) (length counter_fields) ++ [AStep u false])).
    rewrite (go _ _ _ _ AIdle _ S1 (DMin k (two64 - 1) 0)); [|exact Eu|].
    2:{ cbn [athread_step]. replace (nth_error (a_sps (put S1 u (DPeek k))) k) with
          (Some (Z.of_nat (length hist), map (a_mem sv) snapshot_fields)) by (symmetry; exact Ek).
        replace (a_ring (put S1 u (DPeek k))) with (a_ring s1) by reflexivity. cbn [fst]. rewrite Ep, Es. reflexivity. }
    rewrite (go _ _ _ _ AIdle _ S1 (DMax k mn 0)); [|exact Eu|reflexivity].
    rewrite (go _ _ _ _ AIdle _ S1 (DLoads k mn mx counter_fields [])); [|exact Eu|reflexivity].
    rewrite (go_loads b S1 u AIdle k mn mx _ Eu Ek _ _ _ ds).
    - cbn [app]. rewrite (go _ _ _ _ AIdle _ S2 AIdle); [|exact Eu|reflexivity]. reflexivity.
    - intros i f Hf. exists (total (contrib f) (calls mid)). split; [unfold ds; rewrite nth_error_map, Hf; reflexivity|].
      replace (a_mem S1 f) with (a_mem s1 f) by reflexivity. cbn [length Nat.add].
      assert (snap_at (Z.of_nat (length hist), map (a_mem sv) snapshot_fields) i = a_mem sv f) as ->.
      { unfold snap_at. cbn [snd]. apply nth_error_nth with (d := 0). rewrite nth_error_map. unfold snapshot_fields.
        rewrite nth_error_app1 by (apply nth_error_Some; congruence). rewrite Hf. reflexivity. }
      destruct (Hcnt f (nth_error_In _ _ Hf)) as (H1 & H2 & H3 & H4). unfold usize_sub. rewrite checked_in by lia. rewrite H2. reflexivity.
    - unfold ds. apply map_length. }
  split; [reflexivity|].
  assert (0 <= a_mem s1 FCur) as P1.
  { destruct (run_inv b cinv (fun s a s' => cinv_step b s a s') _ _ _ (cinv_init sz n) Rs1) as [_ HC].
    rewrite (HC FCur) by discriminate. apply Z.mod_pos_bound. reflexivity. }
  split; [unfold mn, mx; lia|]. split; [unfold mn, mx; lia|].
  destruct (minmax_visited b sv mid s1 Isv ltac:(congruence) ltac:(congruence) R1) as [V1 V2].
  assert (forall x, visited b sv mid x -> 0 <= x < two64 /\ exists mid1 mid2 s', mid = mid1 ++ mid2 /\
       acrun b s0 (acall t OSave save_steps ++ mid1) = Some s' /\ a_mem s' FCur = x) as HV.
  { intros x (m1 & m2 & s' & Em & Rm & Ex). split.
    - assert (acrun b (acinit sz n) ((sched0 ++ acall t OSave save_steps) ++ m1) = Some s') as Rm' by (rewrite acrun_app, Rsv; exact Rm).
      destruct (run_inv b cinv (fun s a s' => cinv_step b s a s') _ _ _ (cinv_init sz n) Rm') as [_ HC].
      rewrite <- Ex, (HC FCur) by discriminate. apply Z.mod_pos_bound. reflexivity.
    - exists m1, m2, s'. split; [exact Em|]. split; [rewrite acrun_app, Rs; exact Rm|exact Ex]. }
  destruct (HV _ V1) as [Q1 W1]. destruct (HV _ V2) as [Q2 W2].
  intros x [->| ->].
  - unfold mn. rewrite Z.min_r by lia. exact W1.
  - unfold mx. rewrite Z.max_r by lia. exact W2.
Qed.
