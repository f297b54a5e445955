(** * Relaxed memory: min / max of the usage between a save point and a delta request on it.
    Part 3: along a schedule. *)
From Coq Require Import List ZArith Lia Bool Arith.
From Verif Require Import Machine Ring RingSeq RingConc Alloc AllocSpec AllocProofs AllocConc AllocConcSpec AllocConcProofs AllocConcProofs2
  RingWeak RingWeakSpec RingWeakProofs RingWeakProofs2 RingWeakProofs3 RingWeakProofs4 RingWeakProofs5 RingWeakPeek
  AllocWeak AllocWeakSpec AllocWeakProofs AllocWeakProofs2 AllocWeakProofs3 AllocWeakProofs4 AllocWeakProofs5 AllocWeakCalls AllocWeakMinMax AllocWeakMinMax2.
Import ListNotations.
Open Scope Z_scope.

(** ** Steps that touch nothing but what their own thread knows *)
Definition is_sync (a : kaction) : Prop := match a with KSend _ | KRecv _ _ => True | _ => False end.
Lemma sync_step b n s a s' : KWf n s -> kstep b s a = Some s' -> is_sync a ->
  k_msgs s' = k_msgs s /\ k_threads s' = k_threads s /\ k_sps s' = k_sps s /\ k_deltas s' = k_deltas s /\
  w_pub (k_ring s') = w_pub (k_ring s) /\ w_heads (k_ring s') = w_heads (k_ring s) /\
  forall u, u <> kactor a -> kview_of s' u = kview_of s u /\ view_of (k_ring s') u = view_of (k_ring s) u.
Proof.
  intros HW E SY. unfold kstep in E. destruct (kact b s a) as [s1|] eqn:E1; [|discriminate]. injection E as <-.
  destruct a as [t op|t fails picks|t|t k]; try (destruct SY; fail); cbn [kact kactor] in *.
  - destruct (nth_error (k_threads s) t) as [[]|]; try discriminate. destruct (wstep b (k_ring s) (Send t)) as [r|] eqn:Er; [|discriminate]. injection E1 as <-.
    cbn [wstep] in Er. destruct (nth_error (w_threads (k_ring s)) t) as [[]|]; try discriminate. injection Er as <-. repeat split.
  - destruct (nth_error (k_threads s) t) as [[]|] eqn:Et; try discriminate. destruct (nth_error (k_sent s) k); [|discriminate].
    destruct (wstep b (k_ring s) (Recv t k)) as [r|] eqn:Er; [|discriminate]. injection E1 as <-.
    cbn [wstep] in Er. destruct (nth_error (w_threads (k_ring s)) t) as [[]|] eqn:Eq; try discriminate. destruct (nth_error (w_sent (k_ring s)) k); [|discriminate]. injection Er as <-.
    assert (Ht : (t < n)%nat) by (rewrite <- (W_len _ _ HW); apply nth_error_Some; congruence).
    repeat (split; [reflexivity|]). intros u N. split.
    + change (kview_of (kput_view s t (kv_join k0 (kview_of s t))) u = kview_of s u). rewrite view_put by (rewrite (W_lenv _ _ HW); exact Ht).
      rewrite (proj2 (Nat.eqb_neq _ _)) by congruence. reflexivity.
    + kfld. unfold view_of at 1. cbn [goto w_views]. rewrite view_upd, (proj2 (Nat.eqb_neq _ _)) by congruence. reflexivity.
Qed.
(** an idle thread does nothing but begin a call, send and receive *)
Lemma idle_act b s a s' : kstep b s a = Some s' -> nth_error (k_threads s) (kactor a) = Some AIdle -> is_sync a \/ exists t op, a = KStart t op.
Proof.
  intros E I. destruct a as [t op|t fails picks|t|t k]; cbn [is_sync kactor] in *; eauto.
  unfold kstep in E. cbn [kact] in E. rewrite I in E. discriminate.
Qed.

(** ** The usage is a 64 bit number *)
Definition cur_range (s : kst) : Prop := Forall (fun m => 0 <= f_val m < two64) (k_msgs s FCur).
Lemma cur_range_step b n s a s' : KWf n s -> Forall wf_pc (k_threads s) -> cur_range s -> kstep b s a = Some s' -> cur_range s'.
Proof.
  intros HW WF H E. unfold kstep in E. destruct (kact b s a) as [s1|] eqn:E1; [|discriminate]. injection E as <-.
  assert (SAME : k_msgs s1 FCur = k_msgs s FCur -> cur_range (ktick s1)) by (unfold cur_range; kfld; intros ->; exact H).
  destruct a as [t op|t fails picks|t|t k]; cbn [kact] in *.
  - apply SAME. destruct (nth_error (k_threads s) t) as [[]|]; try discriminate. destruct (kcan_start s t op); [|discriminate]. injection E1 as <-. reflexivity.
  - destruct (nth_error (k_threads s) t) as [p|] eqn:Et; [|discriminate]. apply kstep_shapes in E1. inversion E1; subst; try (apply SAME; reflexivity);
      try (apply SAME; apply written_other; discriminate).
    + destruct (field_eq_dec f FCur) as [->|N].
      * unfold cur_range. change (Forall (fun m => 0 <= f_val m < two64) (k_msgs (written s t FCur k (wrap64 (v + n0)) true) FCur)).
        match goal with C : can_write _ _ _ _ |- _ => pose proof (counter_end n s t FCur k HW C ltac:(discriminate) ltac:(discriminate)) as END end.
        rewrite written_end by exact END. apply Forall_app. split; [exact H|]. constructor; [|constructor]. cbn [f_val]. unfold wrap64. apply Z.mod_pos_bound. reflexivity.
      * apply SAME. apply written_other. congruence.
    + apply SAME. match goal with L : ring_ret _ _ _ _ _ |- _ => destruct (ring_ret_same _ _ _ _ _ L) as (M & _) end. exact (M FCur).
  - apply SAME. destruct (nth_error (k_threads s) t) as [[]|]; try discriminate. destruct (wstep b (k_ring s) (Send t)); [|discriminate]. injection E1 as <-. reflexivity.
  - apply SAME. destruct (nth_error (k_threads s) t) as [[]|]; try discriminate. destruct (nth_error (k_sent s) k); [|discriminate].
    destruct (wstep b (k_ring s) (Recv t k)); [|discriminate]. injection E1 as <-. reflexivity.
Qed.

(** ** The heads of the save points' consumers never move *)
Lemma ring_heads b (r : wstate (Z * Z)) a r' : wstep b r a = Some r' -> (forall t p, nth_error (w_threads r) t = Some p -> peeking p) ->
  exists l, w_heads r' = w_heads r ++ l.
Proof.
  intros E P. destruct a as [t op|t f picks|t|t k]; cbn [wstep] in E.
  1,3,4: split_step E; injection E as <-; exists []; rewrite app_nil_r; reflexivity.
  destruct (nth_error (w_threads r) t) as [p|] eqn:Et; [|discriminate]. specialize (P t p Et).
  destruct p; cbn [wthread_step] in E; try discriminate; try (destruct P; fail).
  all: split_step E; injection E as <-; try (exists []; rewrite app_nil_r; reflexivity).
  eexists. reflexivity.
Qed.

Section Path.
Variables (b : build) (sz n : nat) (sched : list kaction).
Hypothesis HS : (1 <= sz)%nat.
Hypothesis HSB : Z.of_nat sz < two32.
Hypothesis HN : (n <= sz)%nat.
Hypothesis HF : fits (kcalls sched).
Notation kat := (kat b sz n sched).
Notation kpc := (kpc b sz n sched).
Notation call_over := (call_over b sz n sched).
Notation KSat := (kat_KS b sz n sched HS HSB HN HF).

Lemma heads_mono i j s s' c m : (i <= j)%nat -> kat i = Some s -> kat j = Some s' -> nth_error (w_heads (k_ring s)) c = Some m ->
  nth_error (w_heads (k_ring s')) c = Some m.
Proof.
  intros L. revert s'. induction L as [|j L IH]; intros s' H H' E; [congruence|].
  destruct (kat_prev _ _ _ _ _ _ H') as (s1 & H1). specialize (IH s1 H H1 E).
  destruct (nth_error sched j) as [a|] eqn:Ha; [|rewrite (kat_nth _ _ _ _ j s1 s' H1 H' Ha); exact IH].
  pose proof (kat_S _ _ _ _ _ _ _ _ Ha H1 H') as ST. destruct (KSat j s1 H1) as (KN1 & RG1 & _).
  destruct (pairs_step b n s1 a s' (N_wf _ _ KN1) (G_rk _ _ _ RG1) (G_pair _ _ _ RG1) ST) as ([RE|(ra & RE & _)] & _); [rewrite RE; exact IH|].
  destruct (ring_heads b _ _ _ RE (RK_pcs _ (G_rk _ _ _ RG1))) as (l & ->). rewrite nth_error_app1; [exact IH|apply nth_error_Some; congruence].
Qed.
Lemma cur_range_at j s : kat j = Some s -> cur_range s.
Proof.
  revert s. induction j as [|j IH]; intros s H.
  - unfold kat in H. cbn in H. injection H as <-. unfold cur_range. cbn [kinit k_msgs]. constructor; [cbn [f_val]; unfold two64; lia|constructor].
  - destruct (kat_prev _ _ _ _ _ _ H) as (s1 & H1). destruct (nth_error sched j) as [a|] eqn:Ha.
    + eapply cur_range_step; [eapply kat_wf; exact H1| |apply (IH s1 H1)|eapply kat_S; eassumption]. apply (N_pcs _ _ (proj1 (KSat j s1 H1))).
    + rewrite (kat_nth _ _ _ _ j s1 s H1 H Ha). exact (IH s1 H1).
Qed.

(** messages are written by steps inside calls *)
Lemma writer_steps j s f p m i : (j <= length sched)%nat -> kat j = Some s -> nth_error (k_msgs s f) p = Some m -> f_by m = Some i ->
  (i < j)%nat /\ exists t fails picks, nth_error sched i = Some (KStep t fails picks).
Proof.
  intros L H Hp Hm. destruct (writer_knows b sz n sched j s L H f p m i Hp Hm) as (Li & a & s1 & Ha & H1 & (p1 & m1 & E1 & E2 & _)).
  split; [exact Li|]. destruct (kat_prev _ _ _ _ _ _ H1) as (s0 & H0). pose proof (kat_S _ _ _ _ _ _ _ _ Ha H0 H1) as ST. pose proof (kat_wf _ _ _ _ _ _ H0) as HW.
  assert (SAME : k_msgs s1 f = k_msgs s0 f -> False).
  { intros Q. rewrite Q in E1. destruct p1 as [|p1].
    - destruct (W_msgs _ _ HW f) as (m0 & Q0 & Q1). congruence.
    - destruct (W_by _ _ HW f p1 m1 E1) as (j' & Q1 & Q2). rewrite (clock_at b sz n sched i s0 ltac:(lia) H0) in Q2. rewrite E2 in Q1. injection Q1 as <-. lia. }
  destruct a as [t op|t fails picks|t|t k]; [|eauto|exfalso; apply SAME..].
  - exfalso. apply SAME. unfold kstep in ST. cbn [kact] in ST. destruct (nth_error (k_threads s0) t) as [[]|]; try discriminate. destruct (kcan_start s0 t op); [|discriminate]. injection ST as <-. reflexivity.
  - destruct (sync_step _ _ _ _ _ HW ST I) as (-> & _). reflexivity.
  - destruct (sync_step _ _ _ _ _ HW ST I) as (-> & _). reflexivity.
Qed.
(** a thread that every earlier step happens before knows the newest message of every field *)
Lemma steps_known j a s s' f : nth_error sched j = Some a -> kis_recv a = false -> kat j = Some s -> kat (S j) = Some s' ->
  (forall i t fails picks, (i < j)%nat -> nth_error sched i = Some (KStep t fails picks) -> khb sched i j) -> newest_known s (kactor a) f.
Proof.
  intros Ha HR H H' HB. unfold newest_known. pose proof (kat_wf _ _ _ _ _ _ H) as HW.
  pose proof (kactor_lt _ _ _ _ _ _ _ _ Ha H H') as LT. pose proof (W_views _ _ HW _ f LT) as UB.
  destruct (length (k_msgs s f) - 1)%nat as [|q] eqn:EQ; [lia|].
  destruct (nth_error (k_msgs s f) (S q)) as [m|] eqn:Em; [|apply nth_error_None in Em; lia].
  destruct (W_by _ _ HW f q m Em) as (i & Hi & _).
  assert (JL : (j < length sched)%nat) by (apply nth_error_Some; congruence).
  destruct (writer_steps j s f (S q) m i ltac:(lia) H Em Hi) as (L & t & fails & picks & Hs).
  destruct (writer_knows b sz n sched j s ltac:(lia) H f (S q) m i Em Hi) as (_ & a0 & si & Ha0 & Hsi & K).
  destruct (khb_views b sz n sched i j (HB i t fails picks L Hs) a0 a si s s' Ha0 Ha Hsi H H') as (_ & V). specialize (V HR). destruct V as (V & _).
  destruct (V f i K) as (p & m' & Hp & Hm' & Lp). pose proof (W_inj _ _ HW f p (S q) m' m Hp Em ltac:(congruence)). subst p. lia.
Qed.
(** a step is inside a call *)
Lemma step_call j t fails picks s s' : nth_error sched j = Some (KStep t fails picks) -> kat j = Some s -> kat (S j) = Some s' ->
  exists i op, lastcall sched t j = Some i /\ nth_error sched i = Some (KStart t op) /\ (i < j)%nat /\
    forall e, call_over i e -> (j <= e)%nat /\ (j = e \/ khb sched j e).
Proof.
  intros Ha H H'. pose proof (kat_S _ _ _ _ _ _ _ _ Ha H H') as ST. pose proof (kactor_lt _ _ _ _ _ _ _ _ Ha H H') as LT. cbn [kactor] in LT.
  assert (NI : nth_error (k_threads s) t <> Some AIdle).
  { intros I. destruct (idle_act b s _ s' ST I) as [[]|(u & op & Q)]. discriminate. }
  destruct (in_call b sz n sched HS HN t j ltac:(congruence) s H LT NI) as (i & LC).
  destruct (lastcall_spec sz n sched HS HN _ _ _ LC) as (Li & (op & Hi) & _). exists i, op. split; [exact LC|]. split; [exact Hi|]. split; [exact Li|].
  intros e CO. destruct (Nat.lt_ge_cases e j) as [Le|Le].
  - exfalso. pose proof (call_done b sz n sched HS HN t i e j op CO Hi Le LC s H) as D. rewrite (kat_pc _ _ _ _ _ _ _ H) in D. congruence.
  - split; [exact Le|]. destruct (Nat.eq_dec j e) as [->|Ne]; [left; reflexivity|right].
    destruct CO as (t' & op' & f' & p' & Hi' & He & _). rewrite Hi in Hi'. injection Hi' as <- <-. eapply khb_thread; [|exact Ha|exact He|reflexivity]. lia.
Qed.

(** ** The region *)
Variables (si se k di de : nat) (ds : list Z).
Hypothesis SO : save_over b sz n sched si se k.
Hypothesis DO : delta_over b sz n sched di de k ds.
Hypothesis SD : khb sched se di.
Hypothesis CL : forall i t op, (i < de)%nat -> nth_error sched i = Some (KStart t op) -> i = si \/ i = di \/
  exists e, call_over i e /\ (khb sched e si \/ (se < i)%nat /\ op <> OSave /\ khb sched se i /\ khb sched e di).

Lemma bounds : (si < se)%nat /\ (se < di)%nat /\ (di < de)%nat /\ (de < length sched)%nat.
Proof.
  pose proof (khb_lt _ _ _ SD). destruct DO as (_ & (t & op & fa & pi & _ & He & L & _) & _). destruct SO as (_ & (t' & op' & fa' & pi' & _ & He' & L' & _) & _).
  assert (de < length sched)%nat by (apply nth_error_Some; congruence). lia.
Qed.
Lemma over_lt i e : call_over i e -> (i < e)%nat.
Proof. intros (? & ? & ? & ? & _ & _ & L & _). exact L. Qed.
Lemma lt_n u : forall j s p, kat j = Some s -> nth_error (k_threads s) u = Some p -> (u < n)%nat.
Proof. intros j s p H E. rewrite <- (W_len _ _ (kat_wf _ _ _ _ _ _ H)). apply nth_error_Some. congruence. Qed.

(** while save_point runs, and up to its return, the other threads are outside *)
Lemma others_idle_save t u j s : nth_error sched si = Some (KStart t OSave) -> (si <= j <= S se)%nat -> kat j = Some s -> (u < n)%nat -> u <> t ->
  nth_error (k_threads s) u = Some AIdle.
Proof.
  intros Hs Lj H Hu Nu. pose proof bounds as (B1 & B2 & B3 & B4). destruct (lastcall sched u j) as [i|] eqn:LC.
  2:{ exact (lastcall_none b sz n sched HS HN u j s H Hu LC). }
  destruct (lastcall_spec sz n sched HS HN _ _ _ LC) as (Li & (op & Hi) & _). rewrite <- (kat_pc _ _ _ _ _ _ _ H).
  destruct (CL i u op ltac:(lia) Hi) as [->|[->|(e & CO & [HB|(L1 & _)])]].
  - rewrite Hs in Hi. injection Hi as Q. congruence.
  - lia.
  - pose proof (khb_lt _ _ _ HB). apply (call_done b sz n sched HS HN u i e j op CO Hi ltac:(lia) LC s H).
  - lia.
Qed.
(** from the call of delta_statistics to its return, too *)
Lemma others_idle_delta w u j s : nth_error sched di = Some (KStart w (ODelta k)) -> (di <= j <= S de)%nat -> kat j = Some s -> (u < n)%nat -> u <> w \/ j = di ->
  nth_error (k_threads s) u = Some AIdle.
Proof.
  intros Hd Lj H Hu Nu. pose proof bounds as (B1 & B2 & B3 & B4). destruct (lastcall sched u j) as [i|] eqn:LC.
  2:{ exact (lastcall_none b sz n sched HS HN u j s H Hu LC). }
  destruct (lastcall_spec sz n sched HS HN _ _ _ LC) as (Li & (op & Hi) & _). rewrite <- (kat_pc _ _ _ _ _ _ _ H).
  assert (NE : i <> de). { intros ->. destruct DO as (_ & (t & op' & fa & pi & _ & He & _) & _). congruence. }
  destruct (CL i u op ltac:(lia) Hi) as [->|[->|(e & CO & HB)]].
  - destruct SO as (_ & CO & _). apply (call_done b sz n sched HS HN u si se j op CO Hi ltac:(lia) LC s H).
  - destruct Nu as [Nu| ->]; [|lia]. rewrite Hd in Hi. injection Hi as Q. congruence.
  - assert (e < j)%nat. { destruct HB as [HB|(_ & _ & _ & HB)]; pose proof (khb_lt _ _ _ HB); lia. }
    apply (call_done b sz n sched HS HN u i e j op CO Hi ltac:(lia) LC s H).
Qed.

(** every step before the call of save_point, or of delta_statistics, happens before it *)
Lemma steps_before_save i t fails picks : (i < si)%nat -> nth_error sched i = Some (KStep t fails picks) -> forall s, kat si = Some s -> khb sched i si.
Proof.
  intros L Hi s H. pose proof bounds as (B1 & B2 & B3 & B4). destruct (kat_le _ _ _ _ (S i) si s ltac:(lia) H) as (s2 & H2).
  destruct (kat_prev _ _ _ _ _ _ H2) as (s1 & H1). destruct (step_call i t fails picks s1 s2 Hi H1 H2) as (c & op & _ & Hc & Lc & OV).
  destruct (CL c t op ltac:(lia) Hc) as [->|[->|(e & CO & [HB|(L1 & _)])]]; try lia.
  destruct (OV e CO) as (_ & [->|K]); [exact HB|eapply khb_trans; eassumption].
Qed.
Lemma save_before_delta : khb sched si di.
Proof.
  pose proof SO as (_ & (t & op & fa & pi & Hi & He & L & _) & _). eapply khb_trans; [|exact SD]. eapply khb_thread; [exact L|exact Hi|exact He|reflexivity].
Qed.
Lemma steps_before_delta i t fails picks : (i < di)%nat -> nth_error sched i = Some (KStep t fails picks) -> forall s, kat di = Some s -> khb sched i di.
Proof.
  intros L Hi s H. pose proof bounds as (B1 & B2 & B3 & B4). destruct (kat_le _ _ _ _ (S i) di s ltac:(lia) H) as (s2 & H2).
  destruct (kat_prev _ _ _ _ _ _ H2) as (s1 & H1). destruct (step_call i t fails picks s1 s2 Hi H1 H2) as (c & op & _ & Hc & Lc & OV).
  destruct (CL c t op ltac:(lia) Hc) as [->|[->|(e & CO & HB)]]; try lia.
  - destruct SO as (_ & CO & _). destruct (OV se CO) as (_ & [->|K]); [exact SD|eapply khb_trans; eassumption].
  - assert (K' : khb sched e di). { destruct HB as [HB|(_ & _ & _ & HB)]; [eapply khb_trans; [exact HB|exact save_before_delta]|exact HB]. }
    destruct (OV e CO) as (_ & [->|K]); [exact K'|eapply khb_trans; eassumption].
Qed.

(** *** save_point *)
Lemma save_alone t : nth_error sched si = Some (KStart t OSave) -> forall j, (si < j)%nat -> (j <= se)%nat -> forall s, kat j = Some s ->
  exists p, nth_error (k_threads s) t = Some p /\ saved s t p /\ know3 s t.
Proof.
  intros Hs. pose proof bounds as (B1 & B2 & B3 & B4). pose proof SO as (_ & (t' & op & fails & picks & Hi' & He & L & ID & NI) & _).
  rewrite Hs in Hi'. injection Hi' as <- <-.
  induction 1 as [|j Lj IH]; intros Le s H.
  - destruct (kat_prev _ _ _ _ _ _ H) as (s0 & H0). pose proof (kat_S _ _ _ _ _ _ _ _ Hs H0 H) as E.
    assert (K : know3 s0 t).
    { intros f _. apply (steps_known si (KStart t OSave) s0 s f Hs eq_refl H0 H). intros i t1 f1 p1 L1 Hi. exact (steps_before_save i t1 f1 p1 L1 Hi s0 H0). }
    unfold kstep in E. cbn [kact] in E. destruct (nth_error (k_threads s0) t) as [[]|] eqn:Et; try discriminate. cbn [kcan_start] in E. injection E as <-.
    exists SLoadMin. split; [|split; [exact I|exact K]]. kfld. rewrite nth_error_upd, Nat.eqb_refl, (proj2 (Nat.ltb_lt _ _)); [reflexivity|]. apply nth_error_Some. congruence.
  - destruct (kat_prev _ _ _ _ _ _ H) as (s1 & H1). destruct (IH ltac:(lia) s1 H1) as (p & Ep & SV & KN). destruct (KSat j s1 H1) as (KN1 & RG1 & _).
    pose proof (N_wf _ _ KN1) as HW.
    destruct (nth_error sched j) as [a|] eqn:Ha; [|apply nth_error_None in Ha; lia]. pose proof (kat_S _ _ _ _ _ _ _ _ Ha H1 H) as E.
    pose proof (kactor_lt _ _ _ _ _ _ _ _ Ha H1 H) as La.
    destruct (Nat.eq_dec (kactor a) t) as [Q|Q].
    + assert (NJ : nth_error (k_threads s) t <> Some AIdle) by (rewrite <- (kat_pc _ _ _ _ _ _ _ H); apply NI; lia).
      assert (NJ1 : nth_error (k_threads s1) t <> Some AIdle) by (rewrite <- (kat_pc _ _ _ _ _ _ _ H1); apply NI; lia).
      destruct a as [t0 op|t0 fails' picks'|t0|t0 k0]; cbn [kactor] in Q; subst t0.
      2:{ destruct (saved_step b sz n s1 t _ _ s p HW RG1 E Ep KN SV) as (_ & K & p' & Ep' & [SV'|[-> _]]); [eauto|congruence]. }
      all: exfalso; unfold kstep in E; cbn [kact] in E; destruct (nth_error (k_threads s1) t) as [[]|]; try discriminate; congruence.
    + pose proof (others_idle_save t (kactor a) j s1 Hs ltac:(lia) H1 La Q) as IA.
      destruct (idle_act b s1 a s E IA) as [SY|(u & op & ->)].
      * destruct (sync_step b n s1 a s HW E SY) as (M1 & M2 & _ & _ & M5 & M6 & M7). destruct (M7 t ltac:(congruence)) as [V1 V2].
        exists p. rewrite M2. split; [exact Ep|]. split.
        -- destruct p; cbn [saved] in *; unfold fresh_sp, head_new, top, kvalue in *; rewrite ?M1, ?M5, ?M6, ?V2; exact SV.
        -- apply (know3_same s1); [intros f _; rewrite M1; reflexivity|intros f; rewrite V1; reflexivity|exact KN].
      * exfalso. destruct (CL j u op ltac:(lia) Ha) as [->|[->|(e & CO & [HB|(L1 & _)])]]; try lia.
        pose proof (khb_lt _ _ _ HB). pose proof (over_lt _ _ CO). lia.
Qed.
Lemma save_done t : nth_error sched si = Some (KStart t OSave) -> forall s0, kat (S se) = Some s0 ->
  know3 s0 t /\ kvalue s0 FMin = kvalue s0 FCur /\ kvalue s0 FMax = kvalue s0 FCur /\
  (forall u, (u < n)%nat -> nth_error (k_threads s0) u = Some AIdle) /\
  exists c acc, nth_error (k_sps s0) k = Some (c, acc) /\ fresh_sp s0 t c /\ skipn 9 acc = [kvalue s0 FCur; kvalue s0 FMin; kvalue s0 FMax].
Proof.
  intros Hs s0 H0. pose proof bounds as (B1 & B2 & B3 & B4). pose proof SO as (_ & (t' & op & fails & picks & Hi' & He & L & ID & NI) & (s & Hk & Lk)).
  change (kat se = Some s) in Hk. rewrite Hs in Hi'. injection Hi' as <- <-.
  destruct (save_alone t Hs se L ltac:(lia) s Hk) as (p & Ep & SV & KN). destruct (KSat se s Hk) as (KN1 & RG1 & _). pose proof (kat_S _ _ _ _ _ _ _ _ He Hk H0) as E.
  rewrite (kat_pc _ _ _ _ _ _ _ H0) in ID.
  destruct (saved_step b sz n s t _ _ s0 p (N_wf _ _ KN1) RG1 E Ep KN SV) as (_ & K & p' & Ep' & [SV'|(-> & c & acc & EQ & FR & V1 & V2 & V3)]).
  - rewrite ID in Ep'. injection Ep' as <-. destruct SV'.
  - split; [exact K|]. split; [exact V1|]. split; [exact V2|]. split.
    + intros u Hu. destruct (Nat.eq_dec u t) as [->|N]; [exact ID|]. exact (others_idle_save t u (S se) s0 Hs ltac:(lia) H0 Hu N).
    + exists c, acc. split; [|split; [exact FR|exact V3]]. rewrite EQ, nth_error_app2, Lk, Nat.sub_diag by lia. reflexivity.
Qed.

(** *** the calls of the region *)
Lemma region_runs t : nth_error sched si = Some (KStart t OSave) -> forall s0, kat (S se) = Some s0 ->
  forall j, (S se <= j)%nat -> (j <= di)%nat -> forall s, kat j = Some s -> RB n (k_msgs s0) (w_pub (k_ring s0)) s.
Proof.
  intros Hs s0 H0. pose proof bounds as (B1 & B2 & B3 & B4). destruct (save_done t Hs s0 H0) as (KN0 & V1 & V2 & IDL & _). pose proof (kat_wf _ _ _ _ _ _ H0) as HW0.
  pose proof SO as (_ & COS & _). pose proof COS as (t' & op' & fails' & picks' & Hi' & He & _). rewrite Hs in Hi'. injection Hi' as <- <-.
  induction 1 as [|j Lj IH]; intros Le s H.
  - rewrite H0 in H. injection H as <-.
    assert (NE : forall f, k_msgs s0 f <> []) by (intros f Q; destruct (W_msgs _ _ HW0 f) as (m & Q0 & _); rewrite Q in Q0; discriminate).
    assert (RV : forall f v, reg (k_msgs s0) s0 f v -> v = kvalue s0 f).
    { intros f v (p & m & Lp & Hp & <-). unfold start in Lp. assert (p < length (k_msgs s0 f))%nat by (apply nth_error_Some; congruence).
      assert (p = length (k_msgs s0 f) - 1)%nat as -> by lia. symmetry. apply kvalue_nth. exact Hp. }
    assert (LR : reg (k_msgs s0) s0 FCur (kvalue s0 FCur)).
    { destruct (nth_error (k_msgs s0 FCur) (length (k_msgs s0 FCur) - 1)) as [m|] eqn:E.
      - exists (length (k_msgs s0 FCur) - 1)%nat, m. split; [unfold start; lia|]. split; [exact E|]. symmetry. apply kvalue_nth. exact E.
      - apply nth_error_None in E. pose proof (NE FCur). destruct (k_msgs s0 FCur); [congruence|cbn [length] in E; lia]. }
    constructor.
    + exact HW0.
    + intros f _. split; [apply NE|]. exists []. rewrite app_nil_r. split; [reflexivity|constructor].
    + intros v R. rewrite (RV _ _ R). lia.
    + intros v R. rewrite (RV _ _ R). lia.
    + intros f v F R. apply RV in R. subst v. destruct F as [->| ->]; [rewrite V1|rewrite V2]; exact LR.
    + intros u p Hp. rewrite (IDL u (lt_n u _ _ _ H0 Hp)) in Hp. injection Hp as <-. exact I.
    + left. lia.
    + left. lia.
    + reflexivity.
  - destruct (kat_prev _ _ _ _ _ _ H) as (s1 & H1). specialize (IH ltac:(lia) s1 H1). destruct (KSat j s1 H1) as (KN1 & RG1 & _). pose proof (N_wf _ _ KN1) as HW1.
    destruct (nth_error sched j) as [a|] eqn:Ha; [|apply nth_error_None in Ha; lia]. pose proof (kat_S _ _ _ _ _ _ _ _ Ha H1 H) as E.
    apply (RB_step n (k_msgs s0) (w_pub (k_ring s0)) b s1 a s IH E).
    + intros u ->. destruct (CL j u OSave ltac:(lia) Ha) as [->|[->|(e & CO & [HB|(_ & NS & _)])]]; try lia.
      * pose proof (khb_lt _ _ _ HB). pose proof (over_lt _ _ CO). lia.
      * congruence.
    + exact (N_pcs _ _ KN1).
    + exact (G_pair _ _ _ RG1).
    + intros u fails picks -> f M. destruct (step_call j u fails picks s1 s Ha H1 H) as (c & op & _ & Hc & Lc & OV).
      assert (HB : khb sched se j).
      { destruct (CL c u op ltac:(lia) Hc) as [->|[->|(e & CO & HB)]].
        - destruct (OV se COS) as (Q & _). lia.
        - lia.
        - destruct HB as [HB|(_ & _ & HB & _)].
          + destruct (OV e CO) as (Q & _). pose proof (khb_lt _ _ _ HB). lia.
          + eapply khb_trans; [exact HB|]. eapply khb_thread; [exact Lc|exact Hc|exact Ha|reflexivity]. }
      destruct (khb_views b sz n sched se j HB _ _ s0 s1 s He Ha H0 H1 H) as (_ & V). specialize (V eq_refl). destruct V as (V & _). cbn [kactor] in V.
      unfold start. destruct (length (k_msgs s0 f) - 1)%nat as [|q] eqn:EQ; [lia|].
      destruct (nth_error (k_msgs s0 f) (S q)) as [m|] eqn:Em; [|apply nth_error_None in Em; lia].
      destruct (W_by _ _ HW0 f q m Em) as (i & Hi & _).
      destruct (V f i) as (p & m' & Hp & Hm' & Lp).
      { exists (S q), m. split; [exact Em|]. split; [exact Hi|]. specialize (KN0 f M). unfold newest_known in KN0. lia. }
      destruct (B_base _ _ _ _ IH f M) as (_ & ext & EX & _).
      assert (Em1 : nth_error (k_msgs s1 f) (S q) = Some m) by (rewrite EX, nth_error_app1; [exact Em|apply nth_error_Some; congruence]).
      pose proof (W_inj _ _ HW1 f p (S q) m' m Hp Em1 ltac:(congruence)). lia.
Qed.

(** *** delta_statistics *)
Lemma delta_alone w s1 : nth_error sched di = Some (KStart w (ODelta k)) -> kat di = Some s1 ->
  know3 s1 w -> pub_known s1 w k ->
  forall j, (di < j)%nat -> (j <= de)%nat -> forall s, kat j = Some s ->
  exists p, nth_error (k_threads s) w = Some p /\ asking s w k p /\ know3 s w /\ pub_known s w k /\ forall f, k_msgs s f = k_msgs s1 f.
Proof.
  intros Hd H1 K1 P1. pose proof bounds as (B1 & B2 & B3 & B4). pose proof DO as (_ & (t' & op & fails & picks & Hi' & He & L & ID & NI) & _).
  rewrite Hd in Hi'. injection Hi' as <- <-.
  induction 1 as [|j Lj IH]; intros Le s H.
  - pose proof (kat_S _ _ _ _ _ _ _ _ Hd H1 H) as E.
    unfold kstep in E. cbn [kact] in E. destruct (nth_error (k_threads s1) w) as [[]|] eqn:Et; try discriminate. destruct (kcan_start s1 w (ODelta k)); [|discriminate]. injection E as <-.
    exists (DPeek k). split; [|split; [reflexivity|split; [exact K1|split; [exact P1|reflexivity]]]]. kfld. cbn [first_apc].
    rewrite nth_error_upd, Nat.eqb_refl, (proj2 (Nat.ltb_lt _ _)); [reflexivity|]. apply nth_error_Some. congruence.
  - destruct (kat_prev _ _ _ _ _ _ H) as (s2 & H2). destruct (IH ltac:(lia) s2 H2) as (p & Ep & SV & KN & PK & MS). destruct (KSat j s2 H2) as (KN1 & RG1 & _).
    pose proof (N_wf _ _ KN1) as HW.
    destruct (nth_error sched j) as [a|] eqn:Ha; [|apply nth_error_None in Ha; lia]. pose proof (kat_S _ _ _ _ _ _ _ _ Ha H2 H) as E.
    pose proof (kactor_lt _ _ _ _ _ _ _ _ Ha H2 H) as La.
    destruct (Nat.eq_dec (kactor a) w) as [Q|Q].
    + assert (NJ : nth_error (k_threads s) w <> Some AIdle) by (rewrite <- (kat_pc _ _ _ _ _ _ _ H); apply NI; lia).
      assert (NJ1 : nth_error (k_threads s2) w <> Some AIdle) by (rewrite <- (kat_pc _ _ _ _ _ _ _ H2); apply NI; lia).
      destruct a as [t0 op|t0 fails' picks'|t0|t0 k0]; cbn [kactor] in Q; subst t0.
      2:{ destruct (asking_step b sz n s2 w k _ _ s p HW RG1 E Ep KN PK SV) as (M & K & P & p' & Ep' & [SV'|[-> _]]); [|congruence].
          exists p'. split; [exact Ep'|]. split; [exact SV'|]. split; [exact K|]. split; [exact P|]. intros f. rewrite M. apply MS. }
      all: exfalso; unfold kstep in E; cbn [kact] in E; destruct (nth_error (k_threads s2) w) as [[]|]; try discriminate; congruence.
    + pose proof (others_idle_delta w (kactor a) j s2 Hd ltac:(lia) H2 La (or_introl Q)) as IA.
      destruct (idle_act b s2 a s E IA) as [SY|(u & op & ->)].
      * destruct (sync_step b n s2 a s HW E SY) as (M1 & M2 & M3 & _ & M5 & M6 & M7). destruct (M7 w ltac:(congruence)) as [V1 V2].
        exists p. rewrite M2. split; [exact Ep|]. split; [|split; [|split]].
        -- destruct p; cbn [asking] in *; unfold kvalue in *; rewrite ?M1; exact SV.
        -- apply (know3_same s2); [intros f _; rewrite M1; reflexivity|intros f; rewrite V1; reflexivity|exact KN].
        -- unfold pub_known, head_new, top in *. rewrite M3, M5, M6, V2. exact PK.
        -- intros f. rewrite M1. apply MS.
      * exfalso. destruct (CL j u op ltac:(lia) Ha) as [->|[->|(e & CO & HB)]]; try lia.
        assert (e < di)%nat. { destruct HB as [HB|(_ & _ & _ & HB)]; pose proof (khb_lt _ _ _ HB); lia. }
        pose proof (over_lt _ _ CO). lia.
Qed.

Theorem region_min_max : forall s0 s1, kat (S se) = Some s0 -> kat de = Some s1 ->
  exists mn mx, nth_error ds 9 = Some (kvalue s1 FCur) /\ nth_error ds 10 = Some mn /\ nth_error ds 11 = Some mx /\
    mn <= kvalue s0 FCur <= mx /\ mn <= kvalue s1 FCur <= mx /\
    In mn (skipn (length (kvalues s0 FCur) - 1) (kvalues s1 FCur)) /\ In mx (skipn (length (kvalues s0 FCur) - 1) (kvalues s1 FCur)).
Proof.
  intros s0 s1 H0 H1. pose proof bounds as (B1 & B2 & B3 & B4).
  pose proof SO as ((t & Hs) & COS & _). pose proof COS as (t' & op' & fa' & pi' & Hi' & He & _). rewrite Hs in Hi'. injection Hi' as <- <-.
  pose proof DO as ((w & Hd) & COD & (s1' & s2 & Hs1 & Hs2 & DS)). change (kat de = Some s1') in Hs1. change (kat (S de) = Some s2) in Hs2. rewrite H1 in Hs1. injection Hs1 as <-.
  pose proof COD as (w' & op' & fa & pi & Hi' & Hde & Lde & IDE & NID). rewrite Hd in Hi'. injection Hi' as <- <-.
  destruct (kat_le _ _ _ _ (S di) de s1 ltac:(lia) H1) as (sd' & Hsd'). destruct (kat_prev _ _ _ _ _ _ Hsd') as (sd & Hsd).
  destruct (save_done t Hs s0 H0) as (_ & V1 & V2 & _ & (c & acc0 & Hc & FR & _)).
  pose proof (region_runs t Hs s0 H0 di ltac:(lia) ltac:(lia) sd Hsd) as RBd.
  assert (IDL : forall u p, nth_error (k_threads sd) u = Some p -> p = AIdle).
  { intros u p Hp. rewrite (others_idle_delta w u di sd Hd ltac:(lia) Hsd (lt_n u _ _ _ Hsd Hp) (or_intror eq_refl)) in Hp. congruence. }
  assert (CMX : kvalue sd FCur <= kvalue sd FMax). { destruct (B_cmax _ _ _ _ RBd) as [Q|(u & p & Hp & Q)]; [exact Q|]. rewrite (IDL u p Hp) in Q. destruct Q. }
  assert (CMN : kvalue sd FMin <= kvalue sd FCur). { destruct (B_cmin _ _ _ _ RBd) as [Q|(u & p & Hp & Q)]; [exact Q|]. rewrite (IDL u p Hp) in Q. destruct Q. }
  assert (ST : forall f, mmc f -> reg (k_msgs s0) sd f (kvalue s0 f)).
  { intros f M. destruct (B_base _ _ _ _ RBd f M) as (NE & ext & EX & _).
    destruct (nth_error (k_msgs s0 f) (length (k_msgs s0 f) - 1)) as [m|] eqn:E.
    - exists (length (k_msgs s0 f) - 1)%nat, m. split; [unfold start; lia|]. split; [|symmetry; apply kvalue_nth; exact E].
      rewrite EX, nth_error_app1; [exact E|apply nth_error_Some; congruence].
    - apply nth_error_None in E. destruct (k_msgs s0 f); [congruence|cbn [length] in E; lia]. }
  pose proof (B_min _ _ _ _ RBd _ (ST FMin mmin)) as S1. pose proof (B_max _ _ _ _ RBd _ (ST FMax mmax)) as S2. rewrite V1 in S1. rewrite V2 in S2.
  pose proof (B_in _ _ _ _ RBd FMin _ (or_introl eq_refl) (last_reg _ _ _ _ FMin RBd mmin)) as IMN.
  pose proof (B_in _ _ _ _ RBd FMax _ (or_intror eq_refl) (last_reg _ _ _ _ FMax RBd mmax)) as IMX.
  assert (KND : know3 sd w).
  { intros f _. apply (steps_known di (KStart w (ODelta k)) sd sd' f Hd eq_refl Hsd Hsd'). intros i t1 f1 p1 L1 Hi. exact (steps_before_delta i t1 f1 p1 L1 Hi sd Hsd). }
  assert (PKD : pub_known sd w k).
  { destruct FR as [(m & Hm & Vm) Ls]. split.
    - rewrite (B_pub _ _ _ _ RBd). pose proof (hb_ring b sz n sched se di _ _ s0 sd sd' Pub SD He Hd eq_refl H0 Hsd Hsd') as V. cbn [kactor] in V. lia.
    - destruct (F_sps _ _ _ (kat_fwd b sz n sched (S se) di s0 sd ltac:(lia) H0 Hsd)) as (l & El).
      exists (c, acc0). split; [rewrite El, nth_error_app1; [exact Hc|apply nth_error_Some; congruence]|].
      exists m. split; [apply (heads_mono (S se) di s0 sd _ _ ltac:(lia) H0 Hsd Hm)|]. cbn [fst]. rewrite Vm. unfold top. rewrite (B_pub _ _ _ _ RBd). reflexivity. }
  destruct (delta_alone w sd Hd Hsd KND PKD de Lde ltac:(lia) s1 H1) as (p & Ep & AS & K1 & P1 & MS).
  destruct (KSat de s1 H1) as (KN1 & RG1 & _). pose proof (kat_S _ _ _ _ _ _ _ _ Hde H1 Hs2) as E.
  assert (KV : forall f, kvalue s1 f = kvalue sd f) by (intros f; unfold kvalue; rewrite MS; reflexivity).
  destruct (asking_step b sz n s1 w k _ _ s2 p (N_wf _ _ KN1) RG1 E Ep K1 P1 AS) as (_ & _ & _ & p' & Ep' & [AS'|(-> & o & ED & AN)]).
  { rewrite (kat_pc _ _ _ _ _ _ _ Hs2) in IDE. rewrite IDE in Ep'. injection Ep' as <-. destruct AS'. }
  rewrite ED in DS. apply app_inv_head in DS. injection DS as ->. destruct (AN ds eq_refl) as (acc & EDS).
  destruct (delta_end b sz n sched HS HSB HN HF di de k ds s2 DO Hs2) as (u & sx & _ & _ & _ & DE).
  assert (L9 : length acc = 9%nat).
  { destruct (F_sps _ _ _ (kat_fwd b sz n sched (S se) (S de) s0 s2 ltac:(lia) H0 Hs2)) as (l & El).
    destruct (DE (c, acc0)) as (acc1 & v & mn & mx & E1 & E2 & _); [rewrite El, nth_error_app1; [exact Hc|apply nth_error_Some; congruence]|].
    rewrite EDS in E1. apply (f_equal (@length Z)) in E1. rewrite !app_length in E1. cbn [length] in E1. lia. }
  assert (RNG : forall v, reg (k_msgs s0) sd FCur v -> 0 <= v < two64).
  { intros v (q & m & _ & Hq & <-). pose proof (cur_range_at di sd Hsd) as CR. unfold cur_range in CR. rewrite Forall_forall in CR. apply CR. eapply nth_error_In; exact Hq. }
  assert (INS : forall v, reg (k_msgs s0) sd FCur v -> In v (skipn (length (kvalues s0 FCur) - 1) (kvalues s1 FCur))).
  { intros v (q & m & Lq & Hq & <-). unfold kvalues. rewrite map_length, skipn_map, MS. apply in_map. unfold start in Lq.
    apply (nth_error_In _ (q - (length (k_msgs s0 FCur) - 1))). rewrite <- Hq. rewrite <- (firstn_skipn (length (k_msgs s0 FCur) - 1) (k_msgs sd FCur)) at 2.
    assert (q < length (k_msgs sd FCur))%nat by (apply nth_error_Some; congruence).
    rewrite nth_error_app2 by (rewrite firstn_length; lia). rewrite firstn_length. f_equal. lia. }
  exists (kvalue sd FMin), (kvalue sd FMax). pose proof (RNG _ IMN). pose proof (RNG _ IMX).
  rewrite EDS, !nth_error_app2 by lia. rewrite L9. cbn [Nat.sub nth_error]. rewrite !KV. rewrite Z.min_r, Z.max_r by lia.
  repeat (split; [reflexivity|]). split; [lia|]. split; [lia|]. split; apply INS; assumption.
Qed.
End Path.
