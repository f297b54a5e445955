(** * Relaxed memory: what happens-before says about what threads know. *)
From Coq Require Import List ZArith Lia Bool Arith.
From Verif Require Import Machine Ring RingSeq RingConc Alloc AllocSpec AllocProofs AllocConc AllocConcSpec AllocConcProofs
  RingWeak RingWeakSpec RingWeakProofs RingWeakProofs3 AllocWeak AllocWeakSpec AllocWeakProofs.
Import ListNotations.
Open Scope Z_scope.

(** the view [v] contains the message written by action [i] to [f] *)
Definition knowsm (s : kst) (v : kview) (f : field) (i : nat) : Prop :=
  exists p m, nth_error (k_msgs s f) p = Some m /\ f_by m = Some i /\ (p <= kv v f)%nat.
(** whoever had the view [v] (and the ring's view [rv]) in state [s] has at least [v'] in [s'] *)
Definition kle (s : kst) (v : kview) (rv : view) (s' : kst) (v' : kview) (rv' : view) : Prop :=
  (forall f i, knowsm s v f i -> knowsm s' v' f i) /\ incl (refs v) (refs v') /\ vle rv rv'.
Lemma kle_trans s v rv s' v' rv' s'' v'' rv'' : kle s v rv s' v' rv' -> kle s' v' rv' s'' v'' rv'' -> kle s v rv s'' v'' rv''.
Proof. intros (A & B & C) (A' & B' & C'). split; [auto|]. split; [eapply incl_tran; eassumption|eapply vle_trans; eassumption]. Qed.

Lemma knowsm_same s s' v v' f i : k_msgs s' f = k_msgs s f -> (kv v f <= kv v' f)%nat -> knowsm s v f i -> knowsm s' v' f i.
Proof. intros E L (p & m & H1 & H2 & H3). exists p, m. rewrite E. split; [exact H1|]. split; [exact H2|lia]. Qed.
Lemma kle_same s s' v v' rv rv' : (forall f, k_msgs s' f = k_msgs s f) -> (forall f, (kv v f <= kv v' f)%nat) ->
  incl (refs v) (refs v') -> vle rv rv' -> kle s v rv s' v' rv'.
Proof. intros E L I R. split; [|auto]. intros f i. apply knowsm_same; auto. Qed.

(** a write to [f] *)
Lemma knowsm_written s t f k v rmw g i w w' : can_write s t f k -> knowsm s w g i ->
  (kv (bump f (S k) w) g <= kv w' g)%nat -> knowsm (written s t f k v rmw) w' g i.
Proof.
  intros (_ & C & _) (p & m & H1 & H2 & H3) L. unfold knowsm. kfld. cbn [bump kv] in L.
  destruct (field_eq_dec g f) as [->|]; [|exists p, m; split; [exact H1|split; [exact H2|lia]]].
  destruct (Nat.lt_ge_cases p (S k)) as [P|P].
  - exists p, m. rewrite insert_nth by lia. rewrite (proj2 (Nat.ltb_lt _ _)) by exact P. split; [exact H1|]. split; [exact H2|].
    destruct (S k <=? kv w f)%nat; lia.
  - exists (S p), m. rewrite insert_nth by lia. rewrite (proj2 (Nat.ltb_ge _ _)) by lia.
    rewrite (proj2 (Nat.eqb_neq _ _)) by lia. replace (S p - 1)%nat with p by lia. split; [exact H1|]. split; [exact H2|].
    rewrite (proj2 (Nat.leb_le _ _)) in L by lia. lia.
Qed.
Lemma bump_le_set s t f k g : can_write s t f k -> (kv (bump f (S k) (kview_of s t)) g <= kv (kv_set (kview_of s t) f (S k)) g)%nat.
Proof.
  intros (C & _). cbn [bump kv kv_set]. destruct (field_eq_dec g f) as [->|]; [|lia].
  rewrite (proj2 (Nat.leb_gt _ _)) by lia. lia.
Qed.

Definition grows (n : nat) (s s' : kst) : Prop :=
  (forall u, (u < n)%nat -> kle s (kview_of s u) (view_of (k_ring s) u) s' (kview_of s' u) (view_of (k_ring s') u)) /\
  (forall j v rv, nth_error (k_sent s) j = Some v -> nth_error (w_sent (k_ring s)) j = Some rv ->
     exists v', nth_error (k_sent s') j = Some v' /\ nth_error (w_sent (k_ring s')) j = Some rv /\ kle s v rv s' v' rv).

Lemma grows_refl n s s' : (forall f, k_msgs s' f = k_msgs s f) -> k_views s' = k_views s -> k_sent s' = k_sent s -> k_ring s' = k_ring s -> grows n s s'.
Proof.
  intros E1 E2 E3 E4. unfold grows, kview_of. rewrite E2, E3, E4. split.
  - intros u _. apply kle_same; auto; [apply incl_refl|apply vle_refl].
  - intros j v rv H1 H2. exists v. split; [exact H1|]. split; [exact H2|]. apply kle_same; auto; [apply incl_refl|apply vle_refl].
Qed.
Lemma grows_trans n s s' s'' : grows n s s' -> grows n s' s'' -> grows n s s''.
Proof.
  intros [A B] [A' B']. split.
  - intros u Hu. eapply kle_trans; eauto.
  - intros j v rv H1 H2. destruct (B j v rv H1 H2) as (v' & H3 & H4 & K). destruct (B' j v' rv H3 H4) as (v'' & H5 & H6 & K').
    exists v''. split; [exact H5|]. split; [exact H6|]. eapply kle_trans; eauto.
Qed.
Lemma grows_view n s t v : (t < length (k_views s))%nat -> (forall f, (kv (kview_of s t) f <= kv v f)%nat) -> incl (refs (kview_of s t)) (refs v) ->
  grows n s (kput_view s t v).
Proof.
  intros L H1 H2. split.
  - intros u _. rewrite view_put by exact L. apply kle_same; auto; try apply vle_refl; destruct (Nat.eqb_spec t u) as [<-|]; auto using incl_refl.
  - intros j w rv E1 E2. exists w. split; [exact E1|]. split; [exact E2|]. apply kle_same; auto; [apply incl_refl|apply vle_refl].
Qed.
Lemma grows_loaded n s t f k v : (t < length (k_views s))%nat -> can_load s t f k v -> grows n s (loaded s t f k).
Proof.
  intros L [_ C]. apply grows_view; [exact L| |apply incl_refl]. intros g. cbn [kv_set kv]. destruct (field_eq_dec g f) as [->|]; lia.
Qed.
Lemma grows_written n s t f k v rmw : length (k_views s) = n -> (t < n)%nat -> can_write s t f k -> grows n s (written s t f k v rmw).
Proof.
  intros Ln Ht C. split.
  - intros u Hu. rewrite view_written by lia. destruct (Nat.eqb_spec t u) as [<-|].
    + split; [|split; [apply incl_refl|apply vle_refl]]. intros g i H. eapply knowsm_written; [exact C|exact H|]. apply bump_le_set. exact C.
    + split; [|split; [apply incl_refl|apply vle_refl]]. intros g i H. eapply knowsm_written; [exact C|exact H|]. lia.
  - intros j w rv E1 E2. exists (bump f (S k) w). kfld. rewrite nth_error_map, E1. split; [reflexivity|]. split; [exact E2|].
    split; [|split; [apply incl_refl|apply vle_refl]]. intros g i H. eapply knowsm_written; [exact C|exact H|]. lia.
Qed.
Lemma grows_ring b n s a r : KWf n s -> wstep b (k_ring s) a = Some r -> grows n s (kput_ring s r).
Proof.
  intros HW E. pose proof (step_views _ _ _ _ E) as V. rewrite (W_lenrv _ _ HW), (W_lenr _ _ HW) in V. specialize (V eq_refl). destruct V as [V _].
  split.
  - intros u _. apply kle_same; auto. apply incl_refl.
  - intros j v rv E1 E2. exists v. split; [exact E1|]. split; [|apply kle_same; auto; [apply incl_refl|apply vle_refl]].
    kfld. rewrite (step_sent _ _ _ _ E). rewrite nth_error_app1; [exact E2|apply nth_error_Some; congruence].
Qed.
Lemma grows_sp n s t sp : (t < length (k_views s))%nat -> grows n s (kput_sp s t sp).
Proof.
  intros L. split.
  - intros u _. rewrite view_sp by exact L. apply kle_same; auto; try apply vle_refl; destruct (Nat.eqb_spec t u) as [<-|]; auto using incl_refl.
    cbn [refs]. apply incl_tl, incl_refl.
  - intros j w rv E1 E2. exists w. split; [exact E1|]. split; [exact E2|]. apply kle_same; auto; [apply incl_refl|apply vle_refl].
Qed.

Lemma ring_ret_same t p e s s' : ring_ret t p e s s' -> (forall f, k_msgs s' f = k_msgs s f) /\ k_views s' = k_views s /\ k_sent s' = k_sent s /\
  k_ring s' = k_ring s /\ k_sps s' = k_sps s /\ k_clock s' = k_clock s.
Proof. intros []; repeat split. Qed.

Lemma step_grows b n s a s' : KWf n s -> kstep b s a = Some s' -> grows n s s'.
Proof.
  intros HW E. unfold kstep in E. destruct (kact b s a) as [s1|] eqn:E1; [|discriminate]. injection E as <-.
  apply (grows_trans n s s1); [|apply grows_refl; reflexivity].
  assert (TH : forall t p, nth_error (k_threads s) t = Some p -> (t < n)%nat).
  { intros t p H. rewrite <- (W_len _ _ HW). apply nth_error_Some. congruence. }
  destruct a as [t op|t fails picks|t|t k]; cbn [kact] in E1.
  - destruct (nth_error (k_threads s) t) as [[]|]; try discriminate. destruct (kcan_start s t op); [|discriminate].
    injection E1 as <-. apply grows_refl; reflexivity.
  - destruct (nth_error (k_threads s) t) as [p|] eqn:Et; [|discriminate]. apply TH in Et as Ht.
    assert (Hv : (t < length (k_views s))%nat) by (rewrite (W_lenv _ _ HW); exact Ht).
    apply kstep_shapes in E1. inversion E1; subst; try (apply grows_refl; reflexivity);
      try (eapply grows_trans; [apply grows_written; [exact (W_lenv _ _ HW)|exact Ht|eassumption]|apply grows_refl; reflexivity]);
      try (eapply grows_trans; [eapply grows_loaded; [exact Hv|eassumption]|apply grows_refl; reflexivity]).
    + eapply grows_trans; [apply (grows_sp n s t (c, acc)); exact Hv|apply grows_refl; reflexivity].
    + eapply grows_ring; eassumption.
    + eapply grows_ring; eassumption.
    + eapply grows_trans; [eapply grows_ring; eassumption|apply grows_refl; reflexivity].
    + match goal with L : ring_ret _ _ _ _ _ |- _ => destruct (ring_ret_same _ _ _ _ _ L) as (M1 & M2 & M3 & M4 & _) end.
      eapply grows_trans; [eapply grows_ring; eassumption|]. apply grows_refl; assumption.
  - destruct (nth_error (k_threads s) t) as [[]|]; try discriminate. destruct (wstep b (k_ring s) (Send t)) as [r|] eqn:Er; [|discriminate].
    injection E1 as <-. eapply grows_trans; [eapply grows_ring; eassumption|]. split.
    + intros u _. apply kle_same; auto; [apply incl_refl|apply vle_refl].
    + intros j v rv H1 H2. exists v. kfld. split; [rewrite nth_error_app1; [exact H1|apply nth_error_Some; congruence]|]. split; [exact H2|].
      apply kle_same; auto; [apply incl_refl|apply vle_refl].
  - destruct (nth_error (k_threads s) t) as [[]|] eqn:Et; try discriminate. apply TH in Et as Ht. destruct (nth_error (k_sent s) k) as [v|]; [|discriminate].
    destruct (wstep b (k_ring s) (Recv t k)) as [r|] eqn:Er; [|discriminate]. injection E1 as <-.
    eapply grows_trans; [eapply grows_ring; eassumption|]. apply grows_view.
    + kfld. rewrite (W_lenv _ _ HW). exact Ht.
    + intros f. cbn [kv_join kv]. change (kview_of (kput_ring s r) t) with (kview_of s t). lia.
    + change (kview_of (kput_ring s r) t) with (kview_of s t). cbn [kv_join refs]. apply incl_appr, incl_refl.
Qed.

(** ** Along a schedule *)
Section Path.
Variables (b : build) (sz n : nat) (sched : list kaction).
Definition kat (i : nat) : option kst := krun b (kinit sz n) (firstn i sched).

Lemma kat_S i a s s' : nth_error sched i = Some a -> kat i = Some s -> kat (S i) = Some s' -> kstep b s a = Some s'.
Proof.
  unfold kat. intros Ha H H'. rewrite (firstn_S _ _ _ Ha), krun_app, H in H'. cbn [krun] in H'. destruct (kstep b s a); congruence.
Qed.
Lemma kat_prev i s' : kat (S i) = Some s' -> exists s, kat i = Some s.
Proof.
  unfold kat. intros H. destruct (nth_error sched i) as [a|] eqn:Ha.
  - rewrite (firstn_S _ _ _ Ha), krun_app in H. destruct (krun b (kinit sz n) (firstn i sched)); [eauto|discriminate].
  - apply nth_error_None in Ha. rewrite firstn_all2 in * by lia. eauto.
Qed.
Lemma kat_le i j s' : (i <= j)%nat -> kat j = Some s' -> exists s, kat i = Some s.
Proof. intros L. revert s'. induction L as [|j L IH]; intros s' H; [eauto|]. apply kat_prev in H. destruct H as (s & H). eauto. Qed.
Lemma kat_nth i s s' : kat i = Some s -> kat (S i) = Some s' -> nth_error sched i = None -> s' = s.
Proof. unfold kat. intros H H' N. apply nth_error_None in N. rewrite firstn_all2 in * by lia. congruence. Qed.
Lemma kat_wf i s : kat i = Some s -> KWf n s.
Proof. intros H. eapply (krun_inv b (KWf n)); [|apply KWf_init|exact H]. intros; eapply KWf_step; eassumption. Qed.

Lemma kat_mono i j s s' : (i <= j)%nat -> kat i = Some s -> kat j = Some s' -> grows n s s'.
Proof.
  intros L. revert s'. induction L as [|j L IH]; intros s' H H'.
  - rewrite H in H'. injection H' as <-. apply grows_refl; reflexivity.
  - destruct (kat_prev _ _ H') as (s1 & H1). eapply grows_trans; [apply (IH s1 H H1)|].
    destruct (nth_error sched j) as [a|] eqn:Ha.
    + eapply step_grows; [eapply kat_wf; exact H1|]. eapply kat_S; eassumption.
    + rewrite (kat_nth j s1 s' H1 H' Ha). apply grows_refl; reflexivity.
Qed.

Lemma ksent_step s a s' : kstep b s a = Some s' -> length (k_sent s') = (length (k_sent s) + if kis_send a then 1 else 0)%nat.
Proof.
  unfold kstep. destruct (kact b s a) as [s1|] eqn:E1; [|discriminate]. intros [= <-]. kfld.
  destruct a as [t op|t fails picks|t|t k]; cbn [kact kis_send] in *; rewrite ?Nat.add_0_r.
  - destruct (nth_error (k_threads s) t) as [[]|]; try discriminate. destruct (kcan_start s t op); [|discriminate]. injection E1 as <-. reflexivity.
  - destruct (nth_error (k_threads s) t) as [p|]; [|discriminate]. apply kstep_shapes in E1.
    inversion E1; subst; try reflexivity; try (kfld; apply map_length).
    match goal with L : ring_ret _ _ _ _ _ |- _ => destruct (ring_ret_same _ _ _ _ _ L) as (_ & _ & -> & _) end. reflexivity.
  - destruct (nth_error (k_threads s) t) as [[]|]; try discriminate. destruct (wstep b (k_ring s) (Send t)); [|discriminate].
    injection E1 as <-. kfld. rewrite app_length. reflexivity.
  - destruct (nth_error (k_threads s) t) as [[]|]; try discriminate. destruct (nth_error (k_sent s) k); [|discriminate].
    destruct (wstep b (k_ring s) (Recv t k)); [|discriminate]. injection E1 as <-. reflexivity.
Qed.
Lemma ksent_count i s : kat i = Some s -> length (k_sent s) = length (filter kis_send (firstn i sched)).
Proof.
  revert s. induction i as [|i IH]; intros s H.
  - cbn in H. injection H as <-. reflexivity.
  - destruct (kat_prev _ _ H) as (s1 & H1). destruct (nth_error sched i) as [a|] eqn:Ha.
    + rewrite (firstn_S _ _ _ Ha), filter_app, app_length, <- (IH s1 H1), (ksent_step _ _ _ (kat_S _ _ _ _ Ha H1 H)).
      cbn [filter]. destruct (kis_send a); reflexivity.
    + rewrite (kat_nth i s1 s H1 H Ha), (IH s1 H1). apply nth_error_None in Ha. rewrite !firstn_all2 by lia. reflexivity.
Qed.

Lemma khb_lt i j : khb sched i j -> (i < j)%nat.
Proof. induction 1; lia. Qed.
Definition kis_recv (a : kaction) : bool := match a with KRecv _ _ => true | _ => false end.

Definition tkle (s : kst) (t : nat) (s' : kst) (t' : nat) : Prop :=
  kle s (kview_of s t) (view_of (k_ring s) t) s' (kview_of s' t') (view_of (k_ring s') t').
Lemma tkle_trans s t s' t' s'' t'' : tkle s t s' t' -> tkle s' t' s'' t'' -> tkle s t s'' t''.
Proof. apply kle_trans. Qed.
Lemma kactor_lt i a s s' : nth_error sched i = Some a -> kat i = Some s -> kat (S i) = Some s' -> (kactor a < n)%nat.
Proof.
  intros Ha H H'. pose proof (kat_S _ _ _ _ Ha H H') as E. pose proof (kat_wf _ _ H) as HW. rewrite <- (W_len _ _ HW).
  unfold kstep in E. destruct (kact b s a) as [s1|] eqn:E1; [|discriminate]. clear E.
  assert (forall t, nth_error (k_threads s) t <> None -> (t < length (k_threads s))%nat) as K by (intros; apply nth_error_Some; assumption).
  destruct a as [t op|t fails picks|t|t k]; cbn [kact kactor] in *; apply K; intros N; rewrite N in E1; discriminate.
Qed.

Lemma khb_views i j : khb sched i j ->
  forall a a' si sj sj', nth_error sched i = Some a -> nth_error sched j = Some a' ->
  kat (S i) = Some si -> kat j = Some sj -> kat (S j) = Some sj' ->
  tkle si (kactor a) sj' (kactor a') /\ (kis_recv a' = false -> tkle si (kactor a) sj (kactor a')).
Proof.
  induction 1 as [i j a0 a0' L H1 H2 Ht|i j t u H1 H2 L|i j k H1 IH1 H2 IH2]; intros a a' si sj sj' Ha Ha' Hi Hj Hj'.
  - rewrite H1 in Ha. injection Ha as <-. rewrite H2 in Ha'. injection Ha' as <-. rewrite <- Ht.
    destruct (kat_prev _ _ Hi) as (s0 & H0). pose proof (kactor_lt _ _ _ _ H1 H0 Hi) as LT.
    split; [apply (kat_mono (S i) (S j) si sj')|intros _; apply (kat_mono (S i) j si sj)]; auto; lia.
  - rewrite H1 in Ha. injection Ha as <-. rewrite H2 in Ha'. injection Ha' as <-.
    split; [|discriminate]. cbn [kactor].
    destruct (kat_prev _ _ Hi) as (s0 & H0).
    pose proof (kat_S _ _ _ _ H1 H0 Hi) as E. pose proof (kat_S _ _ _ _ H2 Hj Hj') as E'.
    pose proof (kactor_lt _ _ _ _ H2 Hj Hj') as LT. cbn [kactor] in LT.
    pose proof (kat_wf _ _ H0) as W0. pose proof (kat_wf _ _ Hj) as Wj.
    destruct (kat_mono (S i) j si sj ltac:(lia) Hi Hj) as (_ & MS).
    unfold kstep in E. destruct (kact b s0 (KSend t)) as [s1|] eqn:E1; [|discriminate]. injection E as <-. cbn [kact] in E1.
    destruct (nth_error (k_threads s0) t) as [[]|]; try discriminate. destruct (wstep b (k_ring s0) (Send t)) as [r|] eqn:Er; [|discriminate].
    injection E1 as <-. kfld. pose proof (step_sent _ _ _ _ Er) as SR.
    assert (RT : view_of r t = view_of (k_ring s0) t).
    { cbn [wstep] in Er. destruct (nth_error (w_threads (k_ring s0)) t) as [[]|]; try discriminate. injection Er as <-. reflexivity. }
    rewrite <- (ksent_count i s0 H0) in *.
    destruct (MS (length (k_sent s0)) (kview_of s0 t) (view_of (k_ring s0) t)) as (v' & N1 & N2 & K).
    { rewrite nth_error_app2, Nat.sub_diag by lia. reflexivity. }
    { rewrite SR, nth_error_app2 by (rewrite (W_lens _ _ W0); lia). rewrite (W_lens _ _ W0), Nat.sub_diag. reflexivity. }
    unfold kstep in E'. destruct (kact b sj (KRecv u (length (k_sent s0)))) as [s1|] eqn:E1; [|discriminate]. injection E' as <-. cbn [kact] in E1.
    destruct (nth_error (k_threads sj) u) as [[]|]; try discriminate. rewrite N1 in E1.
    destruct (wstep b (k_ring sj) (Recv u (length (k_sent s0)))) as [r'|] eqn:Er'; [|discriminate]. injection E1 as <-.
    unfold tkle. match goal with |- kle _ _ ?c _ _ _ => replace c with (view_of (k_ring s0) t) by (symmetry; exact RT) end.
    eapply kle_trans; [exact K|].
    change (kview_of (ktick (kput_view (kput_ring sj r') u (kv_join v' (kview_of sj u)))) u) with (kview_of (kput_view sj u (kv_join v' (kview_of sj u))) u).
    rewrite view_put by (rewrite (W_lenv _ _ Wj); exact LT). rewrite Nat.eqb_refl.
    apply kle_same; [reflexivity|intros f; cbn [kv_join kv]; lia|cbn [kv_join refs]; apply incl_appl, incl_refl|].
    kfld. cbn [wstep] in Er'. destruct (nth_error (w_threads (k_ring sj)) u) as [[]|]; try discriminate. rewrite N2 in Er'. injection Er' as <-.
    change (vle (view_of (k_ring s0) t) (nth u (upd u (view_of (k_ring s0) t ++ view_of (k_ring sj) u) (w_views (k_ring sj))) [])).
    rewrite view_upd, Nat.eqb_refl, (W_lenrv _ _ Wj), (proj2 (Nat.ltb_lt _ _)) by exact LT. apply vle_app_l.
  - pose proof (khb_lt j k H2) as L2. pose proof (khb_lt i j H1) as L1.
    destruct (nth_error sched j) as [c|] eqn:Hb.
    2:{ apply nth_error_None in Hb. assert (k < length sched)%nat by (apply nth_error_Some; congruence). lia. }
    destruct (kat_le (S j) k sj ltac:(lia) Hj) as (m' & Hm').
    destruct (kat_prev _ _ Hm') as (m & Hm).
    destruct (IH1 a c si m m' Ha eq_refl Hi Hm Hm') as (V1 & _).
    destruct (IH2 c a' m' sj sj' eq_refl Ha' Hm' Hj Hj') as (V2 & V3).
    split; [eapply tkle_trans; eauto|]. intros R. eapply tkle_trans; [exact V1|auto].
Qed.

(** ** Who wrote a message knows it *)
Lemma clock_at i s : (i <= length sched)%nat -> kat i = Some s -> k_clock s = i.
Proof.
  revert s. induction i as [|i IH]; intros s L H.
  - cbn in H. injection H as <-. reflexivity.
  - destruct (kat_prev _ _ H) as (s1 & H1). destruct (nth_error sched i) as [a|] eqn:Ha; [|apply nth_error_None in Ha; lia].
    pose proof (kat_S _ _ _ _ Ha H1 H) as E. rewrite <- (IH s1 ltac:(lia) H1).
    unfold kstep in E. destruct (kact b s1 a) as [s2|] eqn:E1; [|discriminate]. injection E as <-. kfld. f_equal.
    destruct a as [t op|t fails picks|t|t k]; cbn [kact] in E1.
    + destruct (nth_error (k_threads s1) t) as [[]|]; try discriminate. destruct (kcan_start s1 t op); [|discriminate]. injection E1 as <-. reflexivity.
    + destruct (nth_error (k_threads s1) t) as [p|]; [|discriminate]. apply kstep_shapes in E1. inversion E1; subst; try reflexivity.
      match goal with L : ring_ret _ _ _ _ _ |- _ => destruct (ring_ret_same _ _ _ _ _ L) as (_ & _ & _ & _ & _ & ->) end. reflexivity.
    + destruct (nth_error (k_threads s1) t) as [[]|]; try discriminate. destruct (wstep b (k_ring s1) (Send t)); [|discriminate]. injection E1 as <-. reflexivity.
    + destruct (nth_error (k_threads s1) t) as [[]|]; try discriminate. destruct (nth_error (k_sent s1) k); [|discriminate].
      destruct (wstep b (k_ring s1) (Recv t k)); [|discriminate]. injection E1 as <-. reflexivity.
Qed.

(** every message of the next state is an old one, or one the actor has just written and knows *)
Lemma step_msgs m0 s a s' : KWf m0 s -> kstep b s a = Some s' -> forall f p m, nth_error (k_msgs s' f) p = Some m ->
  (exists q, nth_error (k_msgs s f) q = Some m) \/ (f_by m = Some (k_clock s) /\ (p <= kv (kview_of s' (kactor a)) f)%nat).
Proof.
  intros HW E. unfold kstep in E. destruct (kact b s a) as [s1|] eqn:E1; [|discriminate]. injection E as <-.
  intros f p m H. change (k_msgs (ktick s1) f) with (k_msgs s1 f) in H. change (kview_of (ktick s1) (kactor a)) with (kview_of s1 (kactor a)).
  assert (SAME : (forall g, k_msgs s1 g = k_msgs s g) -> exists q, nth_error (k_msgs s f) q = Some m) by (intros E; rewrite E in H; eauto).
  destruct a as [t op|t fails picks|t|t k]; cbn [kact kactor] in *.
  - left. apply SAME. destruct (nth_error (k_threads s) t) as [[]|]; try discriminate. destruct (kcan_start s t op); [|discriminate]. injection E1 as <-. reflexivity.
  - destruct (nth_error (k_threads s) t) as [pc|] eqn:Et; [|discriminate].
    assert (Ht : (t < length (k_views s))%nat) by (rewrite (W_lenv _ _ HW), <- (W_len _ _ HW); apply nth_error_Some; congruence).
    assert (WR : forall g k v rmw pc', can_write s t g k -> s1 = kput (written s t g k v rmw) t pc' ->
      (exists q, nth_error (k_msgs s f) q = Some m) \/ (f_by m = Some (k_clock s) /\ (p <= kv (kview_of s1 t) f)%nat)).
    { intros g k v rmw pc' (C1 & C2 & C3) ->. change (kview_of (kput ?x _ _)) with (kview_of x).
      change (kview_of (kput (written s t g k v rmw) t pc') t) with (kview_of (written s t g k v rmw) t).
      rewrite view_written, Nat.eqb_refl by exact Ht. kfld. cbn [kv_set kv]. destruct (field_eq_dec f g) as [->|]; [|left; eauto].
      rewrite insert_nth in H by lia. destruct (Nat.ltb_spec p (S k)); [left; eauto|]. destruct (Nat.eqb_spec p (S k)); [|left; eauto].
      injection H as <-. right. split; [reflexivity|lia]. }
    apply kstep_shapes in E1. inversion E1; subst; try (left; apply SAME; reflexivity);
      try (eapply WR; [eassumption|reflexivity]).
    left. apply SAME. match goal with L : ring_ret _ _ _ _ _ |- _ => destruct (ring_ret_same _ _ _ _ _ L) as (M & _) end. exact M.
  - left. apply SAME. destruct (nth_error (k_threads s) t) as [[]|]; try discriminate. destruct (wstep b (k_ring s) (Send t)); [|discriminate]. injection E1 as <-. reflexivity.
  - left. apply SAME. destruct (nth_error (k_threads s) t) as [[]|]; try discriminate. destruct (nth_error (k_sent s) k); [|discriminate].
    destruct (wstep b (k_ring s) (Recv t k)); [|discriminate]. injection E1 as <-. reflexivity.
Qed.

Lemma writer_knows j s : (j <= length sched)%nat -> kat j = Some s -> forall f p m i, nth_error (k_msgs s f) p = Some m -> f_by m = Some i ->
  (i < j)%nat /\ exists a si, nth_error sched i = Some a /\ kat (S i) = Some si /\ knowsm si (kview_of si (kactor a)) f i.
Proof.
  revert s. induction j as [|j IH]; intros s L H f p m i Hp Hm.
  - cbn in H. injection H as <-. cbn in Hp. destruct p as [|[|]]; try discriminate. injection Hp as <-. discriminate.
  - destruct (kat_prev _ _ H) as (s1 & H1). destruct (nth_error sched j) as [a|] eqn:Ha; [|apply nth_error_None in Ha; lia].
    pose proof (kat_S _ _ _ _ Ha H1 H) as E.
    destruct (step_msgs _ _ _ _ (kat_wf _ _ H1) E f p m Hp) as [(q & Hq)|[Hc Hk]].
    + destruct (IH s1 ltac:(lia) H1 f q m i Hq Hm) as (L1 & K). split; [lia|exact K].
    + rewrite (clock_at j s1 ltac:(lia) H1) in Hc. rewrite Hc in Hm. injection Hm as <-. split; [lia|].
      exists a, s. split; [exact Ha|]. split; [exact H|]. exists p, m. split; [exact Hp|]. split; [exact Hc|exact Hk].
Qed.

(** a thread everything has happened before knows the newest message of every field *)
Lemma all_known j a s s' : after_all sched j -> nth_error sched j = Some a -> kis_recv a = false -> kat j = Some s -> kat (S j) = Some s' ->
  forall f, kv (kview_of s (kactor a)) f = (length (k_msgs s f) - 1)%nat.
Proof.
  intros HA Ha HR H H' f. pose proof (kat_wf _ _ H) as HW.
  pose proof (kactor_lt _ _ _ _ Ha H H') as LT. pose proof (W_views _ _ HW _ f LT) as UB.
  destruct (length (k_msgs s f) - 1)%nat as [|q] eqn:EQ; [lia|].
  destruct (nth_error (k_msgs s f) (S q)) as [m|] eqn:Em; [|apply nth_error_None in Em; lia].
  destruct (W_by _ _ HW f q m Em) as (i & Hi & _).
  assert (JL : (j < length sched)%nat) by (apply nth_error_Some; congruence).
  destruct (writer_knows j s ltac:(lia) H f (S q) m i Em Hi) as (L & a0 & si & Ha0 & Hsi & K).
  destruct (khb_views i j (HA i L) a0 a si s s' Ha0 Ha Hsi H H') as (_ & V). specialize (V HR). destruct V as (V & _).
  destruct (V f i K) as (p & m' & Hp & Hm' & Lp). pose proof (W_inj _ _ HW f p (S q) m' m Hp Em ltac:(congruence)). subst p. lia.
Qed.

(** ... and of the ring's published tail *)
Lemma hb_ring i j a a' si s s' l : khb sched i j -> nth_error sched i = Some a -> nth_error sched j = Some a' -> kis_recv a' = false ->
  kat (S i) = Some si -> kat j = Some s -> kat (S j) = Some s' ->
  (seen (view_of (k_ring si) (kactor a)) l <= seen (view_of (k_ring s) (kactor a')) l)%nat.
Proof.
  intros H Ha Ha' HR Hi Hj Hj'. destruct (khb_views i j H a a' si s s' Ha Ha' Hi Hj Hj') as (_ & V). specialize (V HR). destruct V as (_ & _ & V). apply V.
Qed.
End Path.
