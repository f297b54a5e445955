(** * Relaxed memory: the ring inside the allocator, references to save points, and panics. *)
From Coq Require Import List ZArith Lia Bool Arith.
From Verif Require Import Machine Ring RingSeq RingConc Alloc AllocSpec AllocProofs AllocConc AllocConcSpec AllocConcProofs AllocConcProofs2
  RingWeak RingWeakSpec RingWeakProofs RingWeakProofs2 RingWeakProofs3 RingWeakProofs4 RingWeakProofs5 RingWeakPeek
  AllocWeak AllocWeakSpec AllocWeakProofs AllocWeakProofs2 AllocWeakProofs3.
Import ListNotations.
Open Scope Z_scope.

(** ** Program counters of the allocator and of the ring *)
Definition pair_ok (sps : list (Z * list Z)) (p : apc) (q : pc (Z * Z)) : Prop :=
  match p with
  | SEnq mn mx => q = Idle \/ q = EnqReserve (mn, mx) \/ (exists rt, q = EnqWrite rt (mn, mx) \/ q = EnqPublish rt (mn, mx))
  | SConsumer => q = Idle \/ q = ConsLoad
  | DPeek k => q = Idle \/ exists sp, nth_error sps k = Some sp /\
      (q = PeekLoadHead (Z.to_nat (fst sp)) \/ exists h, q = PeekLoadTail (Z.to_nat (fst sp)) h)
  | APanicked _ => match q with Idle | Panicked _ => True | _ => False end
  | _ => q = Idle
  end.
(** save points not yet entered into the ring *)
Definition e1 (p : apc) (q : pc (Z * Z)) : Z :=
  match p with
  | SLoadMin | SLoadMax _ => 1
  | SEnq _ _ => match q with Idle | EnqReserve _ => 1 | _ => 0 end
  | _ => 0
  end.
Fixpoint csum (l : list apc) (l' : list (pc (Z * Z))) : Z :=
  match l, l' with p :: l, q :: l' => e1 p q + csum l l' | _, _ => 0 end.
Lemma csum_upd l : forall l' t p q p' q', nth_error l t = Some p -> nth_error l' t = Some q ->
  csum (upd t p' l) (upd t q' l') = csum l l' - e1 p q + e1 p' q'.
Proof.
  induction l as [|x l IH]; intros [|y l'] [|t] p q p' q' H H'; cbn [nth_error upd csum] in *; try discriminate.
  - injection H as ->. injection H' as ->. lia.
  - rewrite (IH l' t p q p' q' H H'). lia.
Qed.
Lemma csum_nonneg l : forall l', 0 <= csum l l'.
Proof.
  induction l as [|x l IH]; intros [|y l']; cbn [csum]; try lia. specialize (IH l').
  assert (0 <= e1 x y) by (unfold e1; destruct x; try lia; destruct y; lia). lia.
Qed.
Lemma upd_same {X} (l : list X) t x : nth_error l t = Some x -> upd t x l = l.
Proof. revert t; induction l as [|y l IH]; intros [|t] H; cbn in *; try discriminate; [congruence|]. f_equal. auto. Qed.

Lemma wpc_step b (r : wstate (Z * Z)) t q f picks r' : nth_error (w_threads r) t = Some q -> wstep b r (WStep t f picks) = Some r' -> peeking q ->
  length (w_views r) = length (w_threads r) ->
  exists q', w_threads r' = upd t q' (w_threads r) /\
  match q with
  | EnqReserve x => exists rt, q' = EnqWrite rt x /\ w_hist r' = w_hist r ++ [x]
  | EnqWrite rt x => q' = EnqPublish rt x /\ w_hist r' = w_hist r
  | EnqPublish rt x => (q' = Idle \/ q' = EnqPublish rt x \/ exists e, q' = Panicked e) /\ w_hist r' = w_hist r
  | ConsLoad => q' = Idle /\ w_hist r' = w_hist r /\ exists h, w_events r' = w_events r ++ [EvConsumer (length (w_heads r)) h] /\
                 (1 <= seen (view_of r' t) (Head (length (w_heads r))))%nat
  | PeekLoadHead c => (exists h, q' = PeekLoadTail c h) /\ w_hist r' = w_hist r
  | PeekLoadTail c h => (q' = Idle \/ exists e, q' = Panicked e) /\ w_hist r' = w_hist r
  | _ => False
  end.
Proof.
  intros Ht E Pk LV. assert (LT : (t < length (w_views r))%nat) by (rewrite LV; apply nth_error_Some; congruence). apply Nat.ltb_lt in LT.
  cbn [wstep] in E. rewrite Ht in E.
  destruct q as [|x|rt x|rt x|c|c h|c h|c h|c|c h| |q]; cbn [wthread_step] in E; try discriminate; try contradiction Pk;
    split_step E; injection E as <-; (eexists; split; [reflexivity|]); try (split; eauto; fail); eauto.
  split; [reflexivity|]. split; [reflexivity|]. eexists. split; [reflexivity|]. unfold view_of. cbn [wlog goto w_views]. rewrite view_upd, Nat.eqb_refl, LT.
  rewrite seen_cons, loc_eqb_refl. lia.
Qed.

Record RG (sz n : nat) (s : kst) : Prop := {
  G_wok : Wok sz (k_ring s);
  G_sinv : SInv sz (k_ring s);
  G_pk : PK (k_ring s);
  G_rk : RK (k_ring s);
  G_pair : forall t p q, nth_error (k_threads s) t = Some p -> nth_error (w_threads (k_ring s)) t = Some q -> pair_ok (k_sps s) p q;
  G_count : Z.of_nat (length (w_hist (k_ring s))) + csum (k_threads s) (w_threads (k_ring s)) = saves (k_started s)
}.

(** the structural part of a step *)
Definition ringed (b : build) (s s' : kst) : Prop :=
  k_ring s' = k_ring s \/ exists ra, wstep b (k_ring s) ra = Some (k_ring s') /\ forall t c, ra <> WStart t (CDequeue c).

Lemma pair_mono sps l p q : pair_ok sps p q -> pair_ok (sps ++ l) p q.
Proof.
  destruct p; cbn [pair_ok]; auto. intros HH. destruct HH as [HI|HH]; [left; exact HI|]. destruct HH as (sp & E & HQ). right. exists sp. split; [|exact HQ].
  rewrite nth_error_app1; [exact E|apply nth_error_Some; congruence].
Qed.
Lemma pair_idle sps p : (forall e, p <> APanicked e) -> pair_ok sps p Idle.
Proof. destruct p; cbn [pair_ok]; auto. Qed.
Lemma load_kind_ring p f next : load_kind p f next -> forall sps q v, pair_ok sps p q -> q = Idle /\ e1 (next v) Idle = e1 p Idle /\ forall e, next v <> APanicked e.
Proof. intros []; intros sps q v HH; (split; [exact HH|split; [reflexivity|discriminate]]). Qed.

Lemma pairs_step b n s a s' : KWf n s -> RK (k_ring s) ->
  (forall t p q, nth_error (k_threads s) t = Some p -> nth_error (w_threads (k_ring s)) t = Some q -> pair_ok (k_sps s) p q) ->
  kstep b s a = Some s' ->
  ringed b s s' /\
  (forall t p q, nth_error (k_threads s') t = Some p -> nth_error (w_threads (k_ring s')) t = Some q -> pair_ok (k_sps s') p q) /\
  Z.of_nat (length (w_hist (k_ring s'))) + csum (k_threads s') (w_threads (k_ring s')) - saves (k_started s') =
  Z.of_nat (length (w_hist (k_ring s))) + csum (k_threads s) (w_threads (k_ring s)) - saves (k_started s).
Proof.
  intros HW HRK HP E. pose proof (kstarted_step _ _ _ _ E) as ES.
  unfold kstep in E. destruct (kact b s a) as [s1|] eqn:E1; [|discriminate]. injection E as <-.
  enough (ringed b s s1 /\
    (forall t p q, nth_error (k_threads s1) t = Some p -> nth_error (w_threads (k_ring s1)) t = Some q -> pair_ok (k_sps s1) p q) /\
    Z.of_nat (length (w_hist (k_ring s1))) + csum (k_threads s1) (w_threads (k_ring s1)) - saves (k_started s1) =
    Z.of_nat (length (w_hist (k_ring s))) + csum (k_threads s) (w_threads (k_ring s)) - saves (k_started s)) as G by exact G.
  change (k_started (ktick s1)) with (k_started s1) in ES.
  pose proof (W_len _ _ HW) as L1. pose proof (W_lenr _ _ HW) as L2. pose proof (W_lenrv _ _ HW) as L3.
  assert (RQ : forall t p, nth_error (k_threads s) t = Some p -> exists q, nth_error (w_threads (k_ring s)) t = Some q /\ pair_ok (k_sps s) p q).
  { intros t p Ht. destruct (nth_error (w_threads (k_ring s)) t) as [q|] eqn:Eq; [eauto|].
    apply nth_error_None in Eq. assert (t < length (k_threads s))%nat by (apply nth_error_Some; congruence). lia. }
  (* thread t moves, the ring's thread t moves to q' *)
  assert (MV : forall t p q p' q' s2 l, nth_error (k_threads s) t = Some p -> nth_error (w_threads (k_ring s)) t = Some q ->
     k_threads s2 = upd t p' (k_threads s) -> w_threads (k_ring s2) = upd t q' (w_threads (k_ring s)) -> k_sps s2 = k_sps s ++ l ->
     pair_ok (k_sps s2) p' q' ->
     Z.of_nat (length (w_hist (k_ring s2))) + e1 p' q' - saves (k_started s2) = Z.of_nat (length (w_hist (k_ring s))) + e1 p q - saves (k_started s) ->
     (forall t p q, nth_error (k_threads s2) t = Some p -> nth_error (w_threads (k_ring s2)) t = Some q -> pair_ok (k_sps s2) p q) /\
     Z.of_nat (length (w_hist (k_ring s2))) + csum (k_threads s2) (w_threads (k_ring s2)) - saves (k_started s2) =
     Z.of_nat (length (w_hist (k_ring s))) + csum (k_threads s) (w_threads (k_ring s)) - saves (k_started s)).
  { intros t p q p' q' s2 l Hp Hq M1 M2 M3 M4 M5. split.
    - intros u pu qu. rewrite M1, M2, !nth_error_upd.
      assert (LT : (t < length (k_threads s))%nat) by (apply nth_error_Some; congruence).
      rewrite (proj2 (Nat.ltb_lt t (length (k_threads s)))), (proj2 (Nat.ltb_lt t (length (w_threads (k_ring s))))) by lia.
      destruct (Nat.eqb t u).
      + intros [= <-] [= <-]. exact M4.
      + intros H1 H2. rewrite M3. apply pair_mono. eapply HP; eassumption.
    - rewrite M1, M2, (csum_upd _ _ t p q p' q' Hp Hq). lia. }
  (* the ring does not move *)
  assert (NM : forall t p p' s2, nth_error (k_threads s) t = Some p -> pair_ok (k_sps s) p Idle -> (forall q, pair_ok (k_sps s) p q -> q = Idle) ->
     k_threads s2 = upd t p' (k_threads s) -> k_ring s2 = k_ring s -> (exists l, k_sps s2 = k_sps s ++ l) -> pair_ok (k_sps s2) p' Idle ->
     e1 p' Idle - saves (k_started s2) = e1 p Idle - saves (k_started s) ->
     ringed b s s2 /\ (forall t p q, nth_error (k_threads s2) t = Some p -> nth_error (w_threads (k_ring s2)) t = Some q -> pair_ok (k_sps s2) p q) /\
     Z.of_nat (length (w_hist (k_ring s2))) + csum (k_threads s2) (w_threads (k_ring s2)) - saves (k_started s2) =
     Z.of_nat (length (w_hist (k_ring s))) + csum (k_threads s) (w_threads (k_ring s)) - saves (k_started s)).
  { intros t p p' s2 Hp PI PQ M1 M2 (l & M3) M4 M5. split; [left; exact M2|]. destruct (RQ t p Hp) as (q & Hq & Pq). rewrite (PQ q Pq) in Hq.
    apply (MV t p Idle p' Idle s2 l); auto; rewrite M2; [rewrite upd_same by exact Hq; reflexivity|lia]. }
  assert (ID : forall l, @nil (Z * list Z) = l -> exists l, k_sps s = k_sps s ++ l) by (intros; exists []; rewrite app_nil_r; reflexivity).
  pose proof (ID _ eq_refl) as ID0. clear ID.
  destruct a as [t op|t fails picks|t|t k]; cbn [kact] in E1.
  - destruct (nth_error (k_threads s) t) as [p|] eqn:Et; [|discriminate]. destruct p; try discriminate.
    destruct (kcan_start s t op); [|discriminate]. injection E1 as <-.
    apply (NM t AIdle (first_apc op)); auto; try reflexivity.
    + apply pair_idle. destruct op; cbn [first_apc]; try discriminate; unfold after_adds; destruct (adds_of _); discriminate.
    + kfld. rewrite saves_snoc. cbn [e1]. assert (e1 (first_apc op) Idle = is_save op) as ->; [|lia].
      destruct op; cbn [first_apc is_save]; try reflexivity; unfold after_adds; destruct (adds_of _); reflexivity.
  - destruct (nth_error (k_threads s) t) as [p|] eqn:Et; [|discriminate].
    cbn [kcalls flat_map] in ES. rewrite app_nil_r in ES.
    apply kstep_shapes in E1.
    inversion E1; subst;
      try (eapply NM; [exact Et|apply pair_idle; discriminate|intros q Hq; exact Hq|reflexivity|reflexivity|exact ID0|apply pair_idle; discriminate|reflexivity]).
    + eapply NM; [exact Et|apply pair_idle; discriminate|intros q Hq; exact Hq|reflexivity|reflexivity|exact ID0| |].
      * apply pair_idle. destruct l; discriminate.
      * destruct l; reflexivity.
    + match goal with L : load_kind _ _ _ |- _ => rename L into LK end. destruct (RQ t p Et) as (q & Hq & Pq).
      pose proof (load_kind_ring _ _ _ LK (k_sps s) q v Pq) as (-> & EE & NP).
      split; [left; reflexivity|]. destruct ID0 as (l & El).
      apply (MV t p Idle (next v) Idle _ l); auto; [kfld; rewrite upd_same by exact Hq; reflexivity|apply pair_idle; exact NP|]. kfld. lia.
    + kfld. eapply NM; [exact Et|apply pair_idle; discriminate|intros q Hq; exact Hq|reflexivity|reflexivity|kfld; eauto|apply pair_idle; discriminate|reflexivity].
    + (* ring start *)
      match goal with L : ring_op _ _ _ |- _ => rename L into RO end. match goal with L : nth_error (w_threads _) _ = Some Idle |- _ => rename L into RI end.
      match goal with L : wstep _ _ _ = Some _ |- _ => rename L into RW end.
      split. { right. exists (WStart t op). split; [exact RW|]. intros u c. inversion RO; discriminate. }
      cbn [wstep] in RW. rewrite RI in RW. destruct (wop_ok (k_ring s) t op); [|discriminate]. injection RW as <-.
      destruct ID0 as (l & El). apply (MV t p Idle p (first_pc op) _ l); auto.
      * kfld. rewrite upd_same by exact Et. reflexivity.
      * inversion RO; subst; cbn [pair_ok first_pc]; [auto|auto|]. right. exists sp. auto.
      * inversion RO; subst; reflexivity.
    + (* ring step *)
      match goal with L : ring_op _ _ _ |- _ => rename L into RO end. match goal with L : nth_error (w_threads (k_ring s)) _ = Some _ |- _ => rename L into RI end.
      match goal with L : wstep _ _ _ = Some _ |- _ => rename L into RW end. match goal with L : running _ |- _ => rename L into RU end.
      split. { right. exists (WStep t fails0 picks0). split; [exact RW|]. discriminate. }
      pose proof (HP _ _ _ Et RI) as PO. pose proof (RK_pcs _ HRK _ _ RI) as PKQ.
      destruct (wpc_step _ _ _ _ _ _ _ RI RW PKQ ltac:(lia)) as (q2 & T2 & M).
      assert (q2 = q'). { match goal with L : nth_error (w_threads r) t = Some q' |- _ => rewrite T2, nth_error_upd, Nat.eqb_refl in L; destruct (Nat.ltb t _); [congruence|discriminate] end. }
      subst q2. destruct ID0 as (l & El).
      apply (MV t p q p q' (kput_ring s r) l); auto; kfld.
      * rewrite upd_same by exact Et. reflexivity.
      * inversion RO; subst; cbn [pair_ok] in *.
        -- destruct PO as [->|[->|(rt & [->| ->])]]; try congruence.
           ++ destruct M as (rt & -> & _). eauto 6.
           ++ destruct M as (-> & _). eauto 6.
           ++ destruct M as ([->|[->|(e & ->)]] & _); eauto 6; contradiction RU.
        -- destruct PO as [->| ->]; [congruence|]. destruct M as (-> & _). auto.
        -- destruct PO as [->|(sp0 & Es & [->|(h & ->)])]; try congruence.
           ++ destruct M as ((h & ->) & _). right. exists sp0. eauto.
           ++ destruct M as ([->|(e & ->)] & _); [auto|contradiction RU].
      * inversion RO; subst; cbn [pair_ok e1] in *.
        -- destruct PO as [->|[->|(rt & [->| ->])]]; try congruence.
           ++ destruct M as (rt & -> & ->). rewrite app_length. cbn [length]. lia.
           ++ destruct M as (-> & ->). lia.
           ++ destruct M as ([->|[->|(e & ->)]] & ->); [contradiction RU|lia|lia].
        -- destruct PO as [->| ->]; [congruence|]. destruct M as (-> & -> & _). lia.
        -- destruct PO as [->|(sp0 & Es & [->|(h & ->)])]; try congruence; destruct M as (_ & ->); lia.
    + (* ring panic *)
      match goal with L : ring_op _ _ _ |- _ => rename L into RO end. match goal with L : nth_error (w_threads (k_ring s)) _ = Some _ |- _ => rename L into RI end.
      match goal with L : wstep _ _ _ = Some _ |- _ => rename L into RW end.
      split. { right. exists (WStep t fails0 picks0). split; [exact RW|]. discriminate. }
      pose proof (HP _ _ _ Et RI) as PO. pose proof (RK_pcs _ HRK _ _ RI) as PKQ.
      destruct (wpc_step _ _ _ _ _ _ _ RI RW PKQ ltac:(lia)) as (q2 & T2 & M).
      assert (q2 = Panicked e). { match goal with L : nth_error (w_threads r) t = Some (Panicked e) |- _ => rewrite T2, nth_error_upd, Nat.eqb_refl in L; destruct (Nat.ltb t _); [congruence|discriminate] end. }
      subst q2. destruct ID0 as (l & El).
      apply (MV t p q (APanicked e) (Panicked e) (kput (kput_ring s r) t (APanicked e)) l); auto; kfld; [exact I|].
      inversion RO; subst; cbn [pair_ok e1] in *.
      * destruct PO as [->|[->|(rt & [->| ->])]]; try congruence.
        -- destruct M as (rt & ? & _). discriminate.
        -- destruct M as (? & _). discriminate.
        -- destruct M as (_ & ->). lia.
      * destruct PO as [->| ->]; [congruence|]. destruct M as (? & _). discriminate.
      * destruct PO as [->|(sp0 & Es & [->|(h & ->)])]; try congruence; destruct M as (_ & ->); lia.
    + (* ring ret *)
      match goal with L : ring_op _ _ _ |- _ => rename L into RO end. match goal with L : nth_error (w_threads (k_ring s)) _ = Some _ |- _ => rename L into RI end.
      match goal with L : wstep _ _ _ = Some _ |- _ => rename L into RW end. match goal with L : ring_ret _ _ _ _ _ |- _ => rename L into RR end.
      destruct (ring_ret_same _ _ _ _ _ RR) as (_ & _ & _ & M4 & M5 & _).
      split. { right. exists (WStep t fails0 picks0). rewrite M4. split; [exact RW|]. discriminate. }
      pose proof (HP _ _ _ Et RI) as PO. pose proof (RK_pcs _ HRK _ _ RI) as PKQ.
      destruct (wpc_step _ _ _ _ _ _ _ RI RW PKQ ltac:(lia)) as (q2 & T2 & M).
      assert (q2 = Idle). { match goal with L : nth_error (w_threads r) t = Some Idle |- _ => rewrite T2, nth_error_upd, Nat.eqb_refl in L; destruct (Nat.ltb t _); [congruence|discriminate] end. }
      subst q2. destruct ID0 as (l & El).
      destruct (ring_ret_msgs _ _ _ _ _ RR) as (_ & N2 & p' & N3 & _).
      assert (PI : pair_ok (k_sps s1) p' Idle /\ e1 p' Idle = 0).
      { assert (nth_error (k_threads s1) t = Some p') as Q.
        { rewrite N3, nth_error_upd, Nat.eqb_refl. kfld. assert (t < length (k_threads s))%nat as LT by (apply nth_error_Some; congruence).
          apply Nat.ltb_lt in LT. rewrite LT. reflexivity. }
        assert (LT : (t < length (k_threads s))%nat) by (apply nth_error_Some; congruence). apply Nat.ltb_lt in LT.
        inversion RR; subst; kfld; rewrite nth_error_upd, Nat.eqb_refl, LT in Q; injection Q as <-; cbn [pair_ok e1]; auto. }
      destruct PI as [PI EI].
      assert (Z.of_nat (length (w_hist r)) + 0 = Z.of_nat (length (w_hist (k_ring s))) + e1 p q).
      { inversion RO; subst; cbn [pair_ok e1] in *.
        * destruct PO as [->|[->|(rt & [->| ->])]]; try congruence.
          -- destruct M as (rt & ? & _). discriminate.
          -- destruct M as (? & _). discriminate.
          -- destruct M as (_ & ->). lia.
        * destruct PO as [->| ->]; [congruence|]. destruct M as (_ & -> & _). lia.
        * destruct PO as [->|(sp0 & Es & [->|(h & ->)])]; try congruence; destruct M as (_ & ->); lia. }
      apply (MV t p q p' Idle s1 l); auto.
      * rewrite M4. exact T2.
      * rewrite M5. exact El.
      * rewrite M4. kfld. rewrite EI. rewrite N2. kfld. lia.
    + kfld. eapply NM; [exact Et|apply pair_idle; discriminate|intros q0 Hq; exact Hq|reflexivity|reflexivity|exact ID0|exact I|reflexivity].
  - destruct (nth_error (k_threads s) t) as [[]|] eqn:Et; try discriminate. destruct (wstep b (k_ring s) (Send t)) as [r|] eqn:Er; [|discriminate].
    injection E1 as <-. split; [right; exists (Send t); split; [exact Er|discriminate]|]. kfld. cbn [wstep] in Er.
    destruct (nth_error (w_threads (k_ring s)) t) as [[]|]; try discriminate. injection Er as <-. cbn [w_threads w_hist]. split; [exact HP|reflexivity].
  - destruct (nth_error (k_threads s) t) as [[]|] eqn:Et; try discriminate. destruct (nth_error (k_sent s) k) as [v|]; [|discriminate].
    destruct (wstep b (k_ring s) (Recv t k)) as [r|] eqn:Er; [|discriminate]. injection E1 as <-.
    split; [right; exists (Recv t k); split; [exact Er|discriminate]|]. kfld. cbn [wstep] in Er.
    destruct (nth_error (w_threads (k_ring s)) t) as [[]|] eqn:Eq; try discriminate. destruct (nth_error (w_sent (k_ring s)) k); [|discriminate].
    injection Er as <-. cbn [goto w_threads w_hist]. rewrite upd_same by exact Eq. split; [exact HP|reflexivity].
Qed.

Lemma RG_init sz n : (1 <= sz)%nat -> RG sz n (kinit sz n).
Proof.
  intros HS. constructor; cbn [kinit k_ring k_threads k_sps k_started].
  - apply Wok_init.
  - apply SInv_init. exact HS.
  - intros t c H. apply nth_error_In, repeat_spec in H. discriminate.
  - apply RK_init.
  - intros t p q H1 H2. apply nth_error_In, repeat_spec in H1. apply nth_error_In, repeat_spec in H2. subst. reflexivity.
  - cbn [winit w_hist w_threads length]. induction n; [reflexivity|]. cbn [repeat csum e1] in *. exact IHn.
Qed.
Lemma RG_step b sz n s a s' : (1 <= sz)%nat -> Z.of_nat sz < two32 -> (n <= sz)%nat -> fits (k_started s') ->
  KWf n s -> RG sz n s -> kstep b s a = Some s' -> RG sz n s'.
Proof.
  intros HS HSB HN HF HW [G1 G2 G3 G4 G5 G6] E. destruct (pairs_step b n s a s' HW G4 G5 E) as (R & P & C).
  assert (C' : Z.of_nat (length (w_hist (k_ring s'))) + csum (k_threads s') (w_threads (k_ring s')) = saves (k_started s')) by lia.
  destruct R as [R|(ra & R & ND)].
  - constructor; try (rewrite R; assumption); assumption.
  - assert (HB : Z.of_nat (length (w_hist (k_ring s'))) < two32).
    { destruct HF as (_ & _ & HF). pose proof (csum_nonneg (k_threads s') (w_threads (k_ring s'))). lia. }
    pose proof (W_lenr _ _ HW) as LR. pose proof (W_lenrv _ _ HW) as LV.
    assert (W1 : Wok sz (k_ring s')).
    { destruct G1 as (HK & cs & HI & HR). destruct (W_step b sz _ cs ra _ HS HSB HI HR HK R HB) as (cs1 & HI1 & HR1).
      split; [eapply Known_step; eauto|eauto]. }
    constructor; auto.
    + eapply SInv_step; [exact HS| |exact G1|exact G2|exact R|exact W1]. lia.
    + eapply PK_step; [|exact G3|exact R]. lia.
    + eapply RK_step; [exact G1|exact G3|exact G4|exact R|exact ND].
Qed.
