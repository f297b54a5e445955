(** * Relaxed memory: counters never go back (within the hardware's limits). *)
From Coq Require Import List ZArith Lia Bool Arith.
From Verif Require Import Machine Ring RingSeq RingConc Alloc AllocSpec AllocProofs AllocConc AllocConcSpec AllocConcProofs AllocConcProofs2
  RingWeak RingWeakSpec RingWeakProofs RingWeakProofs3 AllocWeak AllocWeakSpec AllocWeakProofs AllocWeakProofs2.
Import ListNotations.
Open Scope Z_scope.

Definition cnt (f : field) : Prop := f <> FMin /\ f <> FMax.
Lemma counter_cnt f : In f counter_fields -> cnt f.
Proof. intros H. destruct (counter_not_minmax f H) as (A & B & _). split; assumption. Qed.

(** ** Counters only grow at the end, and views of them only move forward *)
Record fwd (n : nat) (s s' : kst) : Prop := {
  F_msgs : forall f, cnt f -> exists l, k_msgs s' f = k_msgs s f ++ l;
  F_views : forall u f, (u < n)%nat -> cnt f -> (kv (kview_of s u) f <= kv (kview_of s' u) f)%nat;
  F_sent : forall j v, nth_error (k_sent s) j = Some v -> exists v', nth_error (k_sent s') j = Some v' /\ refs v' = refs v /\
             forall f, cnt f -> kv v' f = kv v f;
  F_sps : exists l, k_sps s' = k_sps s ++ l
}.
Lemma fwd_same n s s' : (forall f, cnt f -> k_msgs s' f = k_msgs s f) -> (forall u f, (u < n)%nat -> cnt f -> (kv (kview_of s u) f <= kv (kview_of s' u) f)%nat) ->
  k_sent s' = k_sent s -> k_sps s' = k_sps s -> fwd n s s'.
Proof.
  intros A B C D. constructor.
  - intros f Hf. exists []. rewrite (A f Hf), app_nil_r. reflexivity.
  - exact B.
  - intros j v H. exists v. rewrite C. auto.
  - exists []. rewrite D, app_nil_r. reflexivity.
Qed.
Lemma fwd_trans n s s' s'' : fwd n s s' -> fwd n s' s'' -> fwd n s s''.
Proof.
  intros [A B C D] [A' B' C' D']. constructor.
  - intros f Hf. destruct (A f Hf) as (l & E). destruct (A' f Hf) as (l' & E'). exists (l ++ l'). rewrite E', E, app_assoc. reflexivity.
  - intros u f Hu Hf. specialize (B u f Hu Hf). specialize (B' u f Hu Hf). lia.
  - intros j v H. destruct (C j v H) as (v1 & H1 & R1 & K1). destruct (C' j v1 H1) as (v2 & H2 & R2 & K2). exists v2.
    split; [exact H2|]. split; [congruence|]. intros f Hf. rewrite K2, K1 by assumption. reflexivity.
  - destruct D as (l & E). destruct D' as (l' & E'). exists (l ++ l'). rewrite E', E, app_assoc. reflexivity.
Qed.
Lemma fwd_put n s t p : fwd n s (kput s t p).
Proof. apply fwd_same; reflexivity || (intros; reflexivity || apply Nat.le_refl). Qed.
Lemma fwd_loaded n s t f k v : (t < length (k_views s))%nat -> can_load s t f k v -> fwd n s (loaded s t f k).
Proof.
  intros L [_ C]. apply fwd_same; try reflexivity. intros u g Hu Hg. unfold loaded. rewrite view_put by exact L.
  destruct (Nat.eqb_spec t u) as [<-|]; [|lia]. cbn [kv kv_set]. destruct (field_eq_dec g f) as [->|]; lia.
Qed.
Lemma fwd_written n s t f k v rmw : KWf n s -> (t < n)%nat -> can_write s t f k -> fwd n s (written s t f k v rmw).
Proof.
  intros HW Ht C. pose proof (W_lenv _ _ HW) as LV.
  assert (EK : cnt f -> S k = length (k_msgs s f)) by (intros [F1 F2]; eapply counter_end; eassumption).
  assert (BU : forall w, (forall g, (kv w g < length (k_msgs s g))%nat) -> forall g, cnt g -> kv (bump f (S k) w) g = kv w g).
  { intros w Hw g Hg. cbn [bump kv]. destruct (field_eq_dec g f) as [->|]; [|reflexivity]. specialize (EK Hg). specialize (Hw f).
    rewrite (proj2 (Nat.leb_gt _ _)) by lia. reflexivity. }
  constructor.
  - intros g Hg. destruct (field_eq_dec g f) as [->|N].
    + rewrite written_end by (apply EK; exact Hg). eauto.
    + rewrite written_other by exact N. exists []. rewrite app_nil_r. reflexivity.
  - intros u g Hu Hg. rewrite view_written by lia. destruct (Nat.eqb_spec t u) as [<-|].
    + pose proof (bump_le_set s t f k g C) as Q. rewrite BU in Q; [exact Q| |exact Hg]. intros g'. apply (W_views _ _ HW); assumption.
    + rewrite BU; [lia| |exact Hg]. intros g'. apply (W_views _ _ HW); assumption.
  - intros j w H. exists (bump f (S k) w). kfld. rewrite nth_error_map, H. split; [reflexivity|]. split; [reflexivity|].
    intros g Hg. apply BU; [|exact Hg]. intros g'. eapply (W_sent _ _ HW); exact H.
  - exists []. kfld. rewrite app_nil_r. reflexivity.
Qed.

Lemma step_fwd b n s a s' : KWf n s -> kstep b s a = Some s' -> fwd n s s'.
Proof.
  intros HW E. unfold kstep in E. destruct (kact b s a) as [s1|] eqn:E1; [|discriminate]. injection E as <-.
  enough (fwd n s s1) as G by (destruct G; constructor; assumption).
  assert (TH : forall t p, nth_error (k_threads s) t = Some p -> (t < n)%nat).
  { intros t p H. rewrite <- (W_len _ _ HW). apply nth_error_Some. congruence. }
  assert (SAME : forall s1, (forall f, k_msgs s1 f = k_msgs s f) -> k_views s1 = k_views s -> k_sent s1 = k_sent s -> k_sps s1 = k_sps s -> fwd n s s1).
  { intros s2 M V S P. apply fwd_same; auto. intros u f _ _. unfold kview_of. rewrite V. lia. }
  destruct a as [t op|t fails picks|t|t k]; cbn [kact] in E1.
  - destruct (nth_error (k_threads s) t) as [[]|]; try discriminate. destruct (kcan_start s t op); [|discriminate].
    injection E1 as <-. apply SAME; reflexivity.
  - destruct (nth_error (k_threads s) t) as [p|] eqn:Et; [|discriminate]. apply TH in Et as Ht.
    assert (Hv : (t < length (k_views s))%nat) by (rewrite (W_lenv _ _ HW); exact Ht).
    apply kstep_shapes in E1. inversion E1; subst; try (apply SAME; reflexivity);
      try (eapply fwd_trans; [apply fwd_written; [exact HW|exact Ht|eassumption]|apply fwd_put]);
      try (eapply fwd_trans; [eapply fwd_loaded; [exact Hv|eassumption]|apply fwd_put]).
    + constructor.
      * intros f _. exists []. rewrite app_nil_r. reflexivity.
      * intros u f Hu Hf. change (kview_of (kput (kput_sp s t (c, acc)) t AIdle) u) with (kview_of (kput_sp s t (c, acc)) u). rewrite view_sp by exact Hv. destruct (Nat.eqb_spec t u) as [<-|]; cbn [kv]; lia.
      * intros j v H. exists v. auto.
      * kfld. eauto.
    + match goal with L : ring_ret _ _ _ _ _ |- _ => destruct (ring_ret_same _ _ _ _ _ L) as (M1 & M2 & M3 & M4 & M5 & _) end.
      apply SAME; assumption.
    + eapply fwd_trans; [eapply fwd_loaded; [exact Hv|eassumption]|]. apply fwd_same; intros; reflexivity || apply Nat.le_refl.
  - destruct (nth_error (k_threads s) t) as [[]|]; try discriminate. destruct (wstep b (k_ring s) (Send t)) as [r|] eqn:Er; [|discriminate].
    injection E1 as <-. constructor; kfld.
    + intros f _. exists []. rewrite app_nil_r. reflexivity.
    + intros u f _ _. apply Nat.le_refl.
    + intros j v H. exists v. rewrite nth_error_app1 by (apply nth_error_Some; congruence). auto.
    + exists []. rewrite app_nil_r. reflexivity.
  - destruct (nth_error (k_threads s) t) as [[]|] eqn:Et; try discriminate. apply TH in Et as Ht. destruct (nth_error (k_sent s) k) as [v|]; [|discriminate].
    destruct (wstep b (k_ring s) (Recv t k)) as [r|] eqn:Er; [|discriminate]. injection E1 as <-.
    apply fwd_same; try reflexivity. intros u f Hu Hf.
    change (kview_of (kput_view (kput_ring s r) t (kv_join v (kview_of s t))) u) with (kview_of (kput_view s t (kv_join v (kview_of s t))) u).
    rewrite view_put by (rewrite (W_lenv _ _ HW); exact Ht). destruct (Nat.eqb_spec t u) as [<-|]; [|lia]. cbn [kv_join kv]. lia.
Qed.

(** ** Values of counters along modification order *)
Definition rising (ms : list fmsg) : Prop :=
  forall i j m m', (i <= j)%nat -> nth_error ms i = Some m -> nth_error ms j = Some m' -> 0 <= f_val m <= f_val m'.
Record KN (n : nat) (s : kst) : Prop := {
  N_wf : KWf n s;
  N_pcs : Forall wf_pc (k_threads s);
  N_pos : Forall pos_pc (k_threads s);
  N_val : forall f, In f counter_fields -> kvalue s f + pend f (k_threads s) = total (contrib f) (k_started s);
  N_rise : forall f, In f counter_fields -> rising (k_msgs s f)
}.
Lemma rising_snoc ms m : (forall m', nth_error ms (length ms - 1) = Some m' -> f_val m' <= f_val m) -> ms <> [] -> rising ms -> rising (ms ++ [m]).
Proof.
  intros HL NE HR i j mi mj L Hi Hj.
  assert (exists m', nth_error ms (length ms - 1) = Some m') as (ml & Hl).
  { destruct (nth_error ms (length ms - 1)) as [x|] eqn:E; [eauto|]. apply nth_error_None in E. destruct ms; [congruence|cbn in E; lia]. }
  specialize (HL ml Hl). pose proof (HR _ _ _ _ (Nat.le_refl _) Hl Hl) as PL.
  destruct (Nat.lt_ge_cases j (length ms)) as [Lj|Lj].
  - rewrite nth_error_app1 in Hi, Hj by lia. eapply HR; [exact L|exact Hi|exact Hj].
  - rewrite nth_error_app2 in Hj by lia. destruct (j - length ms)%nat as [|[|]]; try discriminate. injection Hj as <-.
    destruct (Nat.lt_ge_cases i (length ms)) as [Li|Li].
    + rewrite nth_error_app1 in Hi by lia. pose proof (HR i (length ms - 1)%nat mi ml ltac:(lia) Hi Hl). lia.
    + rewrite nth_error_app2 in Hi by lia. destruct (i - length ms)%nat as [|[|]]; try discriminate. injection Hi as <-. lia.
Qed.

Lemma pos_first op : sizes_ok op -> pos_pc (first_apc op).
Proof.
  intros Hop.
  assert (forall f n, In (f, n) (adds_of op) -> In f counter_fields -> 0 <= n) as HA.
  { intros f n Hin Hf. destruct (counter_not_minmax f Hf) as (_ & _ & N).
    destruct op as [a ok|a|a ok|o a ok| |k]; cbn [adds_of sizes_ok] in *;
      try (repeat (destruct Hin as [Hin|Hin]; [injection Hin as <- <-; try congruence; lia|]); destruct Hin; fail).
    destruct (a >? o); [|destruct (a <? o)]; cbn [app] in Hin;
      repeat (destruct Hin as [Hin|Hin]; [injection Hin as <- <-; try congruence; lia|]); destruct Hin. }
  destruct op; cbn [first_apc]; try exact I; unfold after_adds; destruct (adds_of _); cbn [pos_pc]; auto.
Qed.
Lemma pos_after f n l : pos_pc (AAdds ((f, n) :: l)) -> pos_pc (after_adds l).
Proof. intros H. destruct l; [exact I|]. cbn [after_adds pos_pc]. intros g n' Hin. apply H. right. exact Hin. Qed.
Lemma load_kind_pos p f next v : load_kind p f next -> pos_pc (next v).
Proof. intros []; exact I. Qed.

Lemma KN_init sz n : KN n (kinit sz n).
Proof.
  constructor.
  - apply KWf_init.
  - apply Forall_forall. intros p Hp. apply repeat_spec in Hp. subst. exact I.
  - apply Forall_forall. intros p Hp. apply repeat_spec in Hp. subst. exact I.
  - intros f _. cbn [kinit k_started k_threads]. unfold pend. assert (sum (map (pend1 f) (repeat AIdle n)) = 0) as ->; [|reflexivity].
    induction n; [reflexivity|]. unfold sum in *. cbn [repeat map fold_right pend1]. lia.
  - intros f _ i j m m' _ Hi Hj. cbn in Hi, Hj. destruct i as [|[|]], j as [|[|]]; try discriminate. injection Hi as <-. injection Hj as <-. cbn. lia.
Qed.

Lemma nth_last_val s f m : nth_error (k_msgs s f) (length (k_msgs s f) - 1) = Some m -> f_val m = kvalue s f.
Proof. intros H. symmetry. apply kvalue_nth. exact H. Qed.

Lemma KN_step b n s a s' : fits (k_started s') -> KN n s -> kstep b s a = Some s' -> KN n s'.
Proof.
  intros HF [HW HP HPos HV HRi] E. pose proof (KWf_step _ _ _ _ _ HW E) as HW'. pose proof (kstarted_step _ _ _ _ E) as ES.
  unfold kstep in E. destruct (kact b s a) as [s1|] eqn:E1; [|discriminate]. injection E as <-. kfld.
  enough (Forall wf_pc (k_threads s1) /\ Forall pos_pc (k_threads s1) /\
          (forall f, In f counter_fields -> kvalue s1 f + pend f (k_threads s1) = total (contrib f) (k_started s1)) /\
          (forall f, In f counter_fields -> rising (k_msgs s1 f))) as (G1 & G2 & G3 & G4) by (constructor; assumption).
  clear HW'.
  assert (SAME : forall t p p' s2, nth_error (k_threads s) t = Some p -> (forall f, In f counter_fields -> k_msgs s2 f = k_msgs s f) -> k_started s2 = k_started s ->
            k_threads s2 = upd t p' (k_threads s) -> (forall g, pend1 g p' = pend1 g p) -> wf_pc p' -> pos_pc p' ->
            Forall wf_pc (k_threads s2) /\ Forall pos_pc (k_threads s2) /\
          (forall f, In f counter_fields -> kvalue s2 f + pend f (k_threads s2) = total (contrib f) (k_started s2)) /\
          (forall f, In f counter_fields -> rising (k_msgs s2 f))).
  { intros t p p' s2 Ht E2 E3 E4 E5 W P. rewrite E4, E3. split; [apply Forall_upd; assumption|]. split; [apply Forall_upd; assumption|]. split.
    - intros f Hf. unfold kvalue. rewrite (E2 f Hf). fold (kvalue s f). rewrite (pend_upd f _ t p) by exact Ht. rewrite E5, <- (HV f Hf). lia.
    - intros f Hf. rewrite (E2 f Hf). apply HRi. exact Hf. }
  assert (MM : forall t p p' f k v rmw, nth_error (k_threads s) t = Some p -> (f = FMin \/ f = FMax) -> (forall g, pend1 g p' = pend1 g p) -> wf_pc p' -> pos_pc p' ->
            let s2 := kput (written s t f k v rmw) t p' in
            Forall wf_pc (k_threads s2) /\ Forall pos_pc (k_threads s2) /\
          (forall f, In f counter_fields -> kvalue s2 f + pend f (k_threads s2) = total (contrib f) (k_started s2)) /\
          (forall f, In f counter_fields -> rising (k_msgs s2 f))).
  { intros t p p' f k v rmw Ht Hf E5 W P s2. apply (SAME t p p'); auto.
    intros g Hg. apply written_other. destruct (counter_cnt g Hg) as [A B]. destruct Hf; congruence. }
  destruct a as [t op|t fails picks|t|t k]; cbn [kact] in E1.
  - destruct (nth_error (k_threads s) t) as [p|] eqn:Et; [|discriminate]. destruct p; try discriminate.
    destruct (kcan_start s t op); [|discriminate]. injection E1 as <-. kfld.
    assert (sizes_ok op) as Hop. { destruct HF as [HF _]. apply Forall_app in HF. destruct HF as [_ HF]. inversion HF; assumption. }
    split; [apply Forall_upd; [exact HP|apply wf_first]|]. split; [apply Forall_upd; [exact HPos|apply pos_first; exact Hop]|]. split; [|exact HRi].
    intros f Hf. change (kvalue (kput (kput_started s op) t (first_apc op)) f) with (kvalue s f). destruct (counter_cnt f Hf) as [F1 F2].
    rewrite total_snoc, <- (HV f Hf), (pend_upd f _ t AIdle) by exact Et. rewrite pend1_first by assumption. cbn [pend1]. lia.
  - destruct (nth_error (k_threads s) t) as [p|] eqn:Et; [|discriminate].
    apply kstep_shapes in E1. pose proof (Forall_nth _ _ _ _ HP Et) as Hp. pose proof (Forall_nth _ _ _ _ HPos Et) as Hq.
    cbn [kcalls flat_map] in ES. rewrite app_nil_r in ES. rewrite ES in HF.
    inversion E1; subst; try (eapply SAME; [exact Et|intros; reflexivity|intros; reflexivity..|exact I|exact I]);
      try (eapply MM; [exact Et|auto|intros; reflexivity|exact I|exact I]).
    + (* add *)
      pose proof Hp as Hp'. apply cur_last_tl in Hp'. destruct Hp' as (W & F1 & F2 & _). pose proof (counter_end _ _ _ _ _ HW H0 F1 F2) as EK.
      destruct H as [(m & Em & Ev) _]. replace k with (length (k_msgs s f) - 1)%nat in Em by lia.
      pose proof (nth_last_val _ _ _ Em) as EV. rewrite EV in Ev.
      assert (VAL : In f counter_fields -> wrap64 (v + n0) = v + n0 /\ 0 <= n0).
      { intros Hf. pose proof (pend_ge f _ _ _ HPos Hf Et) as HG. cbn [pend1] in HG.
        assert (sum_for f ((f, n0) :: l) = n0 + sum_for f l) as EQ.
        { unfold sum_for, sum. cbn [map fst snd fold_right]. destruct (field_eq_dec f f); [reflexivity|congruence]. }
        rewrite EQ in *. pose proof (Hq f n0 (or_introl eq_refl) Hf) as Hn.
        assert (0 <= sum_for f l) as Hsl by (apply sum_for_nonneg; [intros g' n' Hin; apply Hq; right; exact Hin|exact Hf]).
        destruct HF as (_ & HF & _). specialize (HF f Hf). specialize (HV f Hf).
        pose proof (HRi f Hf _ _ _ _ (Nat.le_refl _) Em Em) as [P0 _]. rewrite EV in P0. split; [|exact Hn].
        apply wrap64_in. lia. }
      split; [kfld; apply Forall_upd; [assumption|apply wf_after; exact W]|].
      split; [kfld; apply Forall_upd; [assumption|eapply pos_after; exact Hq]|]. split.
      * intros g Hg. kfld. rewrite <- (HV g Hg). rewrite (pend_upd g _ t (AAdds ((f, n0) :: l))) by exact Et. rewrite pend1_after. cbn [pend1].
        destruct (field_eq_dec g f) as [->|Hne].
        -- change (kvalue (kput (written s t f k (wrap64 (v + n0)) true) t (after_adds l)) f) with (kvalue (written s t f k (wrap64 (v + n0)) true) f).
           rewrite kvalue_written by exact EK. destruct (VAL Hg) as [-> _]. unfold sum_for, sum. cbn [map fst snd fold_right].
           destruct (field_eq_dec f f); [lia|congruence].
        -- change (kvalue (kput (written s t f k (wrap64 (v + n0)) true) t (after_adds l)) g) with (f_val (last (k_msgs (written s t f k (wrap64 (v + n0)) true) g) (FMsg 0 false None))).
           rewrite written_other by exact Hne. fold (kvalue s g). unfold sum_for, sum. cbn [map fst snd fold_right].
           destruct (field_eq_dec f g); [congruence|lia].
      * intros g Hg. change (k_msgs (kput (written s t f k (wrap64 (v + n0)) true) t (after_adds l)) g) with (k_msgs (written s t f k (wrap64 (v + n0)) true) g).
        destruct (field_eq_dec g f) as [->|Hne]; [|rewrite written_other by exact Hne; apply HRi; exact Hg].
        rewrite written_end by exact EK. apply rising_snoc; [|intros Q; rewrite Q in EK; discriminate|apply HRi; exact Hg].
        intros m' Hm'. rewrite Em in Hm'. injection Hm' as <-. cbn [f_val]. destruct (VAL Hg). lia.
    + match goal with L : load_kind _ _ _ |- _ => rename L into LK end. destruct (load_kind_pend _ _ _ LK FCur v) as [_ L2].
      eapply (SAME t p (next v)); [exact Et|intros; reflexivity|reflexivity|reflexivity| |exact L2|eapply load_kind_pos; exact LK].
      intros g. apply (load_kind_pend _ _ _ LK g v).
    + (* ring start *) split; [exact HP|]. split; [exact HPos|]. split; [exact HV|exact HRi].
    + split; [exact HP|]. split; [exact HPos|]. split; [exact HV|exact HRi].
    + eapply (SAME t p (APanicked e)); [exact Et|intros; reflexivity|reflexivity|reflexivity| |exact I|exact I]. match goal with L : ring_op _ _ _ |- _ => rename L into RO end.
      intros g. rewrite (ring_op_pend _ _ _ RO). reflexivity.
    + match goal with L : ring_op _ _ _ |- _ => rename L into RO end. match goal with L : ring_ret _ _ _ _ _ |- _ => rename L into RR end.
      assert (exists p', k_threads s1 = upd t p' (k_threads s) /\ (forall g, pend1 g p' = 0) /\ wf_pc p' /\ pos_pc p' /\ k_msgs s1 = k_msgs s /\ k_started s1 = k_started s) as (p' & M1 & M2 & M3 & M4 & M5 & M6).
      { inversion RR; subst; eexists; (split; [reflexivity|split; [intros; reflexivity|split; [exact I|split; [exact I|split; reflexivity]]]]). }
      eapply (SAME t p p'); [exact Et|intros; rewrite M5; reflexivity|exact M6|exact M1| |exact M3|exact M4].
      intros g. rewrite (ring_op_pend _ _ _ RO). apply M2.
  - destruct (nth_error (k_threads s) t) as [[]|]; try discriminate. destruct (wstep b (k_ring s) (Send t)); [|discriminate].
    injection E1 as <-. split; [exact HP|]. split; [exact HPos|]. split; [exact HV|exact HRi].
  - destruct (nth_error (k_threads s) t) as [[]|]; try discriminate. destruct (nth_error (k_sent s) k); [|discriminate].
    destruct (wstep b (k_ring s) (Recv t k)); [|discriminate]. injection E1 as <-. split; [exact HP|]. split; [exact HPos|]. split; [exact HV|exact HRi].
Qed.
