(** * Relaxed memory: serial executions are sequential ones. *)
From Coq Require Import List ZArith Lia Bool Arith.
From Verif Require Import Machine Ring RingSeq RingConc Alloc AllocSpec AllocProofs AllocConc AllocConcSpec AllocConcProofs AllocConcProofs2
  RingWeak RingWeakSpec RingWeakProofs RingWeakProofs2 RingWeakProofs3
  AllocWeak AllocWeakSpec AllocWeakProofs AllocWeakProofs2 AllocWeakCalls AllocWeakMinMax AllocWeakMinMax2 AllocWeakMinMax3 AllocWeakSerial AllocWeakSerial2 AllocWeakSerial3.
Import ListNotations.
Open Scope Z_scope.

(** ** References are to existing save points *)
Definition refs_ok (s : kst) : Prop :=
  (forall u k, In k (refs (kview_of s u)) -> (k < length (k_sps s))%nat) /\
  (forall j v k, nth_error (k_sent s) j = Some v -> In k (refs v) -> (k < length (k_sps s))%nat).
Lemma refs_written s t f k v rmw u : (t < length (k_views s))%nat -> refs (kview_of (written s t f k v rmw) u) = refs (kview_of s u) \/ refs (kview_of (written s t f k v rmw) u) = refs (kview_of s t).
Proof.
  intros L. assert (B : forall l u, refs (nth u (map (bump f (S k)) l) no_view) = refs (nth u l no_view)).
  { intros l. induction l as [|x l IH]; intros [|i]; cbn [map nth]; auto. }
  unfold kview_of, written. cbn [k_views]. rewrite nth_upd. rewrite map_length, (proj2 (Nat.ltb_lt _ _)) by assumption. destruct (Nat.eqb t u); [right; reflexivity|left; apply B].
Qed.
Lemma refs_loaded s t f k u : (t < length (k_views s))%nat -> refs (kview_of (loaded s t f k) u) = refs (kview_of s u) \/ refs (kview_of (loaded s t f k) u) = refs (kview_of s t).
Proof.
  intros L. unfold kview_of, loaded, kput_view. cbn [k_views]. rewrite nth_upd, (proj2 (Nat.ltb_lt _ _)) by exact L. destruct (Nat.eqb t u); auto.
Qed.
Lemma refs_ok_step b n s a s' : KWf n s -> refs_ok s -> kstep b s a = Some s' -> refs_ok s'.
Proof.
  intros HW [R1 R2] E. unfold kstep in E. destruct (kact b s a) as [s1|] eqn:E1; [|discriminate]. injection E as <-.
  assert (SAME : forall s2, k_sps s2 = k_sps s -> (forall u, refs (kview_of s2 u) = refs (kview_of s u) \/ exists t, refs (kview_of s2 u) = refs (kview_of s t)) ->
    (forall j v, nth_error (k_sent s2) j = Some v -> exists v0, nth_error (k_sent s) j = Some v0 /\ refs v = refs v0) -> refs_ok s2).
  { intros s2 S V W. split; intros; rewrite S.
    - destruct (V u) as [Q|[t Q]]; rewrite Q in *; eauto.
    - destruct (W j v) as (v0 & A & B); [assumption|]. rewrite B in *. eauto. }
  assert (WR : forall t f k v rmw p, (t < length (k_views s))%nat -> refs_ok (kput (written s t f k v rmw) t p)).
  { intros t f k v rmw p Hv. apply SAME; [reflexivity| |].
    - intros u. destruct (refs_written s t f k v rmw u Hv) as [Q|Q]; [left; exact Q|right; exists t; exact Q].
    - intros j w. kfld. rewrite nth_error_map. destruct (nth_error (k_sent s) j) as [w0|]; [|discriminate]. intros [= <-]. exists w0. split; reflexivity. }
  assert (LD : forall t f k p, (t < length (k_views s))%nat -> refs_ok (kput (loaded s t f k) t p)).
  { intros t f k p Hv. apply SAME; [reflexivity| |eauto].
    intros u. destruct (refs_loaded s t f k u Hv) as [Q|Q]; [left; exact Q|right; exists t; exact Q]. }
  assert (NO : forall s2, k_sps s2 = k_sps s -> k_views s2 = k_views s -> k_sent s2 = k_sent s -> refs_ok s2).
  { intros s2 S V W. apply SAME; [exact S| |rewrite W; eauto]. intros u. left. unfold kview_of. rewrite V. reflexivity. }
  change (refs_ok s1). destruct a as [t op|t fails picks|t|t k]; cbn [kact] in E1.
  - destruct (nth_error (k_threads s) t) as [[]|]; try discriminate. destruct (kcan_start s t op); [|discriminate]. injection E1 as <-. apply NO; reflexivity.
  - destruct (nth_error (k_threads s) t) as [p|] eqn:Et; [|discriminate]. apply kstep_shapes in E1.
    assert (Hv : (t < length (k_views s))%nat) by (rewrite (W_lenv _ _ HW), <- (W_len _ _ HW); apply nth_error_Some; congruence).
    inversion E1; subst; try (apply WR; exact Hv); try (apply LD; exact Hv); try (apply NO; reflexivity).
    + split; kfld; rewrite app_length; cbn [length]; intros.
      * change (kview_of (kput (kput_sp s t (c, acc)) t AIdle) u) with (kview_of (kput_sp s t (c, acc)) u) in *. rewrite view_sp in * by exact Hv.
        match goal with H : In k _ |- _ => rename H into HK end. destruct (Nat.eqb t u); [|specialize (R1 _ _ HK); lia]. cbn [refs] in HK. destruct HK as [<-|HK]; [lia|specialize (R1 _ _ HK); lia].
      * match goal with H : nth_error _ j = Some v, H' : In k _ |- _ => specialize (R2 _ _ _ H H') end. lia.
    + match goal with RR : ring_ret _ _ _ _ _ |- _ => inversion RR; subst end; apply NO; reflexivity.
    + match goal with |- refs_ok (kput (kput_delta (loaded s t FCur ?i) _) t AIdle) => exact (LD t FCur i AIdle Hv) end.
  - destruct (nth_error (k_threads s) t) as [[]|]; try discriminate. destruct (wstep b (k_ring s) (Send t)) as [r|]; [|discriminate]. injection E1 as <-.
    split; [exact R1|]. kfld. intros j v k' H HK. destruct (lt_dec j (length (k_sent s))).
    + rewrite nth_error_app1 in H by assumption. eauto.
    + rewrite nth_error_app2 in H by lia. destruct (j - length (k_sent s))%nat as [|[]]; try discriminate. injection H as <-. eauto.
  - destruct (nth_error (k_threads s) t) as [[]|] eqn:Et; try discriminate. destruct (nth_error (k_sent s) k) as [v|] eqn:Ev; [|discriminate].
    destruct (wstep b (k_ring s) (Recv t k)) as [r|]; [|discriminate]. injection E1 as <-.
    assert (Hv : (t < length (k_views s))%nat) by (rewrite (W_lenv _ _ HW), <- (W_len _ _ HW); apply nth_error_Some; congruence).
    split; [|exact R2]. intros u k' HK. change (kview_of (kput_view (kput_ring s r) t (kv_join v (kview_of s t))) u) with (kview_of (kput_view s t (kv_join v (kview_of s t))) u) in HK.
    rewrite view_put in HK by exact Hv. kfld. destruct (Nat.eqb t u); [|eauto]. cbn [kv_join refs] in HK. apply in_app_or in HK. destruct HK; eauto.
Qed.
Lemma refs_ok_init sz n : refs_ok (kinit sz n).
Proof.
  split.
  - intros u k. unfold kview_of. cbn [kinit k_views]. rewrite nth_repeat. intros [].
  - intros j v k. cbn [kinit k_sent]. destruct j; discriminate.
Qed.

(** ** Sends and receives *)
(** the [k]-th message carries everything *)
Definition sent_know (s : kst) (k : nat) : Prop :=
  forall v w, nth_error (k_sent s) k = Some v -> nth_error (w_sent (k_ring s)) k = Some w ->
  (forall f, kv v f = length (k_msgs s f) - 1)%nat /\
  (length (w_pub (k_ring s)) <= Nat.max 1 (seen w Pub))%nat /\ forall i, (length (nth i (w_slots (k_ring s)) []) <= seen w (Slot i))%nat.
Definition quiet (s s' : kst) : Prop :=
  k_msgs s' = k_msgs s /\ k_threads s' = k_threads s /\ k_sps s' = k_sps s /\ k_deltas s' = k_deltas s /\
  w_res (k_ring s') = w_res (k_ring s) /\ w_pub (k_ring s') = w_pub (k_ring s) /\ w_heads (k_ring s') = w_heads (k_ring s) /\ w_slots (k_ring s') = w_slots (k_ring s) /\
  w_threads (k_ring s') = w_threads (k_ring s).
Lemma quiet_rrel s s' q : quiet s s' -> rrel (k_ring s) q -> rrel (k_ring s') q.
Proof. intros (_ & _ & _ & _ & Q1 & Q2 & _ & Q3 & _) [A B C]. constructor; rewrite ?Q1, ?Q2, ?Q3; assumption. Qed.
Lemma quiet_value s s' f : quiet s s' -> kvalue s' f = kvalue s f.
Proof. intros (Q & _). unfold kvalue. rewrite Q. reflexivity. Qed.
Lemma quiet_sps s s' a : quiet s s' -> sps_rel s a -> sps_rel s' a.
Proof. intros (_ & _ & Q1 & _ & _ & _ & Q2 & _). apply sps_same; assumption. Qed.
Lemma quiet_srel s s' a : quiet s s' -> srel s a -> srel s' a.
Proof.
  intros Q (A & B & C). split; [intros f; rewrite (quiet_value s s' f Q); apply A|]. split; [apply (quiet_rrel s); assumption|apply (quiet_sps s); assumption].
Qed.
Lemma quiet_saving b s s' t a c x : quiet s s' -> saving b s t a c x -> saving b s' t a c x.
Proof.
  intros Q (A & B & C & q' & D & E & F). split; [intros f; rewrite (quiet_value s s' f Q); apply A|]. split; [apply (quiet_sps s); assumption|].
  destruct Q as (Q1 & Q2 & Q3 & Q4 & Q5 & Q6 & Q7 & Q8 & Q9) eqn:EQ. split; [unfold ring_pc; rewrite Q9; exact C|]. exists q'. split; [exact D|]. split; [apply (quiet_rrel s); [exact Q|exact E]|].
  unfold head_at. rewrite Q7. exact F.
Qed.
Lemma quiet_asked s s' a k sp : quiet s s' -> asked s a k sp -> asked s' a k sp.
Proof. intros Q [A B]. split; [apply (quiet_srel s); assumption|exact B]. Qed.
Lemma quiet_enq s s' q x w : quiet s s' -> enq_at q x (k_ring s) w -> enq_at q x (k_ring s') w.
Proof. intros Q. destruct w; cbn [enq_at]; try tauto; intros H; repeat match goal with H : _ /\ _ |- _ => destruct H end; repeat split; try assumption; apply (quiet_rrel s); assumption. Qed.
Lemma quiet_fin s s' p x : quiet s s' -> same (fin (kvalue s) p) x -> same (fin (kvalue s') p) x.
Proof. intros Q H f. rewrite <- (H f). apply fin_same. intros g. apply quiet_value. exact Q. Qed.
Lemma quiet_prog b s s' t a op p : quiet s s' -> prog b s t a op p -> prog b s' t a op p.
Proof.
  intros Q. assert (RP : forall w, ring_pc s t w -> ring_pc s' t w) by (intros w; unfold ring_pc; destruct Q as (_ & _ & _ & _ & _ & _ & _ & _ & ->); auto).
  assert (SP : k_sps s' = k_sps s) by apply Q. assert (M : forall x, mem_is s x -> mem_is s' x) by (intros x H f; rewrite (quiet_value s s' f Q); apply H).
  assert (LO : local (kvalue s) p -> local (kvalue s') p) by (destruct p; cbn [local]; rewrite ?(quiet_value s s' _ Q); auto).
  assert (C : (exists x', after_call (st (alc a)) op = Some x' /\ same (fin (kvalue s) p) (mem_of x') /\ local (kvalue s) p /\
        rrel (k_ring s) (save_ring (alc a)) /\ sps_rel s a /\ ring_pc s t Idle) ->
      (exists x', after_call (st (alc a)) op = Some x' /\ same (fin (kvalue s') p) (mem_of x') /\ local (kvalue s') p /\
        rrel (k_ring s') (save_ring (alc a)) /\ sps_rel s' a /\ ring_pc s' t Idle)).
  { intros (x' & A & B & C & D & E & F). exists x'. split; [exact A|]. split; [apply (quiet_fin s); assumption|]. split; [exact (LO C)|].
    split; [apply (quiet_rrel s); assumption|]. split; [apply (quiet_sps s); assumption|apply RP, F]. }
  pose proof (quiet_srel s s' a Q) as SR. pose proof (quiet_sps s s' a Q) as SS. pose proof (fun c x => quiet_saving b s s' t a c x Q) as SV. pose proof (fun k sp => quiet_asked s s' a k sp Q) as AS.
  pose proof (fun q => quiet_rrel s s' q Q) as RR. pose proof (fun q x w => quiet_enq s s' q x w Q) as EN.
  destruct p; cbn [prog]; try exact C; auto.
  - intros (A & B & D). auto.
  - intros (A & B & D & E). auto.
  - intros (A & B & D & E & F & [[G H]|(w & G & H)]); repeat (split; [auto; fail|]); [left|right]; eauto.
  - intros (A & B & D & q' & E & F & [G|G]); repeat (split; [auto; fail|]); exists q'; auto.
  - intros (A & B). auto.
  - intros (A & B & D). auto.
  - intros (A & B). auto.
  - intros (A & B & D). auto.
  - intros (A & B & D). auto.
  - intros (A & sp & ksp & B & D & E). split; [exact A|]. exists sp, ksp. split; [auto|]. split; [rewrite SP; exact D|]. destruct E as [E|(w & E & F)]; [left; auto|right]. exists w. split; [auto|].
    destruct w; exact F.
  - intros (A & B & sp & s1 & s2 & D). split; [exact A|]. split; [auto|]. exists sp, s1, s2. destruct D as (D & E). split; auto.
  - intros (A & B & sp & s1 & s2 & mn0 & D). split; [exact A|]. split; [auto|]. exists sp, s1, s2, mn0. destruct D as (D & E). split; auto.
  - intros (A & B & sp & s1 & s2 & mn0 & mx0 & dn & D). split; [exact A|]. split; [auto|]. exists sp, s1, s2, mn0, mx0, dn. destruct D as (D & E). split; auto.
Qed.

Lemma quiet_know s s' u : quiet s s' -> kview_of s' u = kview_of s u -> view_of (k_ring s') u = view_of (k_ring s) u -> know s u -> know s' u.
Proof.
  intros (Q1 & _ & _ & _ & _ & Q2 & _ & Q3 & _) V1 V2 [A [B C]]. split; [intros f; unfold newest_known; rewrite V1, Q1; apply A|].
  split; rewrite V2, ?Q2, ?Q3; assumption.
Qed.
Lemma quiet_sent s s' k : quiet s s' -> nth_error (k_sent s') k = nth_error (k_sent s) k -> nth_error (w_sent (k_ring s')) k = nth_error (w_sent (k_ring s)) k -> sent_know s k -> sent_know s' k.
Proof. intros (Q1 & _ & _ & _ & _ & Q2 & _ & Q3 & _) V1 V2 H v w. rewrite V1, V2, Q1, Q2, Q3. apply H. Qed.

Lemma send_step b n s t s' : KWf n s -> kstep b s (KSend t) = Some s' ->
  quiet s s' /\ (forall u, kview_of s' u = kview_of s u /\ view_of (k_ring s') u = view_of (k_ring s) u) /\
  (forall k, (k < length (k_sent s))%nat -> sent_know s k -> sent_know s' k) /\ (know s t -> sent_know s' (length (k_sent s))).
Proof.
  intros HW E. unfold kstep in E. cbn [kact] in E. destruct (nth_error (k_threads s) t) as [[]|] eqn:Et; try discriminate.
  cbn [wstep] in E. destruct (nth_error (w_threads (k_ring s)) t) as [[]|] eqn:Er; try discriminate. injection E as <-.
  assert (Q : quiet s (ktick (KSt (k_msgs s) (WState (w_res (k_ring s)) (w_pub (k_ring s)) (w_heads (k_ring s)) (w_slots (k_ring s)) (w_threads (k_ring s)) (w_views (k_ring s))
     (w_sent (k_ring s) ++ [view_of (k_ring s) t]) (w_hist (k_ring s)) (w_lost (k_ring s)) (w_races (k_ring s)) (w_events (k_ring s))) (k_threads s) (k_views s)
     (k_sent s ++ [kview_of s t]) (k_sps s) (k_deltas s) (k_started s) (k_clock s)))) by (unfold quiet; auto 12).
  split; [exact Q|]. split; [intros u; split; reflexivity|]. split.
  - intros k L. apply quiet_sent; [exact Q| |]; kfld; cbn [w_sent]; apply nth_error_app1; rewrite ?(W_lens _ _ HW); exact L.
  - intros [A [B C]] v w. kfld. cbn [w_sent w_pub w_slots]. rewrite nth_error_app2, Nat.sub_diag by lia. rewrite nth_error_app2 by (rewrite (W_lens _ _ HW); lia). rewrite (W_lens _ _ HW), Nat.sub_diag.
    intros [= <-] [= <-]. split; [exact A|]. split; [exact B|exact C].
Qed.
Lemma recv_step b n s t k s' : KWf n s -> kstep b s (KRecv t k) = Some s' ->
  quiet s s' /\ (forall u, u <> t -> kview_of s' u = kview_of s u /\ view_of (k_ring s') u = view_of (k_ring s) u) /\
  (forall j, sent_know s j -> sent_know s' j) /\ (k < length (k_sent s))%nat /\ (know s t \/ sent_know s k -> know s' t).
Proof.
  intros HW E. unfold kstep in E. cbn [kact] in E. destruct (nth_error (k_threads s) t) as [[]|] eqn:Et; try discriminate.
  destruct (nth_error (k_sent s) k) as [v|] eqn:Ev; [|discriminate].
  cbn [wstep] in E. destruct (nth_error (w_threads (k_ring s)) t) as [[]|] eqn:Er; try discriminate.
  destruct (nth_error (w_sent (k_ring s)) k) as [w|] eqn:Ew; [|discriminate]. injection E as <-.
  assert (Ht : (t < n)%nat) by (rewrite <- (W_len _ _ HW); apply nth_error_Some; congruence).
  assert (Hv : (t < length (k_views s))%nat) by (rewrite (W_lenv _ _ HW); exact Ht).
  assert (Hr : (t < length (w_views (k_ring s)))%nat) by (rewrite (W_lenrv _ _ HW); exact Ht).
  assert (Q : quiet s (ktick (kput_view (kput_ring s (goto (k_ring s) t Idle (w ++ view_of (k_ring s) t))) t (kv_join v (kview_of s t))))).
  { unfold quiet. kfld. cbn [goto w_res w_pub w_heads w_slots w_threads]. repeat (split; [reflexivity|]). symmetry. apply upd_self. exact Er. }
  split; [exact Q|]. split.
  { intros u N. split.
    - change (kview_of (kput_view s t (kv_join v (kview_of s t))) u = kview_of s u). rewrite view_put by exact Hv. rewrite (proj2 (Nat.eqb_neq _ _)) by congruence. reflexivity.
    - kfld. unfold view_of at 1. cbn [goto w_views]. rewrite view_upd, (proj2 (Nat.eqb_neq _ _)) by congruence. reflexivity. }
  split; [intros j; apply quiet_sent; [exact Q|reflexivity|reflexivity]|]. split; [apply nth_error_Some; congruence|]. intros KN.
  split.
  - intros f. unfold newest_known. change (kview_of (ktick ?x) t) with (kview_of x t).
    change (kview_of (kput_view (kput_ring s (goto (k_ring s) t Idle (w ++ view_of (k_ring s) t))) t (kv_join v (kview_of s t))) t) with (kview_of (kput_view s t (kv_join v (kview_of s t))) t).
    rewrite view_put, Nat.eqb_refl by exact Hv. kfld. cbn [kv_join kv]. pose proof (W_views _ _ HW t f Ht). pose proof (W_sent _ _ HW k v f Ev).
    destruct KN as [[A _]|A]; [specialize (A f); unfold newest_known in A; lia|]. destruct (A v w Ev Ew) as (B & _). specialize (B f). lia.
  - kfld. unfold rknow. rewrite goto_view by exact Hr. cbn [goto w_pub w_slots].
    destruct KN as [[_ [A B]]|A]; [|destruct (A v w Ev Ew) as (_ & A1 & B)]; (split; [rewrite seen_app; lia|intros i; specialize (B i); rewrite seen_app; lia]).
Qed.
