(** * Relaxed memory: contents of the slots, and what returns tell (C80, C82). *)
From Coq Require Import List ZArith Lia Bool Arith Permutation.
From Coq Require Import ZifyBool ZifyNat ZifyN.
From Verif Require Import Machine Ring RingSpec RingSeq RingConc RingConc2 RingConc3 RingWeak RingWeakSpec
  RingWeakProofs RingWeakProofs2 RingWeakProofs3.
Import ListNotations.
Open Scope Z_scope.

Section Weak4.
Context {A : Type}.
Variable bld : build.
Notation wstate := (wstate A).
Notation waction := (waction A).
Notation cstate := (cstate A).
Notation pc := (pc A).

(** ** Which step makes a method return *)
Lemma event_step (s : wstate) a s' e : wstep bld s a = Some s' -> w_events s' = w_events s ++ [e] ->
  match e with
  | EvEnqueued rt x => exists t f picks m nxt, a = WStep t f picks /\ nth_error (w_threads s) t = Some (EnqPublish rt x) /\
      newest (w_pub s) = Some m /\ m_val m = rt /\
      w_views s' = upd t ((Pub, S (length (w_pub s))) :: view_of s t) (w_views s) /\ u32_add bld rt 1 = Val nxt
  | EvNothing c => exists t f k h m, a = WStep t f [k] /\ nth_error (w_threads s) t = Some (DeqLoadTail c h) /\
      read_at (w_pub s) (seen (view_of s t) Pub) k = Some m /\ h = m_val m
  | EvElement c h o => exists t f k j m d, a = WStep t f [k; j] /\ nth_error (w_threads s) t = Some (DeqCheck c h) /\
      read_at (w_res s) (seen (view_of s t) Res) k = Some m /\ u32_sub bld (m_val m) h = Val d /\ d <= wrap32 (wsize s) /\
      read_slot s (view_of s t) (slot_of s h) j = Some o /\
      w_races s' = w_races s ++ map (fun i => (t, i)) (unknown s (view_of s t) [slot_of s h])
  | EvOverflow c h => exists t f k j m d, a = WStep t f [k; j] /\ nth_error (w_threads s) t = Some (DeqCheck c h) /\
      read_at (w_res s) (seen (view_of s t) Res) k = Some m /\ u32_sub bld (m_val m) h = Val d /\ wrap32 (wsize s) < d
  | _ => True
  end.
Proof.
  intros E Ev.
  assert (NO : forall e', w_events s ++ [e'] = w_events s ++ [e] -> e' = e).
  { intros e' H. apply app_inv_head in H. congruence. }
  assert (N0 : w_events s = w_events s ++ [e] -> False).
  { intros H. apply (f_equal (@length _)) in H. rewrite app_length in H. cbn in H. lia. }
  destruct a as [t op|t fails picks|t|t k]; cbn [wstep] in E.
  1,3,4: split_step E; injection E as <-; exfalso; exact (N0 Ev).
  destruct (nth_error (w_threads s) t) as [p|] eqn:Ht; try discriminate.
  destruct p as [|x|rt x|rt x|c|c h|c h|c h|c|c h| |q]; cbn [wthread_step] in E; try discriminate;
    split_step E; injection E as <-; cbn [race wlog lose goto w_events] in Ev;
    try (exfalso; exact (N0 Ev)); apply NO in Ev; subst e; try exact I.
  - (* enqueued *)
    exists t, fails, picks, m, a. cbn [race wlog lose goto w_views].
    apply andb_true_iff in Q1. destruct Q1 as [_ Q1]. apply Z.eqb_eq in Q1. repeat split; auto.
  - exists t, fails, n, h, m. apply Z.eqb_eq in Q3. repeat split; auto.
  - exists t, fails, n, n0, m, a. destruct (Z.gtb_spec a (wrap32 (wsize s))); [|discriminate]. repeat split; auto.
  - exists t, fails, n, n0, m, a. destruct (Z.gtb_spec a (wrap32 (wsize s))); [discriminate|]. repeat split; auto.
  - unfold peek_event in Q3. destruct (peek_all _ _ _) as [[[]|]| |]; cbn [bind] in Q3; try discriminate; injection Q3 as <-; exact I.
Qed.

(** which step loses a position *)
Lemma lost_step (s : wstate) a s' c h : wstep bld s a = Some s' -> w_lost s' = w_lost s ++ [(c, h)] ->
  exists t f k j m q, a = WStep t f [k; j] /\ nth_error (w_threads s) t = Some (DeqCheck c h) /\
      read_at (w_res s) (seen (view_of s t) Res) k = Some m /\ u32_sub bld (m_val m) h = Panic q.
Proof.
  intros E Ev.
  assert (N0 : w_lost s = w_lost s ++ [(c, h)] -> False).
  { intros H. apply (f_equal (@length _)) in H. rewrite app_length in H. cbn in H. lia. }
  destruct a as [t op|t fails picks|t|t k]; cbn [wstep] in E.
  1,3,4: split_step E; injection E as <-; exfalso; exact (N0 Ev).
  destruct (nth_error (w_threads s) t) as [p|] eqn:Ht; try discriminate.
  destruct p as [|x|rt x|rt x|c0|c0 h0|c0 h0|c0 h0|c0|c0 h0| |q]; cbn [wthread_step] in E; try discriminate;
    split_step E; injection E as <-; cbn [race wlog lose goto w_lost] in Ev;
    try (exfalso; exact (N0 Ev)).
  apply app_inv_head in Ev. injection Ev as -> ->.
  exists t, fails, n, n0, m, p. repeat split; auto.
Qed.

(** which step panics *)
Lemma panic_step sz (s : wstate) t p f picks s' q : (1 <= sz)%nat -> Z.of_nat sz < two32 -> Wok sz s -> Z.of_nat (length (w_hist s)) < two32 ->
  nth_error (w_threads s) t = Some p -> wstep bld s (WStep t f picks) = Some s' -> nth_error (w_threads s') t = Some (Panicked q) ->
  bld = Debug /\ enqueuing p = false /\ p <> ConsLoad.
Proof.
  intros HS HSB (HK & cs & HI & HR) HB Ht E Hq.
  assert (DB : forall m z q, checked bld m z = Panic q -> bld = Debug).
  { intros m z q0 H. unfold checked in H. destruct (_ && _); [discriminate|]. destruct bld; [reflexivity|discriminate]. }
  pose proof (I_pub sz cs HI) as HP. pose proof (I_res sz cs HI) as HRs. pose proof (I_bound sz cs HI) as HBd.
  assert (LT : (t < length (w_threads s))%nat) by (apply nth_error_Some; congruence).
  cbn [wstep] in E. rewrite Ht in E.
  destruct (panicked p) eqn:Np; [destruct p; try discriminate|].
  pose proof (R_thread sz s cs t p HR Ht Np) as Ht'. pose proof (I_pcs sz cs HI t p Ht') as Hp.
  destruct p as [|x|rt x|rt x|c|c h|c h|c h|c|c h| |q']; cbn [wthread_step] in E; try discriminate;
    try (split_step E; injection E as <-; cbn [race wlog lose goto w_threads] in Hq;
         rewrite nth_error_upd_eq in Hq by exact LT; discriminate).
  - (* publish *)
    exfalso. assert (IN : In rt (inflights cs)) by (eapply in_inflights; [exact Ht'|left; reflexivity]).
    pose proof (inflight_range sz cs rt HI IN) as RR.
    assert (AD : u32_add bld rt 1 = Val (rt + 1)) by (apply checked_in; rewrite two32_val in *; lia).
    rewrite AD in E. split_step E; injection E as <-; cbn [race wlog lose goto w_threads] in Hq;
         rewrite nth_error_upd_eq in Hq by exact LT; try discriminate.
    match goal with Q : read_at _ _ _ = Some _ |- _ => destruct (read_val _ _ _ _ _ _ (R_pub sz s cs HR) Q) as (V1 & V2 & _) end.
    lia.
  - split_step E; injection E as <-; cbn [race wlog lose goto w_threads] in Hq;
         rewrite nth_error_upd_eq in Hq by exact LT; try discriminate.
    split; [eapply DB; eassumption|]. split; [reflexivity|discriminate].
  - split_step E; injection E as <-; cbn [race wlog lose goto w_threads] in Hq;
         rewrite nth_error_upd_eq in Hq by exact LT; try discriminate.
    split; [eapply DB; eassumption|]. split; [reflexivity|discriminate].
  - split_step E; injection E as <-; cbn [race wlog lose goto w_threads] in Hq;
         rewrite nth_error_upd_eq in Hq by exact LT; try discriminate.
    split; [|split; [reflexivity|discriminate]].
    match goal with Q : peek_event _ _ _ _ = Panic _ |- _ => rename Q into QP end.
    match goal with Q : read_slots _ _ _ _ = Some _ |- _ => destruct (read_slots_len _ _ _ _ _ Q) as [L1 L2] end.
    rewrite (R_slots sz s cs HR) in L2.
    match type of QP with peek_event _ ?r _ _ = _ => pose proof (peek_event_any bld r c h) as PE end.
    cbn [slots] in PE. specialize (PE ltac:(lia)). rewrite QP in PE. apply PE.
Qed.
End Weak4.
