(** * Relaxed memory: serial executions are sequential ones.  The path. *)
From Coq Require Import List ZArith Lia Bool Arith.
From Verif Require Import Machine Ring RingSeq RingConc Alloc AllocSpec AllocProofs AllocConc AllocConcSpec AllocConcProofs AllocConcProofs2
  RingWeak RingWeakSpec RingWeakProofs RingWeakProofs2 RingWeakProofs3
  AllocWeak AllocWeakSpec AllocWeakProofs AllocWeakProofs2 AllocWeakCalls AllocWeakMinMax AllocWeakMinMax2 AllocWeakMinMax3
  AllocWeakSerial AllocWeakSerial2 AllocWeakSerial3 AllocWeakSerial4.
Import ListNotations.
Open Scope Z_scope.

Lemma answers_snoc ops : forall outs op o, length outs = length ops -> answers (ops ++ [op]) (outs ++ [o]) = answers ops outs ++ ans op o.
Proof.
  induction ops as [|x ops IH]; intros [|y outs] op o L; try discriminate; cbn [app answers]; [rewrite app_nil_r; reflexivity|].
  rewrite IH by (cbn in L; lia). rewrite app_assoc. reflexivity.
Qed.
Lemma arun_len b ops : forall a a' outs, arun b a ops = Val (a', outs) -> length outs = length ops.
Proof.
  induction ops as [|op ops IH]; intros a a' outs; cbn [arun]; [intros [= <- <-]; reflexivity|].
  destruct (astep b a op) as [[a1 o]| |]; cbn [bind fst snd]; try discriminate. destruct (arun b a1 ops) as [[a2 os]| |] eqn:E; cbn [bind fst snd]; try discriminate.
  intros [= <- <-]. cbn [length]. f_equal. eapply IH. exact E.
Qed.
Lemma arun_snoc b ops op a a1 outs a2 o : arun b a ops = Val (a1, outs) -> astep b a1 op = Val (a2, o) -> arun b a (ops ++ [op]) = Val (a2, outs ++ [o]).
Proof. intros E S. rewrite arun_app, E. cbn [bind fst snd arun]. rewrite S. reflexivity. Qed.

Lemma srel_init sz n : srel (kinit sz n) (ainit sz).
Proof.
  split; [intros f; destruct f; reflexivity|]. split; [|constructor]. constructor.
  - exists (Msg 0 []). split; reflexivity.
  - exists (Msg 0 []). split; reflexivity.
  - cbn [kinit k_ring winit w_slots ainit alc alloc_new save_ring ring_new slots]. induction sz as [|sz IH]; [reflexivity|]. cbn [repeat map]. f_equal. exact IH.
Qed.
Lemma know_init sz n u : know (kinit sz n) u.
Proof.
  split; [intros f; unfold newest_known, kview_of; cbn [kinit k_views k_msgs length]; rewrite nth_repeat; reflexivity|]. split.
  - cbn [kinit k_ring winit w_pub length]. lia.
  - intros i. cbn [kinit k_ring winit w_slots]. rewrite nth_repeat. cbn [length]. lia.
Qed.

Section Path.
Variables (b : build) (sz n : nat) (sched : list kaction).
Hypothesis SER : serial b sz n sched.
Notation kat := (kat b sz n sched).
Notation kpc := (kpc b sz n sched).
Notation call_over := (call_over b sz n sched).

(** the last step before [j] of a happens-before path to it *)
Lemma khb_last i j : khb sched i j -> exists m, (m = i \/ khb sched i m) /\ (m < j)%nat /\
  ((exists a a', nth_error sched m = Some a /\ nth_error sched j = Some a' /\ kactor a = kactor a') \/
   (exists t u, nth_error sched m = Some (KSend t) /\ nth_error sched j = Some (KRecv u (length (filter kis_send (firstn m sched)))))).
Proof.
  induction 1 as [i j a a' L Ha Ha' A|i j t u Hi Hj L|i j k H1 IH1 H2 IH2].
  - exists i. split; [left; reflexivity|]. split; [exact L|]. left. eauto.
  - exists i. split; [left; reflexivity|]. split; [exact L|]. right. eauto.
  - destruct IH2 as (m & M1 & M2 & M3). exists m. split; [right; destruct M1 as [->|M1]; [exact H1|eapply khb_trans; eassumption]|]. split; [exact M2|exact M3].
Qed.
Lemma call_over_unique i e e' : call_over i e -> call_over i e' -> e = e'.
Proof.
  intros (t & op & f & p & H1 & H2 & H3 & H4 & H5) (t' & op' & f' & p' & H1' & H2' & H3' & H4' & H5'). rewrite H1 in H1'. injection H1' as <- <-.
  destruct (lt_eq_lt_dec e e') as [[L| ->]|L]; [|reflexivity|].
  - elim (H5' (S e)); [lia|exact H4].
  - elim (H5 (S e')); [lia|exact H4'].
Qed.

(** thread [u], or the [k]-th message, comes after the end [e] of the last call *)
Definition aware (e : option nat) (j u : nat) : Prop :=
  match e with None => True | Some e => exists m act, (m < j)%nat /\ nth_error sched m = Some act /\ kactor act = u /\ (m = e \/ khb sched e m) end.
Definition aware_msg (e : option nat) (j k : nat) : Prop :=
  match e with None => True | Some e => exists m u, (m < j)%nat /\ nth_error sched m = Some (KSend u) /\ k = length (filter kis_send (firstn m sched)) /\ khb sched e m end.
Definition last_end (e : option nat) (j : nat) : Prop :=
  match e with
  | None => forall m t op, (m < j)%nat -> nth_error sched m <> Some (KStart t op)
  | Some e => (e < j)%nat /\ exists i, call_over i e /\ forall m t op, (i < m < j)%nat -> nth_error sched m <> Some (KStart t op)
  end.
Definition resting (j : nat) (s : kst) : Prop := exists a outs e,
  arun b (ainit sz) (kcalls (firstn j sched)) = Val (a, outs) /\ k_deltas s = answers (kcalls (firstn j sched)) outs /\ srel s a /\
  (forall u p, nth_error (k_threads s) u = Some p -> p = AIdle) /\ (forall u p, nth_error (w_threads (k_ring s)) u = Some p -> p = Idle) /\
  last_end e j /\ (forall u, (u < n)%nat -> aware e j u -> know s u) /\ (forall k, aware_msg e j k -> sent_know s k).
Definition calling (j : nat) (s : kst) : Prop := exists a outs ops i t op p,
  nth_error sched i = Some (KStart t op) /\ (i < j)%nat /\ (forall m u op', (i < m < j)%nat -> nth_error sched m <> Some (KStart u op')) /\
  kcalls (firstn j sched) = ops ++ [op] /\ arun b (ainit sz) ops = Val (a, outs) /\ k_deltas s = answers ops outs /\
  nth_error (k_threads s) t = Some p /\ (forall m, (i < m <= j)%nat -> kpc m t <> Some AIdle) /\ prog b s t a op p /\ know s t /\
  (forall u p, u <> t -> nth_error (k_threads s) u = Some p -> p = AIdle) /\ (forall u p, u <> t -> nth_error (w_threads (k_ring s)) u = Some p -> p = Idle).

Lemma kat_pc' i s t : kat i = Some s -> kpc i t = nth_error (k_threads s) t.
Proof. unfold AllocWeakProofs2.kat, AllocWeakSpec.kpc. intros ->. reflexivity. Qed.
Lemma kcalls_S j x : nth_error sched j = Some x -> kcalls (firstn (S j) sched) = kcalls (firstn j sched) ++ match x with KStart _ op => [op] | _ => [] end.
Proof. intros H. rewrite (firstn_S _ _ _ H), kcalls_app. f_equal. unfold kcalls. cbn [flat_map]. apply app_nil_r. Qed.

(** at the beginning of a call *)
Lemma prog_start s t a op s' : kstep b s (KStart t op) = Some s' -> srel s a -> refs_ok s -> ring_pc s t Idle -> (t < length (k_threads s))%nat ->
  prog b s' t a op (first_apc op) /\ nth_error (k_threads s') t = Some (first_apc op).
Proof.
  intros E SR RO RI Lt. unfold kstep in E. cbn [kact] in E. destruct (nth_error (k_threads s) t) as [[]|] eqn:Et; try discriminate.
  destruct (kcan_start s t op) eqn:Ec; [|discriminate]. injection E as <-. split; [|kfld; rewrite nth_error_upd, Nat.eqb_refl, (proj2 (Nat.ltb_lt _ _)) by exact Lt; reflexivity].
  assert (SR' : srel (ktick (kput (kput_started s op) t (first_apc op))) a) by (apply (srel_same s); try reflexivity; exact SR).
  assert (C : forall x', after_call (st (alc a)) op = Some x' -> exists x', after_call (st (alc a)) op = Some x' /\
    same (fin (kvalue (ktick (kput (kput_started s op) t (first_apc op)))) (first_apc op)) (mem_of x') /\ local (kvalue (ktick (kput (kput_started s op) t (first_apc op)))) (first_apc op) /\
    rrel (k_ring s) (save_ring (alc a)) /\ sps_rel (ktick (kput (kput_started s op) t (first_apc op))) a /\ ring_pc s t Idle).
  { intros x' A. exists x'. split; [exact A|]. split; [|split; [|split; [apply SR|split; [apply SR'|exact RI]]]].
    - intros f. rewrite <- (fin_first _ _ _ A f). apply fin_same. intros g. apply SR.
    - destruct op as [m ok|m|m ok|o m ok| |k]; cbn [first_apc adds_of after_adds local]; exact I. }
  destruct op as [m ok|m|m ok|o m ok| |k]; try (exact (C _ eq_refl)).
  - cbn [prog first_apc]. auto.
  - cbn [prog first_apc]. split; [reflexivity|]. cbn [kcan_start] in Ec. destruct (in_dec Nat.eq_dec k (refs (kview_of s t))) as [HK|]; [|discriminate].
    apply RO in HK. destruct (nth_error (k_sps s) k) as [ksp|] eqn:Es; [|apply nth_error_None in Es; lia].
    destruct SR as (A & B & D). destruct (Forall2_nth' _ _ _ _ _ D Es) as (sp & E & _). exists sp, ksp. split; [split; [exact SR'|exact E]|]. split; [exact Es|left; exact RI].
Qed.

Lemma start_know j t op e : nth_error sched j = Some (KStart t op) -> last_end e j -> aware e j t.
Proof.
  intros Hj LE. destruct e as [e|]; [|exact I]. destruct LE as (L & i & CO & _). cbn [aware].
  pose proof CO as CO'. destruct CO' as (t' & op' & f & p & Hi & _ & Li & _). destruct (SER i j t' t op' op ltac:(lia) Hi Hj) as (e' & CO' & HB).
  rewrite <- (call_over_unique _ _ _ CO CO') in HB. destruct (khb_last _ _ HB) as (m & M1 & M2 & [(x & x' & X1 & X2 & X3)|(y & u & Y1 & Y2)]); [|congruence].
  rewrite Hj in X2. injection X2 as <-. exists m, x. split; [exact M2|]. split; [exact X1|]. split; [exact X3|exact M1].
Qed.

Lemma serial_inv j s : (j <= length sched)%nat -> kat j = Some s -> refs_ok s /\ (resting j s \/ calling j s).
Proof.
  revert s. induction j as [|j IH]; intros s Lj Hs.
  { unfold AllocWeakProofs2.kat in Hs. cbn [firstn krun] in Hs. injection Hs as <-. split; [apply refs_ok_init|]. left. exists (ainit sz), [], None.
    split; [reflexivity|]. split; [reflexivity|]. split; [apply srel_init|]. split; [intros u p H; apply nth_error_In, repeat_spec in H; exact H|].
    split; [intros u p H; apply nth_error_In, repeat_spec in H; exact H|]. split; [intros m t op H; lia|]. split; [intros; apply know_init|].
    intros k _ v w H. destruct k; discriminate. }
  destruct (kat_prev _ _ _ _ _ _ Hs) as (s0 & H0). specialize (IH s0 ltac:(lia) H0). destruct IH as [RO IH].
  destruct (nth_error sched j) as [x|] eqn:Hx; [|apply nth_error_None in Hx; lia].
  pose proof (kat_S _ _ _ _ _ _ _ _ Hx H0 Hs) as E. pose proof (kat_wf _ _ _ _ _ _ H0) as HW.
  split; [eapply refs_ok_step; eassumption|]. pose proof (kcalls_S j x Hx) as KC. pose proof (ksent_count _ _ _ _ _ _ H0) as SC.
  destruct IH as [(a & outs & e & A1 & A2 & A3 & A4 & A5 & A6 & A7 & A8)|(a & outs & ops & i & t & op & p & B1 & B2 & B3 & B4 & B5 & B6 & B7 & B8 & B9 & B10 & B11 & B12)].
  - (* between calls *)
    assert (LE : forall e', e = Some e' -> (e' < j)%nat) by (intros e' ->; apply A6).
    assert (PO : forall t, kactor x = t -> (exists m, (m = j \/ False) /\ match e with None => True | Some e' => khb sched e' m end) -> kis_recv x = false -> aware e j t).
    { intros t Hk (m & [->|[]] & HB) NR. destruct e as [e|]; [|exact I]. destruct (khb_last _ _ HB) as (m & M1 & M2 & [(y & y' & X1 & X2 & X3)|(y & u & Y1 & Y2)]).
      - rewrite Hx in X2. injection X2 as <-. exists m, y. split; [exact M2|]. split; [exact X1|]. split; [congruence|exact M1].
      - rewrite Hx in Y2. injection Y2 as ->. discriminate. }
    destruct x as [t op|t fails picks|t|t k].
    + (* a call begins *)
      assert (Lt : (t < length (k_threads s0))%nat).
      { unfold kstep in E. cbn [kact] in E. destruct (nth_error (k_threads s0) t) eqn:Et; [apply nth_error_Some; congruence|discriminate]. }
      assert (RI : ring_pc s0 t Idle).
      { unfold ring_pc. destruct (nth_error (w_threads (k_ring s0)) t) as [w|] eqn:Ew; [rewrite (A5 _ _ Ew); reflexivity|]. apply nth_error_None in Ew.
        rewrite (W_lenr _ _ HW), <- (W_len _ _ HW) in Ew. lia. }
      destruct (prog_start s0 t a op s E A3 RO RI Lt) as [PR PT].
      right. exists a, outs, (kcalls (firstn j sched)), j, t, op, (first_apc op). split; [exact Hx|]. split; [lia|]. split; [intros m u op' Hm; lia|].
      split; [exact KC|]. split; [exact A1|].
      assert (KN : know s0 t) by (apply A7; [rewrite <- (W_len _ _ HW); exact Lt|apply (start_know j t op e Hx A6)]).
      unfold kstep in E. cbn [kact] in E. destruct (nth_error (k_threads s0) t) as [[]|] eqn:Et; try discriminate. destruct (kcan_start s0 t op); [|discriminate]. injection E as <-.
      split; [exact A2|]. split; [exact PT|]. split.
      { intros m Hm. replace m with (S j) by lia. rewrite (kat_pc' _ _ _ Hs), PT. destruct op as [m0 ok|m0|m0 ok|o m0 ok| |k]; cbn [first_apc adds_of after_adds]; discriminate. }
      split; [exact PR|]. split; [exact KN|]. split; [|intros u p _; apply A5].
      intros u p N. kfld. rewrite nth_error_upd, (proj2 (Nat.eqb_neq _ _)) by congruence. apply A4.
    + exfalso. unfold kstep in E. cbn [kact] in E. destruct (nth_error (k_threads s0) t) as [p|] eqn:Et; [|discriminate]. rewrite (A4 _ _ Et) in E. discriminate.
    + (* send *)
      destruct (send_step b n s0 t s HW E) as (Q & V & SK & SN). rewrite app_nil_r in KC.
      assert (Ht : (t < n)%nat). { unfold kstep in E. cbn [kact] in E. rewrite <- (W_len _ _ HW). apply nth_error_Some. intros NN. rewrite NN in E. discriminate. }
      left. exists a, outs, e. rewrite KC. split; [exact A1|]. split; [destruct Q as (_ & _ & _ & -> & _); exact A2|]. split; [apply (quiet_srel s0); assumption|].
      split; [destruct Q as (_ & -> & _); exact A4|]. split; [destruct Q as (_ & _ & _ & _ & _ & _ & _ & _ & ->); exact A5|].
      split; [|split].
      * destruct e as [e|]; cbn [last_end] in *.
        -- destruct A6 as (L & i & CO & N). split; [lia|]. exists i. split; [exact CO|]. intros m u op Hm. destruct (Nat.eq_dec m j) as [->|]; [rewrite Hx; discriminate|apply N; lia].
        -- intros m u op Hm. destruct (Nat.eq_dec m j) as [->|]; [rewrite Hx; discriminate|apply A6; lia].
      * intros u Hu AW. apply (quiet_know s0 s u Q); [apply V|apply V|]. apply A7; [exact Hu|]. destruct e as [e|]; [|exact I]. destruct AW as (m & act & M1 & M2 & M3 & M4).
        destruct (Nat.eq_dec m j) as [->|]; [|exists m, act; split; [lia|auto]]. rewrite Hx in M2. injection M2 as <-. cbn [kactor] in M3. subst u.
        apply PO; [reflexivity| |reflexivity]. exists j. split; [auto|]. destruct M4 as [->|M4]; [|exact M4]. specialize (LE e eq_refl). lia.
      * intros k AW. destruct (lt_eq_lt_dec k (length (k_sent s0))) as [[L|EQ]|G].
        -- apply (SK k L). apply A8. destruct e as [e|]; [|exact I]. destruct AW as (m & u & M1 & M2 & M3 & M4). exists m, u. split; [|auto].
           destruct (Nat.eq_dec m j) as [->|]; [|lia]. rewrite M3, SC in L. lia.
        -- subst k. apply SN. apply A7; [exact Ht|]. destruct e as [e|]; [|exact I]. destruct AW as (m & u & M1 & M2 & M3 & M4).
           assert (m = j) as ->.
           { destruct (Nat.eq_dec m j) as [|NE]; [assumption|]. exfalso. rewrite SC in M3.
             assert (LT : (length (filter kis_send (firstn m sched)) < length (filter kis_send (firstn j sched)))%nat); [|lia].
             replace (firstn j sched) with (firstn (S m) sched ++ firstn (j - S m) (skipn (S m) sched)).
             - rewrite filter_app, app_length, (firstn_S _ _ _ M2), filter_app, app_length. cbn [filter kis_send length]. lia.
             - rewrite <- (firstn_skipn (S m) (firstn j sched)), firstn_firstn. f_equal; [f_equal; lia|]. rewrite skipn_firstn_comm. reflexivity. }
           apply PO; [reflexivity|exists j; auto|reflexivity].
        -- intros v w Hv. exfalso. pose proof (ksent_count _ _ _ _ _ _ Hs) as SC'. rewrite (firstn_S _ _ _ Hx), filter_app, app_length, <- SC in SC'. cbn [filter kis_send length] in SC'.
           assert (k < length (k_sent s))%nat by (apply nth_error_Some; congruence). lia.
    + (* receive *)
      destruct (recv_step b n s0 t k s HW E) as (Q & V & SK & LK & KN). rewrite app_nil_r in KC.
      assert (Ht : (t < n)%nat). { unfold kstep in E. cbn [kact] in E. rewrite <- (W_len _ _ HW). apply nth_error_Some. intros NN. rewrite NN in E. discriminate. }
      left. exists a, outs, e. rewrite KC. split; [exact A1|]. split; [destruct Q as (_ & _ & _ & -> & _); exact A2|]. split; [apply (quiet_srel s0); assumption|].
      split; [destruct Q as (_ & -> & _); exact A4|]. split; [destruct Q as (_ & _ & _ & _ & _ & _ & _ & _ & ->); exact A5|].
      split; [|split].
      * destruct e as [e|]; cbn [last_end] in *.
        -- destruct A6 as (L & i & CO & N). split; [lia|]. exists i. split; [exact CO|]. intros m u op Hm. destruct (Nat.eq_dec m j) as [->|]; [rewrite Hx; discriminate|apply N; lia].
        -- intros m u op Hm. destruct (Nat.eq_dec m j) as [->|]; [rewrite Hx; discriminate|apply A6; lia].
      * intros u Hu AW. destruct (Nat.eq_dec u t) as [->|NU].
        2:{ apply (quiet_know s0 s u Q); [apply V; exact NU|apply V; exact NU|]. apply A7; [exact Hu|]. destruct e as [e|]; [|exact I]. destruct AW as (m & act & M1 & M2 & M3 & M4).
            exists m, act. split; [|auto]. destruct (Nat.eq_dec m j) as [->|]; [|lia]. rewrite Hx in M2. injection M2 as <-. cbn [kactor] in M3. congruence. }
        apply KN. destruct e as [e|]; [|left; apply A7; [exact Hu|exact I]]. destruct AW as (m & act & M1 & M2 & M3 & M4).
        destruct (Nat.eq_dec m j) as [->|]; [|left; apply A7; [exact Hu|]; exists m, act; split; [lia|auto]].
        destruct M4 as [->|M4]; [specialize (LE e eq_refl); lia|].
        destruct (khb_last _ _ M4) as (m' & M1' & M2' & [(y & y' & X1 & X2 & X3)|(y & u & Y1 & Y2)]).
        -- left. apply A7; [exact Hu|]. rewrite Hx in X2. injection X2 as <-. exists m', y. split; [exact M2'|]. split; [exact X1|]. split; [exact X3|exact M1'].
        -- right. apply A8. rewrite Hx in Y2. injection Y2 as _ ->. exists m', y. split; [exact M2'|]. split; [exact Y1|]. split; [reflexivity|].
           destruct M1' as [->|]; [|assumption]. exfalso. destruct A6 as (_ & i & (? & ? & ? & ? & _ & He & _) & _). congruence.
      * intros k' AW. apply SK. apply A8. destruct e as [e|]; [|exact I]. destruct AW as (m & u & M1 & M2 & M3 & M4). exists m, u. split; [|auto].
        destruct (Nat.eq_dec m j) as [->|]; [congruence|lia].
  - (* during a call *)
    assert (Ht : (t < n)%nat) by (rewrite <- (W_len _ _ HW); apply nth_error_Some; congruence).
    assert (NI : nth_error (k_threads s0) t <> Some AIdle) by (rewrite B7; intros [= ->]; exact B9).
    assert (SYNC : quiet s0 s -> kview_of s t = kview_of s0 t -> view_of (k_ring s) t = view_of (k_ring s0) t -> is_sync x -> calling (S j) s).
    { intros Q V1 V2 SY. exists a, outs, ops, i, t, op, p. split; [exact B1|]. split; [lia|]. split.
      { intros m u op' Hm. destruct (Nat.eq_dec m j) as [->|]; [|apply B3; lia]. rewrite Hx. destruct x; try (destruct SY; fail); discriminate. }
      split; [rewrite KC; destruct x; try (destruct SY; fail); rewrite app_nil_r; exact B4|]. split; [exact B5|]. split; [destruct Q as (_ & _ & _ & -> & _); exact B6|].
      split; [destruct Q as (_ & -> & _); exact B7|]. split.
      { intros m Hm. destruct (Nat.eq_dec m (S j)) as [->|]; [|apply B8; lia]. rewrite (kat_pc' _ _ _ Hs). destruct Q as (_ & -> & _). exact NI. }
      split; [apply (quiet_prog b s0); assumption|]. split; [apply (quiet_know s0); assumption|].
      split; [destruct Q as (_ & -> & _); exact B11|destruct Q as (_ & _ & _ & _ & _ & _ & _ & _ & ->); exact B12]. }
    destruct x as [u op'|u fails picks|u|u k].
    + exfalso. destruct (SER i j t u op op' B2 B1 Hx) as (e & (t' & op2 & f & pk & C1 & C2 & C3 & C4 & C5) & HB). apply khb_lt in HB. rewrite B1 in C1. injection C1 as <- <-.
      apply (B8 (S e)); [lia|exact C4].
    + destruct (Nat.eq_dec u t) as [->|NU].
      2:{ exfalso. unfold kstep in E. cbn [kact] in E. destruct (nth_error (k_threads s0) u) as [q|] eqn:Eu; [|discriminate]. rewrite (B11 _ _ NU Eu) in E. discriminate. }
      rewrite app_nil_r in KC. unfold kstep in E. cbn [kact] in E. rewrite B7 in E. destruct (kthread_step b s0 t p fails picks) as [s1|] eqn:E1; [|discriminate]. injection E as <-.
      assert (OT : forall u, u <> t -> nth_error (k_threads s1) u = nth_error (k_threads s0) u).
      { intros u N. apply (step_other b n s0 (KStep t fails picks) (ktick s1) u HW); [unfold kstep; cbn [kact]; rewrite B7, E1; reflexivity|cbn [kactor]; congruence]. }
      apply kstep_shapes in E1. destruct (prog_step b n s0 t a op HW Ht B10 p s1 B7 E1 B9) as (KN & (w & RW) & p' & Et' & RES).
      assert (OW : forall u, u <> t -> nth_error (w_threads (k_ring s1)) u = nth_error (w_threads (k_ring s0)) u).
      { intros u N. rewrite RW, nth_error_upd, (proj2 (Nat.eqb_neq _ _)) by congruence. reflexivity. }
      destruct RES as [[PR DL]|(-> & RI & a' & out & ST & SR & DL)].
      * right. exists a, outs, ops, i, t, op, p'. split; [exact B1|]. split; [lia|]. split.
        { intros m v op' Hm. destruct (Nat.eq_dec m j) as [->|]; [|apply B3; lia]. rewrite Hx. discriminate. }
        split; [rewrite KC; exact B4|]. split; [exact B5|]. split; [kfld; rewrite DL; exact B6|]. split; [exact Et'|]. split.
        { intros m Hm. destruct (Nat.eq_dec m (S j)) as [->|]; [|apply B8; lia]. rewrite (kat_pc' _ _ _ Hs). kfld. rewrite Et'. intros [= ->]. exact PR. }
        split; [apply (quiet_prog b s1); [unfold quiet; auto 12|exact PR]|]. split; [exact KN|].
        split; intros v q N; kfld; [rewrite (OT v N); apply B11; exact N|rewrite (OW v N); apply B12; exact N].
      * left. exists a', (outs ++ [out]), (Some j). rewrite KC, B4. split; [apply (arun_snoc b ops op _ a outs); assumption|]. kfld.
        split; [rewrite DL, B6, answers_snoc by (eapply arun_len; exact B5); reflexivity|]. split; [apply (quiet_srel s1); [unfold quiet; auto 12|exact SR]|].
        split; [intros v q Hv; destruct (Nat.eq_dec v t) as [->|N]; [congruence|rewrite (OT v N) in Hv; eapply B11; eassumption]|].
        split; [intros v q Hv; destruct (Nat.eq_dec v t) as [->|N]; [unfold ring_pc in RI; congruence|rewrite (OW v N) in Hv; eapply B12; eassumption]|].
        split; [|split].
        -- split; [lia|]. exists i. split.
           { exists t, op, fails, picks. split; [exact B1|]. split; [exact Hx|]. split; [exact B2|]. split; [rewrite (kat_pc' _ _ _ Hs); exact Et'|exact B8]. }
           intros m v op' Hm. destruct (Nat.eq_dec m j) as [->|]; [rewrite Hx; discriminate|apply B3; lia].
        -- intros v Hv (m & act & M1 & M2 & M3 & M4). destruct M4 as [->|M4]; [|apply khb_lt in M4; lia]. rewrite Hx in M2. injection M2 as <-. cbn [kactor] in M3. subst v. exact KN.
        -- intros k (m & v & M1 & M2 & M3 & M4). apply khb_lt in M4. lia.
    + destruct (send_step b n s0 u s HW E) as (Q & V & _). right. apply SYNC; [exact Q|apply V|apply V|exact I].
    + destruct (recv_step b n s0 u k s HW E) as (Q & V & _).
      assert (N : t <> u). { intros ->. unfold kstep in E. cbn [kact] in E. destruct (nth_error (k_threads s0) u) as [[]|]; try discriminate. congruence. }
      right. apply SYNC; [exact Q|apply V; exact N|apply V; exact N|exact I].
Qed.

Theorem serial_sequential s : krun b (kinit sz n) sched = Some s -> k_idle s ->
  exists a outs, arun b (ainit sz) (kcalls sched) = Val (a, outs) /\ k_deltas s = answers (kcalls sched) outs /\
    (forall f, kvalue s f = mem_of (st (alc a)) f) /\ map snd (k_sps s) = map (fun sp => stats_list (metrics sp)) (sps a).
Proof.
  intros R ID. assert (Hs : kat (length sched) = Some s) by (unfold AllocWeakProofs2.kat; rewrite firstn_all; exact R).
  destruct (serial_inv (length sched) s (le_n _) Hs) as [_ [(a & outs & e & A1 & A2 & A3 & _)|(a & outs & ops & i & t & op & p & _ & _ & _ & _ & _ & _ & B7 & _ & B9 & _)]].
  - rewrite firstn_all in *. exists a, outs. split; [exact A1|]. split; [exact A2|]. destruct A3 as (M & _ & S). split; [exact M|].
    clear - S. unfold sps_rel in S. induction S as [|x y l l' [_ H] F IH]; cbn [map]; [reflexivity|]. rewrite H, IH. reflexivity.
  - exfalso. unfold k_idle in ID. rewrite Forall_forall in ID. rewrite (ID p (nth_error_In _ _ B7)) in B9. exact B9.
Qed.
End Path.

(** ** One caller *)
Section OneCaller.
Variables (b : build) (sz n : nat) (sched : list kaction).
Notation kat := (kat b sz n sched).
Notation kpc := (kpc b sz n sched).
Lemma first_idle (P : nat -> bool) i j : (i < j)%nat -> P i = false -> P j = true -> exists e, (i <= e < j)%nat /\ P (S e) = true /\ forall m, (i <= m <= e)%nat -> P m = false.
Proof.
  intros L Pi Pj. induction j as [|j IH]; [lia|]. destruct (P j) eqn:E.
  - destruct (Nat.eq_dec i j) as [->|]; [congruence|]. destruct (IH ltac:(lia) eq_refl) as (e & E1 & E2 & E3). exists e. split; [lia|]. split; assumption.
  - destruct (Nat.eq_dec i j) as [->|].
    + exists j. split; [lia|]. split; [exact Pj|]. intros m Hm. replace m with j by lia. exact E.
    + clear IH. revert E Pj. intros E Pj.
      assert (G : forall k, (i <= k <= j)%nat -> (forall m, (i <= m <= k)%nat -> P m = false) \/ exists e, (i <= e < k)%nat /\ P (S e) = true /\ forall m, (i <= m <= e)%nat -> P m = false).
      { induction k as [|k IHk]; intros Hk.
        - left. intros m Hm. replace m with i by lia. exact Pi.
        - destruct (Nat.eq_dec i (S k)) as [->|]; [left; intros m Hm; replace m with (S k) by lia; exact Pi|].
          destruct (IHk ltac:(lia)) as [A|(e & A1 & A2 & A3)]; [|right; exists e; split; [lia|auto]].
          destruct (P (S k)) eqn:Ek; [right; exists k; split; [lia|auto]|]. left. intros m Hm. destruct (Nat.eq_dec m (S k)) as [->|]; [exact Ek|apply A; lia]. }
      destruct (G j ltac:(lia)) as [A|(e & A1 & A2 & A3)].
      * exists j. split; [lia|]. split; [exact Pj|exact A].
      * exists e. split; [lia|auto].
Qed.
Definition idleb (t m : nat) : bool := match kpc m t with Some AIdle => true | _ => false end.
Lemma idleb_spec t m : idleb t m = true <-> kpc m t = Some AIdle.
Proof. unfold idleb. destruct (kpc m t) as [[]|]; split; congruence. Qed.
Lemma same_thread_over t i j op op' : krun b (kinit sz n) sched <> None -> (i < j)%nat -> nth_error sched i = Some (KStart t op) -> nth_error sched j = Some (KStart t op') ->
  exists e, call_over b sz n sched i e /\ khb sched e j.
Proof.
  intros R L Hi Hj. destruct (krun b (kinit sz n) sched) as [s|] eqn:Er; [|congruence].
  assert (Hs : kat (length sched) = Some s) by (unfold AllocWeakProofs2.kat; rewrite firstn_all; exact Er).
  assert (Lj : (j < length sched)%nat) by (apply nth_error_Some; congruence).
  assert (AT : forall m, (m <= length sched)%nat -> exists s', kat m = Some s') by (intros m Hm; eapply kat_le; eassumption).
  destruct (AT (S i) ltac:(lia)) as (si & Si). destruct (kat_prev _ _ _ _ _ _ Si) as (s0 & S0). destruct (AT (S j) ltac:(lia)) as (sj & Sj). destruct (kat_prev _ _ _ _ _ _ Sj) as (s1 & S1).
  assert (PC : forall m s' u, kat m = Some s' -> kpc m u = nth_error (k_threads s') u) by (intros m s' u; unfold AllocWeakProofs2.kat, AllocWeakSpec.kpc; intros ->; reflexivity).
  destruct (first_idle (idleb t) (S i) j) as (e & E1 & E2 & E3).
  - destruct (Nat.eq_dec (S i) j) as [<-|]; [|lia]. exfalso.
    pose proof (kat_S _ _ _ _ _ _ _ _ Hj S1 Sj) as E. pose proof (kat_S _ _ _ _ _ _ _ _ Hi S0 Si) as E0. rewrite Si in S1. injection S1 as <-.
    unfold kstep in E, E0. cbn [kact] in E, E0. destruct (nth_error (k_threads s0) t) as [[]|] eqn:Et0; try discriminate. destruct (kcan_start s0 t op); [|discriminate]. injection E0 as <-. kfld.
    rewrite nth_error_upd, Nat.eqb_refl in E. destruct (_ <? _)%nat; [|discriminate]. destruct op; cbn [first_apc adds_of after_adds app] in E; discriminate.
  - destruct (idleb t (S i)) eqn:EI; [|reflexivity]. exfalso. apply idleb_spec in EI. rewrite (PC _ _ _ Si) in EI. pose proof (kat_S _ _ _ _ _ _ _ _ Hi S0 Si) as E0.
    unfold kstep in E0. cbn [kact] in E0. destruct (nth_error (k_threads s0) t) as [[]|] eqn:Et0; try discriminate. destruct (kcan_start s0 t op); [|discriminate]. injection E0 as <-. kfld.
    rewrite nth_error_upd, Nat.eqb_refl in EI. destruct (_ <? _)%nat; [|discriminate]. destruct op; cbn [first_apc adds_of after_adds app] in EI; discriminate.
  - apply idleb_spec. rewrite (PC _ _ _ S1). pose proof (kat_S _ _ _ _ _ _ _ _ Hj S1 Sj) as E. unfold kstep in E. cbn [kact] in E. destruct (nth_error (k_threads s1) t) as [[]|] eqn:Et; try discriminate. reflexivity.
  - apply idleb_spec in E2. assert (NE : kpc e t <> Some AIdle) by (intros Q; apply idleb_spec in Q; rewrite (E3 e ltac:(lia)) in Q; discriminate).
    destruct (AT (S e) ltac:(lia)) as (se' & Se'). destruct (kat_prev _ _ _ _ _ _ Se') as (se & Se). rewrite (PC _ _ _ Se') in E2. rewrite (PC _ _ _ Se) in NE.
    destruct (nth_error sched e) as [x|] eqn:Hx; [|apply nth_error_None in Hx; lia]. pose proof (kat_S _ _ _ _ _ _ _ _ Hx Se Se') as E.
    assert (KA : kactor x = t).
    { destruct (Nat.eq_dec (kactor x) t) as [|N]; [assumption|]. rewrite (step_other b n se x se' t (kat_wf _ _ _ _ _ _ Se) E N) in E2. congruence. }
    assert (exists fails picks, x = KStep t fails picks) as (fails & picks & ->).
    { destruct x as [u o|u f p|u|u k]; cbn [kactor] in KA; subst u; [|eauto| |];
        exfalso; unfold kstep in E; cbn [kact] in E; destruct (nth_error (k_threads se) t) as [[]|]; try discriminate; congruence. }
    exists e. split.
    + exists t, op, fails, picks. split; [exact Hi|]. split; [exact Hx|]. split; [lia|]. split; [rewrite (PC _ _ _ Se'); exact E2|].
      intros m Hm Q. apply idleb_spec in Q. rewrite E3 in Q by lia. discriminate.
    + eapply khb_thread; [|exact Hx|exact Hj|reflexivity]. lia.
Qed.
Lemma one_caller_serial t : krun b (kinit sz n) sched <> None -> (forall i u op, nth_error sched i = Some (KStart u op) -> u = t) -> serial b sz n sched.
Proof.
  intros R OC i j u u' op op' L Hi Hj. rewrite (OC _ _ _ Hi) in Hi. rewrite (OC _ _ _ Hj) in Hj. eapply same_thread_over; eassumption.
Qed.
End OneCaller.
