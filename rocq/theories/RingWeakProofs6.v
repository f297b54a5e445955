(** * Relaxed memory: the statements behind C80 and C82. *)
From Coq Require Import List ZArith Lia Bool Arith Permutation.
From Coq Require Import ZifyBool ZifyNat ZifyN.
From Verif Require Import Machine Ring RingSpec RingSeq RingConc RingConc2 RingConc3 RingWeak RingWeakSpec
  RingWeakProofs RingWeakProofs2 RingWeakProofs3 RingWeakProofs4 RingWeakProofs5.
Import ListNotations.
Open Scope Z_scope.

Section Weak6.
Context {A : Type}.
Variable bld : build.
Notation wstate := (wstate A).
Notation waction := (waction A).
Notation cstate := (cstate A).
Notation pc := (pc A).

(** ** C80 *)
Lemma weak_enqueues sz n sched (s : wstate) : (1 <= sz)%nat -> Z.of_nat sz < two32 ->
  wrun bld (winit sz n) sched = Some s -> Z.of_nat (length (wstarted sched)) < two32 ->
  (exists k, flat_map enq1 (w_events s) = combine (zseq 0 k) (firstn k (w_hist s)) /\ (k <= length (w_hist s))%nat) /\
  (w_stopped s -> flat_map enq1 (w_events s) = combine (zseq 0 (length (w_hist s))) (w_hist s) /\
                   Permutation (w_hist s) (wstarted sched)).
Proof.
  intros HS HSB E HB. destruct (Wok_reachable bld sz n sched s HS HSB E HB) as (_ & cs & HI & HR).
  pose proof (I_pub sz cs HI) as HP. pose proof (I_res sz cs HI) as HRs. unfold nhist in HRs. rewrite (R_hist sz s cs HR) in HRs.
  pose proof (I_enq sz cs HI) as HE. rewrite (R_events sz s cs HR), (R_hist sz s cs HR) in HE.
  split.
  - exists (Z.to_nat (published cs)). split; [exact HE|lia].
  - intros HA.
    assert (ST : forall Y (f : pc -> list Y), f Idle = [] -> (forall q, f (Panicked q) = []) -> flat_map f (w_threads s) = []).
    { intros Y f F1 F2. unfold w_stopped in HA. induction HA as [|p l Hp HA IH]; cbn [flat_map]; auto.
      rewrite IH, app_nil_r. destruct Hp as [->|(q & ->)]; auto. }
    assert (Q : published cs = reserved cs).
    { pose proof (Permutation_length (I_perm sz cs HI)) as P. rewrite zseq_length in P.
      assert (Z0 : inflights cs = []).
      { unfold inflights. pose proof (R_threads sz s cs HR) as F. clear -F HA. unfold w_stopped in HA.
        induction F as [|p q l l' T F IH]; cbn [flat_map]; auto. inversion HA; subst. rewrite IH by assumption. rewrite app_nil_r.
        destruct H1 as [->|(q' & ->)]; cbn [tm] in T; [subst q; reflexivity|].
        destruct T as (_ & [->|(c & h & ->)]); reflexivity. }
      rewrite Z0 in P. cbn in P. lia. }
    split.
    + rewrite HE. replace (Z.to_nat (published cs)) with (length (w_hist s)) by lia. rewrite firstn_all. reflexivity.
    + rewrite <- (wstarted_init bld sz n sched s E). rewrite (ST _ reserving) by reflexivity. rewrite app_nil_r. reflexivity.
Qed.

Lemma weak_panics sz n sched (s : wstate) t p f picks s' q : (1 <= sz)%nat -> Z.of_nat sz < two32 ->
  wrun bld (winit sz n) sched = Some s -> Z.of_nat (length (wstarted sched)) < two32 ->
  nth_error (w_threads s) t = Some p -> wstep bld s (WStep t f picks) = Some s' ->
  nth_error (w_threads s') t = Some (Panicked q) ->
  bld = Debug /\ enqueuing p = false /\ p <> ConsLoad.
Proof.
  intros HS HSB E HB Ht Es Hq. pose proof (Wok_reachable bld sz n sched s HS HSB E HB) as W.
  eapply panic_step; eauto. eapply whist_started; eauto.
Qed.

Lemma Rel_start sz (s : wstate) cs c st : Rel sz s cs -> Inv sz cs -> In (EvConsumer c st) (w_events s) ->
  exists cur, cpos cs c st cur.
Proof.
  intros HR HI HC.
  assert (H : In (c, st) (flat_map cons1 (w_events s))).
  { apply in_flat_map. exists (EvConsumer c st). split; [exact HC|left; reflexivity]. }
  rewrite (R_cons sz s cs HR) in H. apply combine_seq_in in H. rewrite Nat.sub_0_r in H. destruct H as [_ H].
  pose proof (I_heads sz cs HI c) as HH. rewrite H in HH.
  destruct (nth_error (c_heads cs) c) as [cur|] eqn:Hc; [|contradiction]. exists cur. split; assumption.
Qed.

Lemma weak_ret sz (s : wstate) cs c st cur : Rel sz s cs -> Inv sz cs -> cpos cs c st cur ->
  Permutation (wreturned c s ++ flat_map (checking c) (w_threads s) ++ wlost c s) (zseq st (Z.to_nat (cur - st))).
Proof.
  intros HR HI Hc. destruct (I_cpos sz cs c st cur HI Hc) as (K1 & K2 & K3).
  pose proof (I_ret sz cs HI c) as P. rewrite K3 in P. rewrite <- P. unfold wreturned, returned. rewrite (R_events sz s cs HR).
  apply Permutation_app_head. apply Permutation_sym. apply (R_lost sz s cs HR).
Qed.

Lemma NoDup_app_parts {X} (l m r : list X) : NoDup (l ++ m ++ r) -> NoDup (l ++ r).
Proof.
  intros H. apply NoDup_app_l with m. eapply Permutation_NoDup; [|exact H].
  rewrite <- app_assoc. apply Permutation_app_head, Permutation_app_comm.
Qed.

Lemma weak_claims sz n sched (s : wstate) c st : (1 <= sz)%nat -> Z.of_nat sz < two32 ->
  wrun bld (winit sz n) sched = Some s -> Z.of_nat (length (wstarted sched)) < two32 ->
  In (EvConsumer c st) (w_events s) ->
  NoDup (wreturned c s ++ wlost c s) /\
  (forall p, In p (wreturned c s ++ wlost c s) -> st <= p /\ exists x, In (EvEnqueued p x) (w_events s)) /\
  (w_stopped s -> Permutation (wreturned c s ++ wlost c s) (zseq st (length (wreturned c s ++ wlost c s)))).
Proof.
  intros HS HSB E HB HC. destruct (Wok_reachable bld sz n sched s HS HSB E HB) as (_ & cs & HI & HR).
  destruct (Rel_start sz s cs c st HR HI HC) as (cur & Hc).
  pose proof (weak_ret sz s cs c st cur HR HI Hc) as P. destruct (I_cpos sz cs c st cur HI Hc) as (K1 & K2 & _).
  pose proof (I_pub sz cs HI) as HP. pose proof (I_res sz cs HI) as HRs. unfold nhist in HRs.
  split; [|split].
  - apply NoDup_app_parts with (flat_map (checking c) (w_threads s)).
    eapply Permutation_NoDup; [apply Permutation_sym; exact P|apply zseq_nodup].
  - intros p Hp.
    assert (Hz : In p (zseq st (Z.to_nat (cur - st)))).
    { eapply Permutation_in; [exact P|]. rewrite !in_app_iff in *. tauto. }
    apply in_zseq in Hz. split; [lia|].
    destruct (nth_error (c_hist cs) (Z.to_nat p)) as [x|] eqn:N; [|apply nth_error_None in N; lia].
    exists x. rewrite <- (R_events sz s cs HR). apply (enq_event_iff sz cs p x HI). split; [lia|exact N].
  - intros HA.
    assert (Z0 : flat_map (checking c) (w_threads s) = []).
    { unfold w_stopped in HA. clear -HA. induction HA as [|p l Hp HA IH]; cbn [flat_map]; auto.
      rewrite IH, app_nil_r. destruct Hp as [->|(q & ->)]; auto. }
    rewrite Z0 in P. cbn [app] in P. pose proof (Permutation_length P) as PL. rewrite zseq_length in PL. rewrite PL. exact P.
Qed.

(** what a thread knows once its enqueue has returned *)
Lemma enqueue_knows sz n (sched : list waction) i p x si si' (a : waction) : (1 <= sz)%nat -> Z.of_nat sz < two32 ->
  Z.of_nat (length (wstarted sched)) < two32 ->
  at_ bld sz n sched i = Some si -> at_ bld sz n sched (S i) = Some si' -> w_events si' = w_events si ++ [EvEnqueued p x] ->
  nth_error sched i = Some a ->
  exists q, p = Z.of_nat q /\ (q + 2 <= seen (view_of si' (actor a)) Pub)%nat /\
    nth_error (w_hist si') q = Some x /\
    ((n <= sz)%nat -> (q + 2 <= seen (view_of si' (actor a)) Res)%nat /\
                      (S (q / sz) <= seen (view_of si' (actor a)) (Slot (q mod sz)))%nat).
Proof.
  intros HS HSB HB Hi Hi' Ev Ha. pose proof (at_S bld sz n sched i a si si' Ha Hi Hi') as E.
  assert (HBi : Z.of_nat (length (wstarted (firstn i sched))) < two32) by (pose proof (wstarted_prefix i sched); lia).
  destruct (Wok_reachable bld sz n (firstn i sched) si HS HSB Hi HBi) as (_ & cs & HI & HR).
  pose proof (event_step bld si a si' _ E Ev) as (t & f & picks & m & nxt & -> & Ht & Em & Vm & Hv & _). cbn [actor].
  pose proof (newest_val _ _ _ _ (R_pub sz si cs HR) Em) as V1. pose proof (I_pub sz cs HI) as HP.
  pose proof (R_thread sz si cs t _ HR Ht eq_refl) as Ht'. pose proof (I_pcs sz cs HI t _ Ht') as [Hx H0].
  destruct (Z_of_nat_complete p H0) as (q & EP). exists q. split; [exact EP|].
  assert (HVU : view_of si' t = (Pub, S (length (w_pub si))) :: view_of si t).
  { unfold view_of at 1. rewrite Hv, view_upd, Nat.eqb_refl, (R_views sz si cs HR). rewrite (proj2 (Nat.ltb_lt _ _)); [reflexivity|].
    apply nth_error_Some. congruence. }
  rewrite HVU. split; [|split].
  - rewrite seen_cons, loc_eqb_refl, (vals_len _ _ _ (R_pub sz si cs HR)). lia.
  - rewrite EP, Nat2Z.id, (R_hist sz si cs HR) in Hx. destruct (whist_mono bld si _ si' E) as (l & ->).
    rewrite nth_error_app1; [exact Hx|apply nth_error_Some; congruence].
  - intros HN. destruct (SInv_reachable bld sz n (firstn i sched) si HS HSB HN Hi HBi) as (_ & SI).
    rewrite EP in Ht. destruct (S_e sz si SI t q x Ht) as [B1 B2]. rewrite !seen_cons. cbn [loc_eqb]. auto.
Qed.

Lemma weak_nothing sz n (sched : list waction) i j p x c st sj : (1 <= sz)%nat -> Z.of_nat sz < two32 ->
  Z.of_nat (length (wstarted sched)) < two32 ->
  returns bld sz n sched i (EvEnqueued p x) -> hb sched i j -> returns bld sz n sched j (EvNothing c) ->
  wrun bld (winit sz n) (firstn (S j) sched) = Some sj -> In (EvConsumer c st) (w_events sj) -> st <= p ->
  In p (wreturned c sj) \/ In p (wlost c sj) \/ exists t, nth_error (w_threads sj) t = Some (DeqCheck c p).
Proof.
  intros HS HSB HB (si & si' & Hi & Hi' & Evi) HHB (s & s' & Hj & Hj' & Evj) Hsj HC Hst.
  rewrite Hj' in Hsj. injection Hsj as ->.
  assert (LB : forall k, Z.of_nat (length (wstarted (firstn k sched))) < two32) by (intros k; pose proof (wstarted_prefix k sched); lia).
  destruct (nth_error sched i) as [a|] eqn:Ha.
  2:{ rewrite (at_nth bld sz n sched i si si' Hi Hi' Ha) in Evi. apply (f_equal (@length _)) in Evi. rewrite app_length in Evi. cbn in Evi. lia. }
  destruct (nth_error sched j) as [a'|] eqn:Ha'.
  2:{ rewrite (at_nth bld sz n sched j s sj Hj Hj' Ha') in Evj. apply (f_equal (@length _)) in Evj. rewrite app_length in Evj. cbn in Evj. lia. }
  destruct (enqueue_knows sz n sched i p x si si' a HS HSB HB Hi Hi' Evi Ha) as (q & -> & KP & _).
  pose proof (at_S bld sz n sched j a' s sj Ha' Hj Hj') as E.
  pose proof (event_step bld s a' sj _ E Evj) as (t & f & k & h & m & -> & Ht & Em & Vm).
  destruct (hb_views bld sz n sched i j HHB a _ si' s sj Ha Ha' Hi' Hj Hj') as (_ & V). specialize (V eq_refl). cbn [actor] in V.
  destruct (Wok_reachable bld sz n _ s HS HSB Hj (LB j)) as (_ & cs & HI & HR).
  destruct (Wok_reachable bld sz n _ sj HS HSB Hj' (LB (S j))) as (_ & cs' & HI' & HR').
  destruct (read_val _ _ _ _ _ _ (R_pub sz s cs HR) Em) as (V1 & V2 & V3). specialize (V Pub).
  destruct (Rel_start sz sj cs' c st HR' HI' HC) as (cur' & Hc').
  pose proof (R_thread sz s cs t _ HR Ht eq_refl) as Ht'. pose proof (I_pcs sz cs HI t _ Ht') as (st0 & cur & Hc & Hh).
  (* heads are the same before and after *)
  assert (EH : w_heads sj = w_heads s).
  { cbn [wstep] in E. rewrite Ht in E. cbn [wthread_step] in E. rewrite Em in E.
    destruct (h >? m_val m); [injection E as <-; reflexivity|]. destruct (h =? m_val m); injection E as <-; reflexivity. }
  destruct (R_head_inv sz s cs c st0 cur HR Hc) as (hs & Qh & Hv).
  destruct (R_head_inv sz sj cs' c st cur' HR' Hc') as (hs' & Qh' & Hv').
  rewrite EH, Qh in Qh'. injection Qh' as <-. rewrite Hv in Hv'.
  destruct (I_cpos sz cs c st0 cur HI Hc) as (K1 & _). destruct (I_cpos sz cs' c st cur' HI' Hc') as (K1' & _).
  assert (EE : st0 = st /\ cur = cur').
  { pose proof (f_equal (@length Z) Hv') as L. rewrite !zseq_length in L.
    cbn [zseq] in Hv'. injection Hv' as E0 _. lia. }
  destruct EE as [-> ->].
  pose proof (weak_ret sz sj cs' c st cur' HR' HI' Hc') as P.
  assert (IN : In (Z.of_nat q) (zseq st (Z.to_nat (cur' - st)))) by (apply in_zseq; lia).
  eapply Permutation_in in IN; [|apply Permutation_sym; exact P].
  rewrite !in_app_iff in IN. destruct IN as [IN|[IN|IN]]; [tauto| |tauto].
  right; right. apply in_flat_map_nth in IN. destruct IN as (t0 & p0 & Ht0 & Hp0). exists t0. rewrite Ht0.
  destruct p0; cbn [checking] in Hp0; try contradiction. destruct (Nat.eqb_spec c0 c) as [->|]; [|contradiction].
  destruct Hp0 as [->|[]]. reflexivity.
Qed.

(** ** C82 *)
Lemma wrap_size sz (s : wstate) : length (w_slots s) = sz -> Z.of_nat sz < two32 -> wrap32 (wsize s) = Z.of_nat sz.
Proof. intros H L. unfold wrap32, wsize. rewrite H. apply Z.mod_small. lia. Qed.

(** the dequeuer at its last step knows the element's slot *)
Lemma sync_state sz n (sched : list waction) i j p x t f picks c h s s' : (1 <= sz)%nat -> Z.of_nat sz < two32 -> (n <= sz)%nat ->
  Z.of_nat (length (wstarted sched)) < two32 ->
  returns bld sz n sched i (EvEnqueued p x) -> hb sched i j ->
  at_ bld sz n sched j = Some s -> at_ bld sz n sched (S j) = Some s' ->
  nth_error sched j = Some (WStep t f picks) -> nth_error (w_threads s) t = Some (DeqCheck c h) -> h = p ->
  exists q, p = Z.of_nat q /\ length (w_slots s) = sz /\ map m_val (w_res s) = zseq 0 (S (length (w_hist s))) /\
    (q + 2 <= seen (view_of s t) Res)%nat /\ (S (q / sz) <= seen (view_of s t) (Slot (q mod sz)))%nat /\
    nth_error (w_hist s) q = Some x /\ SInv sz s /\ Z.of_nat (length (w_hist s)) < two32 /\ w_hist s' = w_hist s.
Proof.
  intros HS HSB HN HB (si & si' & Hi & Hi' & Evi) HHB Hj Hj' Ha' Ht ->.
  assert (LB : forall k, Z.of_nat (length (wstarted (firstn k sched))) < two32) by (intros k; pose proof (wstarted_prefix k sched); lia).
  destruct (nth_error sched i) as [a|] eqn:Ha.
  2:{ rewrite (at_nth bld sz n sched i si si' Hi Hi' Ha) in Evi. apply (f_equal (@length _)) in Evi. rewrite app_length in Evi. cbn in Evi. lia. }
  destruct (enqueue_knows sz n sched i p x si si' a HS HSB HB Hi Hi' Evi Ha) as (q & -> & _ & Hx & KS). destruct (KS HN) as [K1 K2].
  destruct (hb_views bld sz n sched i j HHB a _ si' s s' Ha Ha' Hi' Hj Hj') as (_ & V). specialize (V eq_refl). cbn [actor] in V.
  destruct (SInv_reachable bld sz n _ s HS HSB HN Hj (LB j)) as ((_ & cs & HI & HR) & SI).
  exists q. split; [reflexivity|]. split; [apply (R_slots sz s cs HR)|]. split; [apply (R_res sz s cs HR)|].
  split; [specialize (V Res); lia|]. split; [specialize (V (Slot (q mod sz))); lia|].
  split; [|split; [exact SI|split; [eapply whist_started; [exact Hj|apply LB]|]]].
  - pose proof (hb_lt sched i j HHB) as L.
    assert (exists l, w_hist s = w_hist si' ++ l) as (l & ->).
    { unfold at_ in Hi', Hj. replace (firstn j sched) with (firstn (S i) sched ++ skipn (S i) (firstn j sched)) in Hj.
      - rewrite wrun_app, Hi' in Hj. eapply wrun_hist; exact Hj.
      - rewrite <- (firstn_skipn (S i) (firstn j sched)) at 2. rewrite firstn_firstn. f_equal. f_equal. lia. }
    rewrite nth_error_app1; [exact Hx|apply nth_error_Some; congruence].
  - pose proof (at_S bld sz n sched j _ s s' Ha' Hj Hj') as E. cbn [wstep] in E. rewrite Ht in E. cbn [wthread_step] in E.
    split_step E; injection E as <-; reflexivity.
Qed.

Lemma event_actor (s : wstate) a s' : wstep bld s a = Some s' -> w_events s' <> w_events s -> exists t f picks, a = WStep t f picks.
Proof.
  intros E N. destruct a as [t op|t f picks|t|t k]; eauto; exfalso; apply N; cbn [wstep] in E; split_step E; injection E as <-; reflexivity.
Qed.

Lemma sync_dequeue sz n (sched : list waction) i j p x c o r : (1 <= sz)%nat -> Z.of_nat sz < two32 -> (n <= sz)%nat ->
  Z.of_nat (length (wstarted sched)) < two32 ->
  returns bld sz n sched i (EvEnqueued p x) -> hb sched i j -> returns bld sz n sched j (EvElement c p o) ->
  reserved_by bld sz n sched j = Some r -> r <= p + Z.of_nat sz ->
  o = Some x /\ ~ races bld sz n sched j.
Proof.
  intros HS HSB HN HB Hi HHB (s & s' & Hj & Hj' & Ev) Hr Hle.
  unfold reserved_by in Hr. rewrite Hj' in Hr. injection Hr as <-.
  destruct (nth_error sched j) as [a'|] eqn:Ha'.
  2:{ rewrite (at_nth bld sz n sched j s s' Hj Hj' Ha') in Ev. apply (f_equal (@length _)) in Ev. rewrite app_length in Ev. cbn in Ev. lia. }
  pose proof (at_S bld sz n sched j a' s s' Ha' Hj Hj') as E.
  pose proof (event_step bld s a' s' _ E Ev) as (t & f & k & l & m & d & -> & Ht & Em & Ed & Hd & Er & Erc).
  destruct (sync_state sz n sched i j p x t f [k; l] c p s s' HS HSB HN HB Hi HHB Hj Hj' Ha' Ht eq_refl)
    as (q & -> & HSL & HRs & K1 & K2 & Hx & SI & HBs & HH).
  rewrite HH in Hle. rewrite (slot_of_nat sz s q HSL) in *.
  (* no later position in the slot is written *)
  assert (LS : (length (wslot s (q mod sz)) <= S (q / sz))%nat).
  { apply Nat.nlt_ge. intros L.
    destruct (nth_error (wslot s (q mod sz)) (S (q / sz))) as [y|] eqn:Q; [|apply nth_error_None in Q; lia].
    pose proof (Nat.mod_upper_bound q sz ltac:(lia)) as MB. pose proof (Nat.div_mod q sz ltac:(lia)) as DM.
    pose proof (S_a sz s SI _ _ _ MB Q) as Q'. assert (q mod sz + S (q / sz) * sz < length (w_hist s))%nat by (apply nth_error_Some; congruence).
    rewrite Nat.mul_succ_l in H. lia. }
  split.
  - unfold read_slot in Er. destruct (nth_error (w_slots s) (q mod sz)) as [ws|] eqn:Qs; [|discriminate].
    assert (EW : wslot s (q mod sz) = ws) by (unfold wslot; apply nth_error_nth; exact Qs). rewrite EW in LS.
    destruct (Nat.leb_spec (seen (view_of s t) (Slot (q mod sz))) l) as [G|]; [|discriminate].
    destruct l as [|l]; [exfalso; apply (Nat.nle_succ_0 (q / sz)); eapply Nat.le_trans; [exact K2|exact G]|]. destruct (nth_error ws l) as [y|] eqn:Q; [|discriminate]. injection Er as <-. f_equal.
    assert (l < length ws)%nat by (apply nth_error_Some; congruence). assert (l = q / sz)%nat by (clear -LS K2 G H; lia). subst l.
    rewrite <- EW in Q. pose proof (Nat.mod_upper_bound q sz ltac:(lia)) as MB. pose proof (Nat.div_mod q sz ltac:(lia)) as DM.
    pose proof (S_a sz s SI _ _ _ MB Q) as Q'. replace (q mod sz + q / sz * sz)%nat with q in Q' by lia. congruence.
  - intros (s1 & s1' & H1 & H1' & N). unfold at_ in *. rewrite Hj in H1. injection H1 as <-. rewrite Hj' in H1'. injection H1' as <-.
    apply N. rewrite Erc. unfold unknown. cbn [filter].
    replace (seen (view_of s t) (Slot (q mod sz)) <? length (nth (q mod sz) (w_slots s) []))%nat with false.
    { cbn [map]. rewrite app_nil_r. reflexivity. }
    symmetry. apply Nat.ltb_ge. fold (wslot s (q mod sz)). lia.
Qed.

Lemma sync_overflow sz n (sched : list waction) i j p x c r : (1 <= sz)%nat -> Z.of_nat sz < two32 -> (n <= sz)%nat ->
  Z.of_nat (length (wstarted sched)) < two32 ->
  returns bld sz n sched i (EvEnqueued p x) -> hb sched i j -> returns bld sz n sched j (EvOverflow c p) ->
  reserved_by bld sz n sched j = Some r -> p + Z.of_nat sz < r.
Proof.
  intros HS HSB HN HB Hi HHB (s & s' & Hj & Hj' & Ev) Hr.
  unfold reserved_by in Hr. rewrite Hj' in Hr. injection Hr as <-.
  destruct (nth_error sched j) as [a'|] eqn:Ha'.
  2:{ rewrite (at_nth bld sz n sched j s s' Hj Hj' Ha') in Ev. apply (f_equal (@length _)) in Ev. rewrite app_length in Ev. cbn in Ev. lia. }
  pose proof (at_S bld sz n sched j a' s s' Ha' Hj Hj') as E.
  pose proof (event_step bld s a' s' _ E Ev) as (t & f & k & l & m & d & -> & Ht & Em & Ed & Hd).
  destruct (sync_state sz n sched i j p x t f [k; l] c p s s' HS HSB HN HB Hi HHB Hj Hj' Ha' Ht eq_refl)
    as (q & -> & HSL & HRs & K1 & K2 & Hx & SI & HBs & HH).
  destruct (read_val _ _ _ _ _ _ HRs Em) as (V1 & V2 & V3). rewrite (wrap_size sz s HSL HSB) in Hd.
  unfold u32_sub in Ed. rewrite checked_in in Ed by lia. injection Ed as <-. rewrite HH. lia.
Qed.

Lemma sync_no_panic sz n (sched : list waction) i j p x c : (1 <= sz)%nat -> Z.of_nat sz < two32 -> (n <= sz)%nat ->
  Z.of_nat (length (wstarted sched)) < two32 ->
  returns bld sz n sched i (EvEnqueued p x) -> hb sched i j -> ~ loses bld sz n sched j c p.
Proof.
  intros HS HSB HN HB Hi HHB (s & s' & Hj & Hj' & Ev).
  destruct (nth_error sched j) as [a'|] eqn:Ha'.
  2:{ rewrite (at_nth bld sz n sched j s s' Hj Hj' Ha') in Ev. apply (f_equal (@length _)) in Ev. rewrite app_length in Ev. cbn in Ev. lia. }
  pose proof (at_S bld sz n sched j a' s s' Ha' Hj Hj') as E.
  destruct (lost_step bld s a' s' _ _ E Ev) as (t & f & k & l & m & d & -> & Ht & Em & Ed).
  destruct (sync_state sz n sched i j p x t f [k; l] c p s s' HS HSB HN HB Hi HHB Hj Hj' Ha' Ht eq_refl)
    as (q & -> & HSL & HRs & K1 & K2 & Hx & SI & HBs & HH).
  destruct (read_val _ _ _ _ _ _ HRs Em) as (V1 & V2 & V3).
  unfold u32_sub in Ed. rewrite checked_in in Ed by lia. discriminate.
Qed.
End Weak6.
