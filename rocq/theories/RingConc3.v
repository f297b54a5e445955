(** * Facts about whole executions of the concurrent ring, stated on events. *)
From Coq Require Import List ZArith Lia Bool Arith Permutation.
From Coq Require Import ZifyBool ZifyNat ZifyN.
From Verif Require Import Machine Ring RingSpec RingSeq RingConc RingConc2.
Import ListNotations.
Open Scope Z_scope.

Section Conc3.
Context {A : Type}.
Variable bld : build.
Notation cstate := (cstate A).
Notation pc := (pc A).

Definition reserving (p : pc) : list A := match p with EnqReserve x => [x] | _ => [] end.

(** ** Every element passed to enqueue is reserved exactly once *)
Lemma started_step (s : cstate) a s' : cstep bld s a = Some s' ->
  Permutation (c_hist s' ++ flat_map reserving (c_threads s'))
              ((c_hist s ++ flat_map reserving (c_threads s)) ++ start1 a).
Proof.
  intros E. destruct a as [t op|t sp]; cbn [cstep] in E.
  - destruct (nth_error (c_threads s) t) as [[]|] eqn:Ht; try discriminate.
    destruct (cop_ok _ _); try discriminate. injection E as <-.
    cbn [set_pc c_hist c_threads start1]. rewrite <- app_assoc. apply Permutation_app_head.
    pose proof (flat_map_upd reserving t Idle (first_pc op) (c_threads s) Ht) as P.
    cbn [reserving] in P. rewrite app_nil_r in P. rewrite P. apply Permutation_app_head.
    destruct op; reflexivity.
  - destruct (nth_error (c_threads s) t) as [p|] eqn:Ht; try discriminate.
    cbn [start1]. rewrite app_nil_r.
    destruct p as [|x|rt x|rt x|c|c h|c h|c h|c|c h| |q]; cbn [thread_step] in E; try discriminate;
    try (repeat match type of E with
    | match ?x with _ => _ end = _ => destruct x; try discriminate
    | (if ?x then _ else _) = _ => destruct x; try discriminate
    end; injection E as <-; cbn [log set_pc claim add_consumer set_ring c_hist c_threads];
    try reflexivity; rewrite (flat_map_upd_same reserving t _ _ _ Ht) by reflexivity; reflexivity).
    injection E as <-. cbn [set_pc push_hist set_ring c_hist c_threads].
    pose proof (flat_map_upd reserving t (EnqReserve x) (EnqWrite (reserved_tail (c_ring s)) x) (c_threads s) Ht) as P.
    cbn [reserving] in P. rewrite app_nil_r in P. rewrite <- app_assoc. apply Permutation_app_head.
    rewrite <- P. apply Permutation_app_comm.
Qed.

Lemma started_run sched : forall (s s' : cstate), crun bld s sched = Some s' ->
  Permutation (c_hist s' ++ flat_map reserving (c_threads s'))
              ((c_hist s ++ flat_map reserving (c_threads s)) ++ started sched).
Proof.
  induction sched as [|a rest IH]; intros s s' E; cbn [crun] in E.
  - injection E as <-. cbn. rewrite app_nil_r. reflexivity.
  - destruct (cstep bld s a) as [s1|] eqn:E1; try discriminate.
    rewrite (IH s1 s' E), (started_step s a s1 E1). unfold started. cbn [flat_map]. rewrite <- !app_assoc. reflexivity.
Qed.

Lemma flat_map_repeat_nil {Y} (f : pc -> list Y) p n : f p = [] -> flat_map f (repeat p n) = [].
Proof. intros H. induction n as [|n IH]; cbn [repeat flat_map]; auto. rewrite H. exact IH. Qed.

Lemma flat_map_idle_nil {Y} (f : pc -> list Y) l : f Idle = [] -> Forall (fun p => p = Idle) l -> flat_map f l = [].
Proof. intros H F. induction F as [|p l -> F IH]; cbn [flat_map]; auto. rewrite H. exact IH. Qed.

Lemma started_init sz n sched (s : cstate) : crun bld (cinit sz n) sched = Some s ->
  Permutation (c_hist s ++ flat_map reserving (c_threads s)) (started sched).
Proof.
  intros E. rewrite (started_run sched _ _ E). cbn [cinit c_hist c_threads app].
  rewrite flat_map_repeat_nil by reflexivity. reflexivity.
Qed.

(** a bound on the number of enqueues started bounds the history *)
Lemma nhist_started sz n sched (s : cstate) : crun bld (cinit sz n) sched = Some s ->
  Z.of_nat (length (started sched)) < two32 -> nhist s < two32.
Proof.
  intros E H. pose proof (Permutation_length (started_init sz n sched s E)) as P. rewrite app_length in P.
  unfold nhist. lia.
Qed.

(** ** C14 *)
Lemma enqueues_exact sz n sched (s : cstate) : (1 <= sz)%nat -> Z.of_nat sz < two32 ->
  crun bld (cinit sz n) sched = Some s -> Z.of_nat (length (started sched)) < two32 ->
  no_panic s /\
  (exists k, flat_map enq1 (c_events s) = combine (zseq 0 k) (firstn k (c_hist s)) /\ (k <= length (c_hist s))%nat) /\
  (all_idle s -> flat_map enq1 (c_events s) = combine (zseq 0 (length (c_hist s))) (c_hist s) /\
                 Permutation (c_hist s) (started sched)).
Proof.
  intros HS HSB E HB0. pose proof (nhist_started sz n sched s E HB0) as HB.
  pose proof (Inv_reachable bld sz n sched s HS HSB E HB) as HI.
  pose proof (I_pub sz s HI) as HP. pose proof (I_res sz s HI) as HR. unfold nhist in HR.
  split; [|split].
  - intros t q H. exact (I_pcs sz s HI t _ H).
  - exists (Z.to_nat (published s)). split; [apply (I_enq sz s HI)|lia].
  - intros HA.
    assert (Q : published s = reserved s).
    { pose proof (Permutation_length (I_perm sz s HI)) as P. rewrite zseq_length in P. unfold inflights in P.
      rewrite (flat_map_idle_nil inflight) in P by (auto; reflexivity). cbn in P. lia. }
    split.
    + rewrite (I_enq sz s HI). replace (Z.to_nat (published s)) with (length (c_hist s)) by lia.
      rewrite firstn_all. reflexivity.
    + rewrite <- (started_init sz n sched s E). rewrite (flat_map_idle_nil reserving) by (auto; reflexivity).
      rewrite app_nil_r. reflexivity.
Qed.

(** real-time order: what is completed before a moment is before anything reserved after it *)
Lemma crun_app (s : cstate) a b s' : crun bld s (a ++ b) = Some s' <->
  exists m, crun bld s a = Some m /\ crun bld m b = Some s'.
Proof.
  revert s; induction a as [|x a IH]; intros s; cbn [app crun].
  - split; [eauto|]. intros (m & E & H). injection E as <-. exact H.
  - destruct (cstep bld s x) as [s1|]; [apply IH|]. split; [discriminate|]. intros (m & E & _). discriminate.
Qed.

Lemma combine_zseq_in (l : list A) a p x : In (p, x) (combine (zseq a (length l)) l) <->
  exists i, p = a + Z.of_nat i /\ nth_error l i = Some x.
Proof.
  revert a; induction l as [|y l IH]; intros a; cbn [length zseq combine In].
  - split; [contradiction|]. intros (i & _ & H). destruct i; discriminate.
  - rewrite IH. split.
    + intros [H|(i & -> & H)].
      * injection H as <- <-. exists 0%nat. split; [lia|reflexivity].
      * exists (S i). split; [lia|exact H].
    + intros ([|i] & -> & H); cbn [nth_error] in H.
      * injection H as <-. left. f_equal. lia.
      * right. exists i. split; [lia|exact H].
Qed.

Lemma in_enq1 (l : list (event A)) p x : In (p, x) (flat_map enq1 l) <-> In (EvEnqueued p x) l.
Proof.
  rewrite in_flat_map. split.
  - intros (e & H & Hx). destruct e; cbn in Hx; try contradiction. destruct Hx as [Hx|[]]. injection Hx as -> ->. exact H.
  - intros H. exists (EvEnqueued p x). split; [exact H|left; reflexivity].
Qed.

Lemma enq_event_iff sz (s : cstate) p x : Inv sz s -> In (EvEnqueued p x) (c_events s) <->
  0 <= p < published s /\ nth_error (c_hist s) (Z.to_nat p) = Some x.
Proof.
  intros HI. pose proof (I_pub sz s HI) as HP. pose proof (I_res sz s HI) as HR. unfold nhist in HR.
  rewrite <- in_enq1, (I_enq sz s HI).
  set (k := Z.to_nat (published s)) in *.
  assert (LK : length (firstn k (c_hist s)) = k) by (rewrite firstn_length; lia).
  rewrite <- LK at 1. rewrite combine_zseq_in. split.
  - intros (i & -> & H). rewrite nth_error_firstn in H.
    destruct (Nat.ltb_spec i k); [|discriminate]. split; [lia|].
    rewrite <- H. f_equal. lia.
  - intros (H1 & H2). exists (Z.to_nat p). split; [lia|]. rewrite nth_error_firstn.
    destruct (Nat.ltb_spec (Z.to_nat p) k); [exact H2|lia].
Qed.

Lemma enqueue_real_time sz n sched1 sched2 (s1 s2 : cstate) p x q y : (1 <= sz)%nat -> Z.of_nat sz < two32 ->
  crun bld (cinit sz n) sched1 = Some s1 -> crun bld s1 sched2 = Some s2 ->
  Z.of_nat (length (started (sched1 ++ sched2))) < two32 ->
  In (EvEnqueued p x) (c_events s1) ->
  In (EvEnqueued q y) (c_events s2) -> ~ In (EvEnqueued q y) (c_events s1) ->
  p < q.
Proof.
  intros HS HSB E1 E2 HB Hp Hy Hny.
  assert (HB1 : Z.of_nat (length (started sched1)) < two32).
  { unfold started in *. rewrite flat_map_app, app_length in HB. lia. }
  pose proof (Inv_reachable bld sz n sched1 s1 HS HSB E1 (nhist_started _ _ _ _ E1 HB1)) as HI.
  assert (E12 : crun bld (cinit sz n) (sched1 ++ sched2) = Some s2) by (apply crun_app; eauto).
  pose proof (Inv_reachable bld sz n _ s2 HS HSB E12 (nhist_started _ _ _ _ E12 HB)) as HI2.
  apply (enq_event_iff sz s1 p x HI) in Hp. pose proof (I_pub sz s1 HI). pose proof (I_res sz s1 HI).
  apply (enq_event_iff sz s2 q y HI2) in Hy. destruct Hy as [Hq Hy].
  destruct (crun_hist bld s1 sched2 s2 E2) as (l & Hl).
  destruct (Z.lt_ge_cases p q) as [L|L]; [exact L|exfalso].
  apply Hny. apply (enq_event_iff sz s1 q y HI). split; [lia|].
  unfold nhist in *. rewrite Hl, nth_error_app1 in Hy by lia. exact Hy.
Qed.

(** ** C15: creation events and claims *)
Definition cons1 (e : event A) : list (nat * Z) := match e with EvConsumer c h => [(c, h)] | _ => [] end.

Lemma consumers_step (s : cstate) a s' : cstep bld s a = Some s' -> length (c_starts s) = length (c_heads s) ->
  flat_map cons1 (c_events s) = combine (seq 0 (length (c_starts s))) (c_starts s) ->
  length (c_starts s') = length (c_heads s') /\
  flat_map cons1 (c_events s') = combine (seq 0 (length (c_starts s'))) (c_starts s').
Proof.
  intros E HL HC. destruct a as [t op|t sp]; cbn [cstep] in E.
  - destruct (nth_error (c_threads s) t) as [[]|]; try discriminate. destruct (cop_ok _ _); try discriminate.
    injection E as <-. auto.
  - destruct (nth_error (c_threads s) t) as [p|] eqn:Ht; try discriminate.
    destruct p as [|x|rt x|rt x|c|c h|c h|c h|c|c h| |q]; cbn [thread_step] in E; try discriminate;
    try (repeat match type of E with
    | match ?x with _ => _ end = _ => let Q := fresh "Q" in destruct x eqn:Q; try discriminate
    | (if ?x then _ else _) = _ => let Q := fresh "Q" in destruct x eqn:Q; try discriminate
    end; injection E as <-; cbn [log set_pc claim set_ring push_hist c_events c_starts c_heads];
    rewrite ?flat_map_app, ?upd_length; cbn [flat_map cons1 app]; rewrite ?app_nil_r; auto).
    + unfold peek_event in Q. destruct (peek_all bld (c_ring s) h) as [[[s1 s2]|]| |]; cbn [bind] in Q; try discriminate;
      injection Q as <-; cbn [cons1 app]; rewrite ?app_nil_r; auto.
    + cbn [add_consumer set_pc c_events c_starts c_heads].
      rewrite flat_map_app, !app_length. cbn [flat_map cons1 app length]. split; [lia|].
      rewrite HC, seq_app, <- HL. cbn [seq Nat.add].
      assert (CA : forall (l1 : list nat) (m1 : list Z) a b, length l1 = length m1 ->
                     combine (l1 ++ [a]) (m1 ++ [b]) = combine l1 m1 ++ [(a, b)]).
      { induction l1 as [|u l1 IH]; intros [|v m1] a b0 Hl; cbn in Hl; try discriminate; auto.
        cbn [app combine]. rewrite IH by lia. reflexivity. }
      rewrite CA by (rewrite seq_length; reflexivity). reflexivity.
Qed.

Lemma consumers_reachable sz n sched (s : cstate) : (1 <= sz)%nat -> Z.of_nat sz < two32 ->
  crun bld (cinit sz n) sched = Some s -> nhist s < two32 ->
  flat_map cons1 (c_events s) = combine (seq 0 (length (c_starts s))) (c_starts s).
Proof.
  intros HS HSB E HB.
  destruct (crun_ind bld (fun s => length (c_starts s) = length (c_heads s) /\
     flat_map cons1 (c_events s) = combine (seq 0 (length (c_starts s))) (c_starts s)) sz n HS HSB) with (sched := sched) (s' := s)
    as (_ & _ & H); auto.
  intros s0 a s1 _ [H1 H2] Es _. eapply consumers_step; eauto.
Qed.

Lemma combine_seq_in (l : list Z) a c x : In (c, x) (combine (seq a (length l)) l) ->
  (a <= c)%nat /\ nth_error l (c - a) = Some x.
Proof.
  revert a; induction l as [|y l IH]; intros a; cbn [length seq combine In]; [contradiction|].
  intros [H|H].
  - injection H as <- <-. rewrite Nat.sub_diag. auto.
  - destruct (IH (S a) H) as [H1 H2]. split; [lia|].
    replace (c - a)%nat with (S (c - S a)) by lia. exact H2.
Qed.

Lemma NoDup_app_l {X} (l l' : list X) : NoDup (l ++ l') -> NoDup l.
Proof.
  induction l as [|x l IH]; cbn [app]; intros H; [constructor|]. inversion H as [|y m H1 H2]; subst.
  constructor; [|auto]. rewrite in_app_iff in H1. tauto.
Qed.

Lemma claims_exact sz n sched (s : cstate) c st : (1 <= sz)%nat -> Z.of_nat sz < two32 ->
  crun bld (cinit sz n) sched = Some s -> Z.of_nat (length (started sched)) < two32 ->
  In (EvConsumer c st) (c_events s) ->
  NoDup (returned c s) /\
  (forall p, In p (returned c s) -> st <= p /\ exists x, In (EvEnqueued p x) (c_events s)) /\
  (all_idle s -> Permutation (returned c s) (zseq st (length (returned c s)))).
Proof.
  intros HS HSB E HB0 HC. pose proof (nhist_started sz n sched s E HB0) as HB.
  pose proof (Inv_reachable bld sz n sched s HS HSB E HB) as HI.
  assert (Hst : nth_error (c_starts s) c = Some st).
  { pose proof (consumers_reachable sz n sched s HS HSB E HB) as HCR.
    assert (H : In (c, st) (flat_map cons1 (c_events s))).
    { apply in_flat_map. exists (EvConsumer c st). split; [exact HC|left; reflexivity]. }
    rewrite HCR in H. apply combine_seq_in in H. rewrite Nat.sub_0_r in H. apply H. }
  pose proof (I_heads sz s HI c) as HH. rewrite Hst in HH.
  destruct (nth_error (c_heads s) c) as [cur|] eqn:Hc; [|contradiction]. destruct HH as (H1 & H2 & H3).
  pose proof (I_ret sz s HI c) as HRt. rewrite H3 in HRt.
  pose proof (I_pub sz s HI) as HP. pose proof (I_res sz s HI) as HR. unfold nhist in HR.
  split; [|split].
  - apply NoDup_app_l with (flat_map (checking c) (c_threads s)).
    eapply Permutation_NoDup; [apply Permutation_sym; exact HRt|apply zseq_nodup].
  - intros p Hp.
    assert (Hz : In p (zseq st (Z.to_nat (cur - st)))).
    { eapply Permutation_in; [exact HRt|]. apply in_app_iff. left. exact Hp. }
    apply in_zseq in Hz. split; [lia|].
    destruct (nth_error (c_hist s) (Z.to_nat p)) as [x|] eqn:N; [|apply nth_error_None in N; lia].
    exists x. apply (enq_event_iff sz s p x HI). split; [lia|exact N].
  - intros HA. rewrite (flat_map_idle_nil (checking c)) in HRt by (auto; reflexivity). rewrite app_nil_r in HRt.
    pose proof (Permutation_length HRt) as PL. rewrite zseq_length in PL. rewrite PL. exact HRt.
Qed.

(** dequeue answers "nothing" only when the consumer had caught up with every published element *)
Lemma nothing_exact sz n sched (s : cstate) t sp s' c : (1 <= sz)%nat -> Z.of_nat sz < two32 ->
  crun bld (cinit sz n) sched = Some s -> Z.of_nat (length (started sched)) < two32 ->
  cstep bld s (Step t sp) = Some s' -> c_events s' = c_events s ++ [EvNothing c] ->
  nth_error (c_heads s) c = Some (published_tail (c_ring s)).
Proof.
  intros HS HSB E HB0 Es Ev. pose proof (nhist_started sz n sched s E HB0) as HB.
  pose proof (Inv_reachable bld sz n sched s HS HSB E HB) as HI.
  cbn [cstep] in Es. destruct (nth_error (c_threads s) t) as [p|] eqn:Ht; try discriminate.
  pose proof (I_pcs sz s HI t p Ht) as Hp.
  assert (NO : forall e, e <> EvNothing c -> c_events s ++ [e] = c_events s ++ [EvNothing c] -> False).
  { intros e Ne H. apply app_inv_head in H. congruence. }
  assert (N0 : c_events s = c_events s ++ [EvNothing c] -> False).
  { intros H. apply (f_equal (@length _)) in H. rewrite app_length in H. cbn in H. lia. }
  destruct p as [|x|rt x|rt x|c0|c0 h|c0 h|c0 h|c0|c0 h| |q]; cbn [thread_step] in Es; try discriminate;
    repeat match type of Es with
    | match ?x with _ => _ end = _ => let Q := fresh "Q" in destruct x eqn:Q; try discriminate
    | (if ?x then _ else _) = _ => let Q := fresh "Q" in destruct x eqn:Q; try discriminate
    end; injection Es as <-;
    cbn [log set_pc claim set_ring push_hist add_consumer c_events] in Ev;
    try (exfalso; exact (N0 Ev));
    try (exfalso; refine (NO _ _ Ev); discriminate).
  - apply app_inv_head in Ev. injection Ev as ->. cbn [pc_ok] in Hp.
    destruct Hp as (st & cur & Hc & Hh). destruct (I_cpos sz s c st cur HI Hc) as (K1 & K2 & _).
    destruct Hc as [_ Hc]. rewrite Hc. f_equal. unfold published in *. lia.
  - exfalso. unfold peek_event in Q. destruct (peek_all bld (c_ring s) h) as [[[s1 s2]|]| |]; cbn [bind] in Q; try discriminate;
      injection Q as <-; refine (NO _ _ Ev); discriminate.
Qed.

(** ** C16, C17 *)
Lemma element_exact sz n sched (s : cstate) c pos content : (1 <= sz)%nat -> Z.of_nat sz < two32 -> (n <= sz)%nat ->
  crun bld (cinit sz n) sched = Some s -> Z.of_nat (length (started sched)) < two32 ->
  In (EvElement c pos content) (c_events s) ->
  exists x, content = Some x /\ In (EvEnqueued pos x) (c_events s) /\
    (reserved_tail (c_ring s) <= pos + Z.of_nat sz ->
     nth_error (slots (c_ring s)) (Z.to_nat (pos mod Z.of_nat sz)) = Some (Some x)).
Proof.
  intros HS HSB Hn E HB0 He. pose proof (nhist_started sz n sched s E HB0) as HB.
  destruct (Inv2_reachable bld sz n sched s HS HSB Hn E HB) as (HI & HT & HSl & HE).
  rewrite Forall_forall in HE. destruct (HE _ He) as (Hp & x & Hx & ->).
  exists x. split; [reflexivity|]. split; [apply (enq_event_iff sz s pos x HI); auto|].
  intros Hw. pose proof (I_res sz s HI) as HR. unfold reserved, nhist in HR.
  assert (Ep : pos = Z.of_nat (Z.to_nat pos)) by lia. rewrite Ep, <- Nat2Z.inj_mod, Nat2Z.id.
  apply (slot_published sz s (Z.to_nat pos) x HS HI HSl); auto; lia.
Qed.

Lemma overflow_exact sz n sched (s : cstate) c pos : (1 <= sz)%nat -> Z.of_nat sz < two32 -> (n <= sz)%nat ->
  crun bld (cinit sz n) sched = Some s -> Z.of_nat (length (started sched)) < two32 ->
  In (EvOverflow c pos) (c_events s) -> pos + Z.of_nat sz < reserved_tail (c_ring s).
Proof.
  intros HS HSB Hn E HB0 He. pose proof (nhist_started sz n sched s E HB0) as HB.
  destruct (Inv2_reachable bld sz n sched s HS HSB Hn E HB) as (HI & HT & HSl & HE).
  rewrite Forall_forall in HE. destruct (HE _ He) as (Hp & Ho).
  pose proof (I_res sz s HI) as HR. unfold reserved, nhist in HR. lia.
Qed.

Lemma peek_exact sz n sched (s : cstate) c head tail rsv contents : (1 <= sz)%nat -> Z.of_nat sz < two32 -> (n <= sz)%nat ->
  crun bld (cinit sz n) sched = Some s -> Z.of_nat (length (started sched)) < two32 ->
  In (EvPeeked c head tail rsv contents) (c_events s) -> rsv <= head + Z.of_nat sz ->
  exists xs, contents = map Some xs /\ Z.of_nat (length xs) = tail - head /\
    forall i x, nth_error xs i = Some x -> In (EvEnqueued (head + Z.of_nat i) x) (c_events s).
Proof.
  intros HS HSB Hn E HB0 He Hr. pose proof (nhist_started sz n sched s E HB0) as HB.
  destruct (Inv2_reachable bld sz n sched s HS HSB Hn E HB) as (HI & HT & HSl & HE).
  rewrite Forall_forall in HE. destruct (HE _ He) as (H1 & H2 & H3 & H4 & H5).
  pose proof (I_res sz s HI) as HR. unfold reserved, nhist in HR. pose proof (I_pub sz s HI) as HP.
  eexists. split; [apply H5; exact Hr|]. split.
  - rewrite firstn_length, skipn_length. unfold reserved in HP. lia.
  - intros i x Hx. rewrite nth_error_firstn, nth_error_skipn in Hx.
    destruct (Nat.ltb_spec i (Z.to_nat (tail - head))); [|discriminate].
    apply (enq_event_iff sz s _ x HI). split; [lia|]. rewrite <- Hx. f_equal. lia.
Qed.

Lemma peek_overflow_exact sz n sched (s : cstate) c head tail : (1 <= sz)%nat -> Z.of_nat sz < two32 -> (n <= sz)%nat ->
  crun bld (cinit sz n) sched = Some s -> Z.of_nat (length (started sched)) < two32 ->
  In (EvPeekOverflow c head tail) (c_events s) -> Z.of_nat sz < tail - head /\ tail <= published_tail (c_ring s).
Proof.
  intros HS HSB Hn E HB0 He. pose proof (nhist_started sz n sched s E HB0) as HB.
  destruct (Inv2_reachable bld sz n sched s HS HSB Hn E HB) as (HI & HT & HSl & HE).
  rewrite Forall_forall in HE. destruct (HE _ He) as (H1 & H2 & H3). split; [lia|exact H2].
Qed.

(** ** C18: progress *)
Lemma In_nth_pc (s : cstate) rt : In rt (inflights s) -> exists t x,
  nth_error (c_threads s) t = Some (EnqWrite rt x) \/ nth_error (c_threads s) t = Some (EnqPublish rt x).
Proof.
  intros H. apply in_flat_map_nth in H. destruct H as (t & p & Ht & Hp).
  destruct p; cbn in Hp; try contradiction; destruct Hp as [<-|[]]; eauto.
Qed.

Lemma publish_solo sz (s : cstate) t x : Inv sz s -> published s < reserved s ->
  nth_error (c_threads s) t = Some (EnqPublish (published s) x) ->
  exists s', crun bld s (solo t 1) = Some s' /\ c_events s' = c_events s ++ [EvEnqueued (published s) x].
Proof.
  intros HI HL Ht. pose proof (I_pub sz s HI) as HP. pose proof (I_res sz s HI) as HR. pose proof (I_bound sz s HI) as HB.
  cbn [solo repeat crun cstep]. rewrite Ht. cbn [thread_step]. unfold u32_add.
  rewrite checked_in by (rewrite two32_val in *; lia).
  fold (published s). rewrite Z.eqb_refl. cbn [negb andb]. eexists. split; [reflexivity|reflexivity].
Qed.

Lemma write_solo sz (s : cstate) t x : Inv sz s -> published s < reserved s ->
  nth_error (c_threads s) t = Some (EnqWrite (published s) x) ->
  exists s', crun bld s (solo t 2) = Some s' /\ c_events s' = c_events s ++ [EvEnqueued (published s) x].
Proof.
  intros HI HL Ht. pose proof (I_pub sz s HI) as HP. pose proof (I_res sz s HI) as HR. pose proof (I_bound sz s HI) as HB.
  cbn [solo repeat crun cstep]. rewrite Ht. cbn [thread_step set_pc set_ring c_threads].
  rewrite (nth_error_upd_same _ _ (EnqWrite (published s) x)) by exact Ht.
  cbn [thread_step]. unfold u32_add. rewrite checked_in by (rewrite two32_val in *; lia).
  cbn [set_pc set_ring c_ring store published_tail]. fold (published s). rewrite Z.eqb_refl. cbn [negb andb].
  eexists. split; [reflexivity|reflexivity].
Qed.

Lemma enqueue_progress sz n sched (s : cstate) t0 p0 : (1 <= sz)%nat -> Z.of_nat sz < two32 ->
  crun bld (cinit sz n) sched = Some s -> Z.of_nat (length (started sched)) < two32 ->
  nth_error (c_threads s) t0 = Some p0 -> enqueuing p0 = true ->
  exists t k s' pos x, (1 <= k <= 3)%nat /\ crun bld s (solo t k) = Some s' /\
    c_events s' = c_events s ++ [EvEnqueued pos x].
Proof.
  intros HS HSB E HB0 Ht0 Hp0. pose proof (nhist_started sz n sched s E HB0) as HB.
  pose proof (Inv_reachable bld sz n sched s HS HSB E HB) as HI.
  pose proof (I_pub sz s HI) as HP. pose proof (I_res sz s HI) as HR.
  destruct (Z.eq_dec (published s) (reserved s)) as [Q|Q].
  - (* nobody in flight: p0 is about to reserve *)
    assert (NI : inflights s = []).
    { pose proof (Permutation_length (I_perm sz s HI)) as P. rewrite zseq_length in P.
      destruct (inflights s) as [|a l]; [reflexivity|]. cbn in P. lia. }
    destruct p0 as [|x|rt x|rt x|c|c h|c h|c h|c|c h| |q]; try discriminate.
    + assert (LT : nhist s + 1 < two32 \/ True) by auto.
      pose proof (Permutation_length (started_init sz n sched s E)) as PL. rewrite app_length in PL.
      assert (P1 : (1 <= length (flat_map reserving (c_threads s)))%nat).
      { assert (IN : In x (flat_map reserving (c_threads s))).
        { apply in_flat_map_nth. exists t0, (EnqReserve x). split; [exact Ht0|left; reflexivity]. }
        destruct (flat_map reserving (c_threads s)); [contradiction|cbn; lia]. }
      exists t0, 3%nat. do 3 eexists. split; [lia|].
      cbn [solo repeat crun cstep]. rewrite Ht0. cbn [thread_step set_pc set_ring push_hist c_threads].
      rewrite (nth_error_upd_same _ _ (EnqReserve x)) by exact Ht0.
      cbn [thread_step set_pc set_ring c_threads].
      rewrite (nth_error_upd_same _ _ (EnqWrite (reserved_tail (c_ring s)) x))
        by (apply (nth_error_upd_same _ _ (EnqReserve x)); exact Ht0).
      cbn [thread_step]. unfold u32_add. fold (reserved s). unfold nhist in *.
      rewrite checked_in by (rewrite two32_val in *; lia).
      cbn [set_pc set_ring c_ring store published_tail]. fold (published s). rewrite Q, Z.eqb_refl. cbn [negb andb].
      split; [reflexivity|]. reflexivity.
    + exfalso. assert (IN : In rt (inflights s)) by (eapply in_inflights; [exact Ht0|left; reflexivity]).
      rewrite NI in IN. contradiction.
    + exfalso. assert (IN : In rt (inflights s)) by (eapply in_inflights; [exact Ht0|left; reflexivity]).
      rewrite NI in IN. contradiction.
  - assert (IN : In (published s) (inflights s)).
    { eapply Permutation_in; [apply Permutation_sym; apply (I_perm sz s HI)|]. apply in_zseq. lia. }
    apply In_nth_pc in IN. destruct IN as (t & x & [Ht|Ht]).
    + destruct (write_solo sz s t x HI ltac:(lia) Ht) as (s' & H1 & H2). exists t, 2%nat. do 3 eexists. split; [lia|eauto].
    + destruct (publish_solo sz s t x HI ltac:(lia) Ht) as (s' & H1 & H2). exists t, 1%nat. do 3 eexists. split; [lia|eauto].
Qed.

(** ** Consistency of the two models: a method run without interference *)
Lemma solo_enqueue (s : cstate) t x r' : nth_error (c_threads s) t = Some Idle ->
  enqueue bld (c_ring s) x = Val r' ->
  exists s', crun bld s (Start t (CEnqueue x) :: solo t 3) = Some s' /\
    c_ring s' = r' /\ c_heads s' = c_heads s /\ c_threads s' = c_threads s /\
    c_hist s' = c_hist s ++ [x] /\ c_starts s' = c_starts s /\ c_claims s' = c_claims s /\
    c_events s' = c_events s ++ [EvEnqueued (reserved_tail (c_ring s)) x].
Proof.
  intros Ht E. unfold enqueue in E. apply bind_val in E. destruct E as (nxt & E1 & E2).
  cbn [solo repeat crun cstep]. rewrite Ht. cbn [cop_ok first_pc crun cstep set_pc c_threads].
  rewrite (nth_error_upd_same _ _ Idle) by exact Ht.
  cbn [thread_step crun cstep set_pc set_ring push_hist c_threads c_ring].
  do 2 (rewrite nth_error_upd_eq by (rewrite ?upd_length; apply nth_error_Some; congruence);
        cbn [thread_step crun cstep set_pc set_ring push_hist c_threads c_ring]).
  rewrite E1. cbn [store reserved_tail published_tail slots overwritten] in *.
  destruct (published_tail (c_ring s) =? reserved_tail (c_ring s)) eqn:C.
  - injection E2 as <-. cbn [negb andb]. eexists. split; [reflexivity|].
    cbn [log set_pc set_ring push_hist c_ring c_heads c_threads c_hist c_starts c_claims c_events].
    repeat split.
    assert (UU : forall (a b c d : pc) l, upd t d (upd t c (upd t b (upd t a l))) = upd t d l).
    { intros a b c d. clear. induction t as [|t IH]; intros [|y l]; cbn; auto. f_equal. apply IH. }
    rewrite UU. apply upd_self. exact Ht.
  - destruct (_ >? _); discriminate.
Qed.

Lemma solo_dequeue (s : cstate) t c h h' d : nth_error (c_threads s) t = Some Idle ->
  nth_error (c_heads s) c = Some h -> dequeue bld (c_ring s) h = Val (h', d) ->
  exists k s', crun bld s (Start t (CDequeue c) :: solo t k) = Some s' /\
    c_ring s' = c_ring s /\ c_heads s' = upd c h' (c_heads s) /\ c_threads s' = c_threads s /\
    c_events s' = c_events s ++ [match d with DNone => EvNothing c | DSome o => EvElement c h o | DOverflow => EvOverflow c h end].
Proof.
  intros Ht Hh E. unfold dequeue in E.
  assert (UU : forall (a b : pc) l, upd t b (upd t a l) = upd t b l).
  { intros a b. clear. induction t as [|t IH]; intros [|y l]; cbn; auto. f_equal. apply IH. }
  assert (HT : forall p q, nth_error (upd t p (c_threads s)) t = Some q <-> p = q).
  { intros p q. rewrite (nth_error_upd_same _ _ Idle) by exact Ht. split; congruence. }
  assert (OK : cop_ok s (CDequeue c) = true).
  { cbn [cop_ok]. apply Nat.ltb_lt. apply nth_error_Some. congruence. }
  destruct (Z.gtb_spec h (published_tail (c_ring s))) as [G|G]; [discriminate|].
  destruct (Z.eqb_spec h (published_tail (c_ring s))) as [Q|Q].
  - injection E as <- <-. exists 2%nat.
    cbn [solo repeat crun cstep]. rewrite Ht, OK.
    cbn [first_pc crun cstep set_pc c_threads]. rewrite (proj2 (HT _ _) eq_refl).
    cbn [thread_step c_heads set_pc]. rewrite Hh. cbn [crun cstep set_pc c_threads]. rewrite ?UU, (proj2 (HT _ _) eq_refl).
    cbn [thread_step set_pc c_ring].
    destruct (Z.gtb_spec h (published_tail (c_ring s))); [lia|]. rewrite (proj2 (Z.eqb_eq _ _) Q).
    eexists. split; [reflexivity|]. cbn [log set_pc c_ring c_heads c_threads c_events]. repeat split.
    + symmetry. apply upd_self. exact Hh.
    + rewrite !UU. apply upd_self. exact Ht.
  - apply bind_val in E. destruct E as (h1 & E1 & E). apply bind_val in E. destruct E as (dd & E2 & E).
    exists 4%nat.
    cbn [solo repeat crun cstep]. rewrite Ht, OK.
    cbn [first_pc crun cstep set_pc c_threads]. rewrite (proj2 (HT _ _) eq_refl).
    cbn [thread_step c_heads set_pc]. rewrite Hh. cbn [crun cstep set_pc c_threads]. rewrite ?UU, (proj2 (HT _ _) eq_refl).
    cbn [thread_step set_pc c_ring].
    destruct (Z.gtb_spec h (published_tail (c_ring s))); [lia|]. rewrite (proj2 (Z.eqb_neq _ _) Q).
    cbn [crun cstep set_pc c_threads]. rewrite ?UU, (proj2 (HT _ _) eq_refl).
    cbn [thread_step set_pc c_heads]. rewrite Hh, E1, Z.eqb_refl. cbn [negb andb].
    cbn [crun cstep set_pc claim c_threads]. rewrite ?UU, (proj2 (HT _ _) eq_refl).
    cbn [thread_step set_pc claim c_ring]. rewrite E2.
    destruct (dd >? wrap32 (size (c_ring s))).
    + injection E as <- <-. eexists. split; [reflexivity|].
      cbn [log set_pc claim c_ring c_heads c_threads c_events]. repeat split. rewrite !UU. apply upd_self. exact Ht.
    + destruct (nth_error (slots (c_ring s)) (slot_index (c_ring s) h)) as [o|]; try discriminate.
      injection E as <- <-. eexists. split; [reflexivity|].
      cbn [log set_pc claim c_ring c_heads c_threads c_events]. repeat split. rewrite !UU. apply upd_self. exact Ht.
Qed.
End Conc3.
