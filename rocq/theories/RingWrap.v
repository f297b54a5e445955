(** * Ring buffer: recovery after overflow, the 2^32 wrap-around, refutation witnesses. *)
From Coq Require Import List ZArith Lia Bool Arith Permutation.
From Coq Require Import ZifyBool ZifyNat ZifyN.
From Verif Require Import Machine Ring RingSpec RingSeq RingConc RingConc2 RingConc3.
Import ListNotations.
Open Scope nat_scope.

Lemma upd_upd {X} i (a b : X) l : upd i b (upd i a l) = upd i b l.
Proof. revert l; induction i as [|i IH]; intros [|y l]; cbn; auto. f_equal. apply IH. Qed.

Section Api.
Context {A : Type}.

Lemma rrun_app b (s : rstate A) p q : rrun b s (p ++ q) =
  (so <- rrun b s p ;; so' <- rrun b (fst so) q ;; Val (fst so', snd so ++ snd so')).
Proof.
  revert s; induction p as [|op p IH]; intros s; cbn [app rrun].
  - cbn [bind fst snd app]. destruct (rrun b s q) as [[s' os]| |]; reflexivity.
  - destruct (rstep b s op) as [[s1 o]| |]; cbn [bind fst snd]; auto. rewrite IH.
    destruct (rrun b s1 p) as [[s2 os]| |]; cbn [bind fst snd]; auto.
    destruct (rrun b s2 q) as [[s3 os']| |]; reflexivity.
Qed.

Lemma srun_app sz (a : sstate A) p q : srun sz a (p ++ q) =
  (fst (srun sz (fst (srun sz a p)) q), snd (srun sz a p) ++ snd (srun sz (fst (srun sz a p)) q)).
Proof.
  revert a; induction p as [|op p IH]; intros a; cbn [app srun].
  - cbn [fst snd app]. apply surjective_pairing.
  - destruct (sstep sz a op) as [a1 o]. rewrite IH.
    destruct (srun sz a1 p) as [a2 os]. cbn [fst snd]. destruct (srun sz a2 q) as [a3 os']. reflexivity.
Qed.

Lemma rrun_app_refines b sz pre : 1 <= sz -> (Z.of_nat sz < two32)%Z ->
  (Z.of_nat (length (enqueued pre)) < two32)%Z ->
  exists s, rrun b (rinit sz) pre = Val (s, snd (srun sz (sinit : sstate A) pre)) /\ rel sz s (fst (srun sz sinit pre)).
Proof.
  intros H1 H2 H3. apply rrun_refines; auto; apply rel_init.
Qed.

Lemma sstep_heads_len sz (a : sstate A) op :
  length (s_heads (fst (sstep sz a op))) = length (s_heads a) + consumers [op].
Proof.
  destruct op as [x| |c|c]; cbn; try lia.
  - rewrite app_length. reflexivity.
  - destruct (nth_error _ _) as [h|]; [|cbn; lia]. destruct (pending a h); cbn [fst s_heads]; rewrite ?upd_length; lia.
  - destruct (nth_error _ _); cbn; lia.
Qed.

Lemma srun_heads_len sz (a : sstate A) ops :
  length (s_heads (fst (srun sz a ops))) = length (s_heads a) + consumers ops.
Proof.
  revert a; induction ops as [|op ops IH]; intros a; cbn [srun].
  - cbn. lia.
  - pose proof (sstep_heads_len sz a op) as H1. destruct (sstep sz a op) as [a1 o1]. cbn [fst] in H1.
    specialize (IH a1). destruct (srun sz a1 ops) as [a2 os]. cbn [fst] in *. rewrite IH, H1.
    unfold consumers. cbn [filter]. destruct op; cbn [length]; lia.
Qed.

Lemma srun_outs_len sz (a : sstate A) ops : length (snd (srun sz a ops)) = length ops.
Proof.
  revert a; induction ops as [|op ops IH]; intros a; cbn [srun]; [reflexivity|].
  destruct (sstep sz a op) as [a1 o1]. specialize (IH a1). destruct (srun sz a1 ops). cbn [snd length] in *. lia.
Qed.

Lemma srun_enqueues sz (a : sstate A) xs : srun sz a (map Enqueue xs) =
  (SState (s_hist a ++ xs) (s_heads a), repeat REnqueued (length xs)).
Proof.
  revert a; induction xs as [|x xs IH]; intros a; cbn [map srun sstep].
  - rewrite app_nil_r. destruct a; reflexivity.
  - rewrite IH. cbn [s_hist s_heads length repeat]. rewrite <- app_assoc. reflexivity.
Qed.

(** [k] dequeues while more than [sz] elements stay pending all fail *)
Lemma srun_dequeues_overflow sz (a : sstate A) c h k : nth_error (s_heads a) c = Some h ->
  h + k + sz <= length (s_hist a) -> (1 <= sz) ->
  srun sz a (repeat (Dequeue c) k) = (SState (s_hist a) (upd c (h + k) (s_heads a)), repeat ROverflow k).
Proof.
  revert a h; induction k as [|k IH]; intros a h Hc Hl HS; cbn [repeat srun].
  - rewrite Nat.add_0_r, upd_self by exact Hc. destruct a; reflexivity.
  - cbn [sstep]. rewrite Hc. unfold pending.
    assert (LL : length (skipn h (s_hist a)) = length (s_hist a) - h) by apply skipn_length.
    destruct (skipn h (s_hist a)) as [|x rest] eqn:SK; [cbn in LL; lia|].
    rewrite (proj2 (Nat.ltb_lt _ _)) by lia.
    rewrite (IH (SState (s_hist a) (upd c (S h) (s_heads a))) (S h)).
    + cbn [s_hist s_heads]. replace (S h + k) with (h + S k) by lia. rewrite upd_upd. reflexivity.
    + cbn [s_heads]. apply nth_error_upd_eq. apply nth_error_Some. congruence.
    + cbn [s_hist]. lia.
    + exact HS.
Qed.

(** C13 *)
Lemma overflow_recovers_api b sz (pre : list (rop A)) xs k x : 1 <= sz -> (Z.of_nat sz < two32)%Z ->
  (Z.of_nat (length (enqueued pre) + length xs) < two32)%Z ->
  length xs = k + sz -> nth_error xs k = Some x ->
  exists s outs, length outs = length pre /\
    rrun b (rinit sz) (pre ++ NewConsumer :: map Enqueue xs ++ repeat (Dequeue (consumers pre)) (S k)) =
    Val (s, outs ++ RConsumer (consumers pre) :: repeat REnqueued (length xs) ++ repeat ROverflow k ++ [RElement (Some x)]).
Proof.
  intros HS HSB HB Hl Hx.
  set (ops := pre ++ NewConsumer :: map Enqueue xs ++ repeat (Dequeue (consumers pre)) (S k)).
  assert (EQ : length (enqueued ops) = length (enqueued pre) + length xs).
  { unfold ops, enqueued. rewrite flat_map_app, app_length. f_equal. cbn [flat_map app].
    rewrite flat_map_app, app_length.
    assert (E1 : forall l : list A, length (flat_map (fun op => match op with Enqueue x => [x] | _ => [] end) (map Enqueue l)) = length l).
    { induction l as [|y l IH]; cbn; auto. }
    assert (E2 : forall n c, flat_map (fun op => match op with Enqueue x => [x] | _ => [] end) (repeat (Dequeue c : rop A) n) = []).
    { induction n as [|n IH]; intros c; cbn; auto. }
    rewrite E1, E2. cbn. lia. }
  destruct (rrun_app_refines b sz ops HS HSB) as (s & E & _); [lia|].
  exists s, (snd (srun sz (sinit : sstate A) pre)). split; [apply srun_outs_len|]. rewrite E. do 2 f_equal.
  unfold ops. rewrite srun_app. cbn [snd]. f_equal.
  set (a := fst (srun sz (sinit : sstate A) pre)).
  assert (HH : length (s_heads a) = consumers pre) by (unfold a; rewrite srun_heads_len; reflexivity).
  cbn [srun sstep]. rewrite HH, srun_app, srun_enqueues. cbn [fst snd s_hist s_heads].
  replace (S k) with (k + 1) by lia. rewrite repeat_app, srun_app.
  set (a2 := SState (s_hist a ++ xs) (s_heads a ++ [length (s_hist a)])).
  assert (HC : nth_error (s_heads a2) (consumers pre) = Some (length (s_hist a))).
  { unfold a2. cbn [s_heads]. rewrite nth_error_app2, HH, Nat.sub_diag by lia. reflexivity. }
  rewrite (srun_dequeues_overflow sz a2 (consumers pre) (length (s_hist a)) k HC); [|unfold a2; cbn [s_hist]; rewrite app_length; lia|exact HS].
  cbn [fst snd s_hist s_heads]. do 3 f_equal.
  cbn [repeat srun sstep]. cbn [s_heads].
  rewrite nth_error_upd_eq by (apply nth_error_Some; congruence).
  unfold pending. cbn [s_hist]. unfold a2. cbn [s_hist].
  assert (LL : length (skipn (length (s_hist a) + k) (s_hist a ++ xs)) = sz) by (rewrite skipn_length, app_length; lia).
  assert (NN : nth_error (skipn (length (s_hist a) + k) (s_hist a ++ xs)) 0 = Some x).
  { rewrite nth_error_skipn, nth_error_app2 by lia. rewrite <- Hx. f_equal. lia. }
  destruct (skipn (length (s_hist a) + k) (s_hist a ++ xs)) as [|y rest]; [discriminate|].
  cbn [nth_error] in NN. injection NN as ->. rewrite (proj2 (Nat.ltb_ge _ _)) by lia. reflexivity.
Qed.

(** C19, sequential *)
Lemma wrap_debug_api sz (ops : list (rop A)) x : 1 <= sz -> (Z.of_nat sz < two32)%Z ->
  Z.of_nat (length (enqueued ops)) = (two32 - 1)%Z ->
  rrun Debug (rinit sz) (ops ++ [Enqueue x]) = Panic POverflow.
Proof.
  intros HS HSB HL. destruct (rrun_app_refines Debug sz ops HS HSB) as (s & E & R); [lia|].
  rewrite rrun_app, E. cbn [bind fst rrun rstep].
  assert (HH : s_hist (fst (srun sz (sinit : sstate A) ops)) = enqueued ops) by (rewrite srun_hist; reflexivity).
  destruct R as (R & _). rewrite HH in R.
  rewrite (wrap_debug sz (enqueued ops) (rb s) x R HL). reflexivity.
Qed.

Lemma wrap_release_api sz (ops : list (rop A)) x : 1 <= sz -> (Z.of_nat sz < two32)%Z ->
  Z.of_nat (length (enqueued ops)) = (two32 - 1)%Z ->
  exists s outs, rrun Release (rinit sz) (ops ++ [Enqueue x]) = Val (s, outs ++ [REnqueued]) /\
    outs = snd (srun sz (sinit : sstate A) ops) /\
    forall c h, nth_error (s_heads (fst (srun sz (sinit : sstate A) ops))) c = Some h ->
      (0 < h -> rrun Release (rinit sz) (ops ++ [Enqueue x; Dequeue c]) = Spin) /\
      (h = 0 -> exists s', rrun Release (rinit sz) (ops ++ [Enqueue x; Dequeue c]) =
                Val (s', outs ++ [REnqueued; RNothing])).
Proof.
  intros HS HSB HL. destruct (rrun_app_refines Release sz ops HS HSB) as (s & E & R); [lia|].
  assert (HH : s_hist (fst (srun sz (sinit : sstate A) ops)) = enqueued ops) by (rewrite srun_hist; reflexivity).
  destruct R as (R & RH & _). rewrite HH in R.
  destruct (wrap_release sz (enqueued ops) (rb s) x R HL) as (r' & Er & W1 & W2 & W3 & W4).
  exists (RState r' (heads s)), (snd (srun sz (sinit : sstate A) ops)).
  split; [|split; [reflexivity|]].
  - rewrite rrun_app, E. cbn [bind fst snd rrun rstep]. rewrite Er. reflexivity.
  - intros c h Hc.
    assert (HC : nth_error (heads s) c = Some (Z.of_nat h)) by (rewrite RH, nth_error_map, Hc; reflexivity).
    split.
    + intros Hh. rewrite rrun_app, E. cbn [bind fst snd rrun rstep]. rewrite Er. cbn [bind fst snd heads rb].
      rewrite HC, (W3 (Z.of_nat h)) by lia. reflexivity.
    + intros ->. rewrite rrun_app, E. cbn [bind fst snd rrun rstep]. rewrite Er. cbn [bind fst snd heads rb].
      rewrite HC. cbn [Z.of_nat]. rewrite W4. cbn [bind fst snd]. eexists. reflexivity.
Qed.
End Api.

Section Conc.
Context {A : Type}.
Open Scope Z_scope.

(** a reachable quiescent state after any number [k < 2^32] of enqueues *)
Lemma reach_quiescent b sz n (x : A) k : (1 <= sz)%nat -> (1 <= n)%nat -> Z.of_nat k < two32 ->
  exists sched s, crun b (cinit sz n) sched = Some s /\ c_threads s = repeat Idle n /\
    reserved_tail (c_ring s) = Z.of_nat k /\ published_tail (c_ring s) = Z.of_nat k /\
    length (slots (c_ring s)) = sz /\ started sched = repeat x k /\ c_events s = map (fun i => EvEnqueued i x) (zseq 0 k).
Proof.
  intros HS Hn. induction k as [|k IH]; intros Hk.
  - exists [], (cinit sz n). repeat split. cbn. apply repeat_length.
  - destruct IH as (sched & s & E & HT & HR & HP & HL & HS' & HE); [lia|].
    assert (Ht : nth_error (c_threads s) 0 = Some Idle) by (rewrite HT; destruct n; [lia|reflexivity]).
    assert (EE : exists r', enqueue b (c_ring s) x = Val r' /\ reserved_tail r' = Z.of_nat (S k) /\
              published_tail r' = Z.of_nat (S k) /\ length (slots r') = sz).
    { unfold enqueue. rewrite HR. unfold u32_add. rewrite checked_in by (rewrite two32_val in *; lia).
      cbn [bind published_tail store]. rewrite HP, Z.eqb_refl. eexists. split; [reflexivity|].
      cbn [reserved_tail published_tail slots store]. rewrite upd_length. unfold wrap32.
      rewrite Z.mod_small by (rewrite two32_val in *; lia). repeat split; try lia; exact HL. }
    destruct EE as (r' & Er & R1 & R2 & R3).
    destruct (solo_enqueue b s 0 x r' Ht Er) as (s' & Es & Q1 & Q2 & Q3 & Q4 & _ & _ & Q5).
    exists (sched ++ Start 0 (CEnqueue x) :: solo 0 3), s'. split; [apply crun_app; eauto|].
    rewrite Q3, Q1. repeat split; auto.
    + unfold started in *. rewrite flat_map_app, HS'. cbn [flat_map start1 solo repeat app].
      replace (x :: repeat x k) with (repeat x (1 + k)) by reflexivity.
      rewrite Nat.add_comm, repeat_app. reflexivity.
    + rewrite Q5, HE, HR. rewrite zseq_snoc, map_app. reflexivity.
Qed.

(** C19, concurrent: two enqueues at the wrap make one of them panic with BUG *)
Lemma wrap_bug_from (s : cstate A) x : c_threads s = [Idle; Idle] ->
  reserved_tail (c_ring s) = two32 - 1 -> published_tail (c_ring s) = two32 - 1 ->
  exists s', crun Release s
      [Start 0 (CEnqueue x); Start 1 (CEnqueue x); Step 0 false; Step 1 false; Step 1 false; Step 1 false] = Some s' /\
    nth_error (c_threads s') 1 = Some (Panicked PBugLoop).
Proof.
  destruct s as [[rt pt sl ov] hd th hi st cl ev].
  cbn [c_threads c_ring reserved_tail published_tail]. intros -> -> ->.
  match goal with |- exists s', ?c = Some s' /\ _ =>
    let v := eval vm_compute in c in
    match v with Some ?s => exists s; split; [vm_cast_no_check (eq_refl v)|vm_compute; reflexivity] end
  end.
Qed.

Lemma wrap_bug_panic sz (x : A) k : (1 <= sz)%nat -> Z.of_nat k = two32 - 1 ->
  exists sched (s : cstate A), crun Release (cinit sz 2) sched = Some s /\
    started sched = repeat x (k + 2) /\
    nth_error (c_threads s) 1 = Some (Panicked PBugLoop).
Proof.
  intros HS Hk. destruct (reach_quiescent Release sz 2 x k HS ltac:(lia)) as
    (sched & s & E & HT & HR & HP & HL & HS' & _); [lia|].
  rewrite Hk in HR, HP. destruct (wrap_bug_from s x HT HR HP) as (s' & E1 & E2).
  eexists. exists s'. split; [apply crun_app; eauto|]. split; [|exact E2].
  unfold started in *. rewrite flat_map_app, HS', repeat_app. reflexivity.
Qed.

(** Enqueue is blocking: while the producer of an earlier position is stalled,
    a later one spins for as many steps as it is given. *)
Lemma enqueue_blocks b (x y : A) : exists sched (s : cstate A),
  crun b (cinit 4 2) sched = Some s /\ forall k, crun b s (solo 1 k) = Some s /\ c_events s = [].
Proof.
  exists [Start 0 (CEnqueue x); Step 0 false; Start 1 (CEnqueue y); Step 1 false; Step 1 false].
  destruct b;
  match goal with |- exists s', ?c = Some s' /\ _ =>
    let v := eval vm_compute in c in
    match v with Some ?s => exists s; split; [vm_cast_no_check (eq_refl v)|] end
  end; (intros k; split; [|reflexivity]); induction k as [|k IH]; try reflexivity;
  cbn [solo repeat crun]; unfold solo in IH;
  match goal with |- match cstep ?b ?s ?a with _ => _ end = _ =>
    assert (Q : cstep b s a = Some s) by (vm_compute; reflexivity); rewrite Q; exact IH end.
Qed.

(** Dequeue on its own always returns *)
Lemma returns_cons b (s : cstate A) t k s1 : cstep b s (Step t false) = Some s1 -> c_events s1 = c_events s ->
  returns_from b s1 t k -> returns_from b s t (S k).
Proof.
  intros E Ev (s' & e & H1 & H2 & H3). exists s', e. cbn [solo repeat crun]. rewrite E.
  split; [exact H1|]. split; [rewrite H2, Ev; reflexivity|exact H3].
Qed.

Lemma ret_check b sz (s : cstate A) t c h : (1 <= sz)%nat -> Z.of_nat sz < two32 -> Inv sz s ->
  nth_error (c_threads s) t = Some (DeqCheck c h) -> returns_from b s t 1.
Proof.
  intros HS HSB HI Ht. destruct (I_pcs sz s HI t _ Ht) as (st & cur & Hc & Hh).
  destruct (I_cpos sz s c st cur HI Hc) as (K1 & K2 & _).
  pose proof (I_pub sz s HI). pose proof (I_res sz s HI). pose proof (I_bound sz s HI). pose proof (I_len sz s HI) as HL.
  unfold returns_from. cbn [solo repeat crun cstep]. rewrite Ht. cbn [thread_step].
  unfold u32_sub. rewrite checked_in by (unfold published, reserved, nhist in *; rewrite two32_val in *; lia).
  destruct (_ >? _).
  - do 2 eexists. split; [reflexivity|]. split; [reflexivity|]. cbn.
    apply (nth_error_upd_same _ _ (DeqCheck c h)). exact Ht.
  - destruct (nth_error (slots (c_ring s)) (slot_index (c_ring s) h)) as [o|] eqn:N.
    + do 2 eexists. split; [reflexivity|]. split; [reflexivity|]. cbn.
      apply (nth_error_upd_same _ _ (DeqCheck c h)). exact Ht.
    + exfalso. apply nth_error_None in N. unfold slot_index, size in N. rewrite HL in N.
      pose proof (Z.mod_pos_bound h (Z.of_nat sz) ltac:(lia)). lia.
Qed.

Lemma step_inv b sz (s : cstate A) t s1 : (1 <= sz)%nat -> Z.of_nat sz < two32 -> Inv sz s ->
  cstep b s (Step t false) = Some s1 -> c_hist s1 = c_hist s -> Inv sz s1.
Proof.
  intros HS HSB HI E Hh. eapply Inv_step; eauto. unfold nhist. rewrite Hh. apply (I_bound sz s HI).
Qed.

Lemma ret_cas_fresh b sz (s : cstate A) t c h : (1 <= sz)%nat -> Z.of_nat sz < two32 -> Inv sz s ->
  nth_error (c_threads s) t = Some (DeqCas c h) -> nth_error (c_heads s) c = Some h -> returns_from b s t 2.
Proof.
  intros HS HSB HI Ht Hc. destruct (I_pcs sz s HI t _ Ht) as (st & cur & Hcp & Hh & Hp).
  pose proof (I_pub sz s HI). pose proof (I_res sz s HI). pose proof (I_bound sz s HI).
  destruct (I_cpos sz s c st cur HI Hcp) as (K1 & K2 & _).
  assert (E : cstep b s (Step t false) = Some (set_pc (claim s c h (h + 1)) t (DeqCheck c h))).
  { cbn [cstep]. rewrite Ht. cbn [thread_step]. rewrite Hc. unfold u32_add.
    rewrite checked_in by (unfold published, reserved, nhist in *; rewrite two32_val in *; lia).
    rewrite Z.eqb_refl. reflexivity. }
  eapply returns_cons; [exact E|reflexivity|]. eapply (ret_check b sz _ t c h); auto.
  - eapply step_inv; eauto.
  - cbn. apply (nth_error_upd_same _ _ (DeqCas c h)). exact Ht.
Qed.

Lemma ret_tail_fresh b sz (s : cstate A) t c h : (1 <= sz)%nat -> Z.of_nat sz < two32 -> Inv sz s ->
  nth_error (c_threads s) t = Some (DeqLoadTail c h) -> nth_error (c_heads s) c = Some h ->
  returns_from b s t 1 \/ returns_from b s t 3.
Proof.
  intros HS HSB HI Ht Hc. destruct (I_pcs sz s HI t _ Ht) as (st & cur & Hcp & Hh).
  destruct (I_cpos sz s c st cur HI Hcp) as (K1 & K2 & _).
  destruct (Z.eq_dec h (published_tail (c_ring s))) as [Q|Q].
  - left. unfold returns_from. cbn [solo repeat crun cstep]. rewrite Ht. cbn [thread_step].
    destruct (Z.gtb_spec h (published_tail (c_ring s))); [lia|]. rewrite (proj2 (Z.eqb_eq _ _) Q).
    do 2 eexists. split; [reflexivity|]. split; [reflexivity|]. cbn.
    apply (nth_error_upd_same _ _ (DeqLoadTail c h)). exact Ht.
  - right. assert (E : cstep b s (Step t false) = Some (set_pc s t (DeqCas c h))).
    { cbn [cstep]. rewrite Ht. cbn [thread_step]. unfold published in *.
      destruct (Z.gtb_spec h (published_tail (c_ring s))); [lia|]. rewrite (proj2 (Z.eqb_neq _ _) Q). reflexivity. }
    eapply returns_cons; [exact E|reflexivity|]. eapply (ret_cas_fresh b sz _ t c h); auto.
    + eapply step_inv; eauto.
    + cbn. apply (nth_error_upd_same _ _ (DeqLoadTail c h)). exact Ht.
Qed.

Lemma ret_cas b sz (s : cstate A) t c h : (1 <= sz)%nat -> Z.of_nat sz < two32 -> Inv sz s ->
  nth_error (c_threads s) t = Some (DeqCas c h) ->
  exists k, (1 <= k <= 4)%nat /\ returns_from b s t k.
Proof.
  intros HS HSB HI Ht. destruct (I_pcs sz s HI t _ Ht) as (st & cur & [Hs Hc] & Hh & Hp).
  destruct (I_cpos sz s c st cur HI (conj Hs Hc)) as (K1 & K2 & _).
  pose proof (I_pub sz s HI). pose proof (I_res sz s HI). pose proof (I_bound sz s HI).
  destruct (Z.eq_dec cur h) as [->|N].
  { exists 2%nat. split; [lia|]. eapply ret_cas_fresh; eauto. }
  assert (E : cstep b s (Step t false) = Some (set_pc s t (DeqLoadTail c cur))).
  { cbn [cstep]. rewrite Ht. cbn [thread_step]. rewrite Hc. unfold u32_add.
    rewrite checked_in by (unfold published, reserved, nhist in *; rewrite two32_val in *; lia).
    rewrite (proj2 (Z.eqb_neq _ _) N). reflexivity. }
  destruct (ret_tail_fresh b sz (set_pc s t (DeqLoadTail c cur)) t c cur) as [R|R]; auto.
  - eapply step_inv; eauto.
  - cbn. apply (nth_error_upd_same _ _ (DeqCas c h)). exact Ht.
  - exists 2%nat. split; [lia|]. eapply returns_cons; eauto.
  - exists 4%nat. split; [lia|]. eapply returns_cons; eauto.
Qed.

Lemma dequeue_obstruction_free b sz n sched (s : cstate A) t p : (1 <= sz)%nat -> Z.of_nat sz < two32 ->
  crun b (cinit sz n) sched = Some s -> Z.of_nat (length (started sched)) < two32 ->
  nth_error (c_threads s) t = Some p -> dequeuing p = true ->
  exists k, (1 <= k <= 5)%nat /\ returns_from b s t k.
Proof.
  intros HS HSB E0 HB0 Ht Hp. pose proof (nhist_started b sz n sched s E0 HB0) as HB.
  pose proof (Inv_reachable b sz n sched s HS HSB E0 HB) as HI.
  destruct p as [|x|rt x|rt x|c|c h|c h|c h|c|c h| |q]; try discriminate.
  - destruct (I_pcs sz s HI t _ Ht) as (st & cur & [Hs Hc]).
    assert (E : cstep b s (Step t false) = Some (set_pc s t (DeqLoadTail c cur))).
    { cbn [cstep]. rewrite Ht. cbn [thread_step]. rewrite Hc. reflexivity. }
    destruct (ret_tail_fresh b sz (set_pc s t (DeqLoadTail c cur)) t c cur) as [R|R]; auto.
    + eapply step_inv; eauto.
    + cbn. apply (nth_error_upd_same _ _ (DeqLoadHead c)). exact Ht.
    + exists 2%nat. split; [lia|]. eapply returns_cons; eauto.
    + exists 4%nat. split; [lia|]. eapply returns_cons; eauto.
  - destruct (I_pcs sz s HI t _ Ht) as (st & cur & Hcp & Hh).
    destruct (I_cpos sz s c st cur HI Hcp) as (K1 & K2 & _).
    destruct (Z.eq_dec h (published_tail (c_ring s))) as [Q|Q].
    + exists 1%nat. split; [lia|]. unfold returns_from. cbn [solo repeat crun cstep]. rewrite Ht. cbn [thread_step].
      destruct (Z.gtb_spec h (published_tail (c_ring s))); [lia|]. rewrite (proj2 (Z.eqb_eq _ _) Q).
      do 2 eexists. split; [reflexivity|]. split; [reflexivity|]. cbn.
      apply (nth_error_upd_same _ _ (DeqLoadTail c h)). exact Ht.
    + assert (E : cstep b s (Step t false) = Some (set_pc s t (DeqCas c h))).
      { cbn [cstep]. rewrite Ht. cbn [thread_step]. unfold published in *.
        destruct (Z.gtb_spec h (published_tail (c_ring s))); [lia|]. rewrite (proj2 (Z.eqb_neq _ _) Q). reflexivity. }
      destruct (ret_cas b sz (set_pc s t (DeqCas c h)) t c h) as (k & Hk & R); auto.
      * eapply step_inv; eauto.
      * cbn. apply (nth_error_upd_same _ _ (DeqLoadTail c h)). exact Ht.
      * exists (S k). split; [lia|]. eapply returns_cons; eauto.
  - destruct (ret_cas b sz s t c h) as (k & Hk & R); auto. exists k. split; [lia|exact R].
  - exists 1%nat. split; [lia|]. eapply ret_check; eauto.
Qed.
End Conc.
