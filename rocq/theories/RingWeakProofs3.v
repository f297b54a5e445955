(** * Relaxed memory: whole executions, views along happens-before, slots. *)
From Coq Require Import List ZArith Lia Bool Arith Permutation.
From Coq Require Import ZifyBool ZifyNat ZifyN.
From Verif Require Import Machine Ring RingSpec RingSeq RingConc RingConc2 RingConc3 RingWeak RingWeakSpec RingWeakProofs RingWeakProofs2.
Import ListNotations.
Open Scope Z_scope.

Ltac split_step E :=
  repeat match type of E with
  | match ?x with _ => _ end = _ => let Q := fresh "Q" in destruct x eqn:Q; try discriminate
  | (if ?x then _ else _) = _ => let Q := fresh "Q" in destruct x eqn:Q; try discriminate
  end.

Section Weak3.
Context {A : Type}.
Variable bld : build.
Notation wstate := (wstate A).
Notation waction := (waction A).
Notation cstate := (cstate A).
Notation pc := (pc A).

(** ** Prefixes *)
Lemma wrun_app (s : wstate) a b : wrun bld s (a ++ b) = match wrun bld s a with Some m => wrun bld m b | None => None end.
Proof.
  revert s; induction a as [|x a IH]; intros s; cbn [app wrun]; [reflexivity|].
  destruct (wstep bld s x); [apply IH|reflexivity].
Qed.

Lemma firstn_S {X} (l : list X) i x : nth_error l i = Some x -> firstn (S i) l = firstn i l ++ [x].
Proof.
  revert i; induction l as [|y l IH]; intros [|i] H; cbn in H; try discriminate.
  - injection H as ->. reflexivity.
  - rewrite (firstn_cons (S i) y l), (IH i H). reflexivity.
Qed.

Definition at_ (sz n : nat) (sched : list waction) (i : nat) : option wstate := wrun bld (winit sz n) (firstn i sched).

Lemma at_S sz n sched i a s s' : nth_error sched i = Some a -> at_ sz n sched i = Some s -> at_ sz n sched (S i) = Some s' ->
  wstep bld s a = Some s'.
Proof.
  unfold at_. intros Ha H H'. rewrite (firstn_S _ _ _ Ha), wrun_app, H in H'. cbn [wrun] in H'.
  destruct (wstep bld s a); [exact H'|discriminate].
Qed.

Lemma at_prev sz n sched i s' : at_ sz n sched (S i) = Some s' -> exists s, at_ sz n sched i = Some s.
Proof.
  unfold at_. intros H. destruct (nth_error sched i) as [a|] eqn:Ha.
  - rewrite (firstn_S _ _ _ Ha), wrun_app in H. destruct (wrun bld (winit sz n) (firstn i sched)); [eauto|discriminate].
  - apply nth_error_None in Ha. rewrite firstn_all2 in * by lia. eauto.
Qed.

Lemma at_le sz n sched i j s' : (i <= j)%nat -> at_ sz n sched j = Some s' -> exists s, at_ sz n sched i = Some s.
Proof.
  intros L. revert s'. induction L as [|j L IH]; intros s' H; [eauto|].
  destruct (at_prev _ _ _ _ _ H) as (s1 & H1). eauto.
Qed.

(** an invariant of steps holds along an execution *)
Lemma wrun_ind (P : wstate -> Prop) sched : (forall s a s', P s -> wstep bld s a = Some s' -> P s') ->
  forall s s', P s -> wrun bld s sched = Some s' -> P s'.
Proof.
  intros HS. induction sched as [|a rest IH]; intros s s' HP E; cbn [wrun] in E.
  - injection E as <-. exact HP.
  - destruct (wstep bld s a) as [s1|] eqn:E1; [|discriminate]. eapply (IH s1); [|exact E]. eapply HS; eauto.
Qed.

(** ** Started elements *)
Lemma wstarted_step (s : wstate) a s' : wstep bld s a = Some s' ->
  Permutation (w_hist s' ++ flat_map reserving (w_threads s'))
              ((w_hist s ++ flat_map reserving (w_threads s)) ++ wstart1 a).
Proof.
  intros E. destruct a as [t op|t fails picks|t|t k]; cbn [wstep] in E.
  - destruct (nth_error (w_threads s) t) as [[]|] eqn:Ht; try discriminate.
    destruct (wop_ok _ _ _); try discriminate. injection E as <-.
    cbn [goto w_hist w_threads wstart1]. rewrite <- app_assoc. apply Permutation_app_head.
    pose proof (flat_map_upd reserving t Idle (first_pc op) (w_threads s) Ht) as P.
    cbn [reserving] in P. rewrite app_nil_r in P. rewrite P. apply Permutation_app_head.
    destruct op; reflexivity.
  - destruct (nth_error (w_threads s) t) as [p|] eqn:Ht; try discriminate.
    cbn [wstart1]. rewrite app_nil_r.
    destruct p as [|x|rt x|rt x|c|c h|c h|c h|c|c h| |q]; cbn [wthread_step] in E; try discriminate;
    try (split_step E; injection E as <-; cbn [race wlog goto lose w_hist w_threads];
    try reflexivity; rewrite (flat_map_upd_same reserving t _ _ _ Ht) by reflexivity; reflexivity).
    destruct (newest (w_res s)) as [m|]; try discriminate.
    injection E as <-. cbn [goto w_hist w_threads].
    pose proof (flat_map_upd reserving t (EnqReserve x) (EnqWrite (m_val m) x) (w_threads s) Ht) as P.
    cbn [reserving] in P. rewrite app_nil_r in P. rewrite <- app_assoc. apply Permutation_app_head.
    rewrite <- P. apply Permutation_app_comm.
  - destruct (nth_error (w_threads s) t) as [[]|]; try discriminate. injection E as <-. cbn. rewrite app_nil_r. reflexivity.
  - destruct (nth_error (w_threads s) t) as [[]|] eqn:Ht; try discriminate.
    destruct (nth_error (w_sent s) k); try discriminate. injection E as <-. cbn [goto w_hist w_threads wstart1].
    rewrite upd_self by exact Ht. rewrite app_nil_r. reflexivity.
Qed.

Lemma wstarted_run sched : forall (s s' : wstate), wrun bld s sched = Some s' ->
  Permutation (w_hist s' ++ flat_map reserving (w_threads s'))
              ((w_hist s ++ flat_map reserving (w_threads s)) ++ wstarted sched).
Proof.
  induction sched as [|a rest IH]; intros s s' E; cbn [wrun] in E.
  - injection E as <-. cbn. rewrite app_nil_r. reflexivity.
  - destruct (wstep bld s a) as [s1|] eqn:E1; try discriminate.
    rewrite (IH s1 s' E), (wstarted_step s a s1 E1). unfold wstarted. cbn [flat_map]. rewrite <- !app_assoc. reflexivity.
Qed.

Lemma wstarted_init sz n sched (s : wstate) : wrun bld (winit sz n) sched = Some s ->
  Permutation (w_hist s ++ flat_map reserving (w_threads s)) (wstarted sched).
Proof.
  intros E. rewrite (wstarted_run sched _ _ E). cbn [winit w_hist w_threads app].
  rewrite flat_map_repeat_nil by reflexivity. reflexivity.
Qed.

Lemma whist_started sz n sched (s : wstate) : wrun bld (winit sz n) sched = Some s ->
  Z.of_nat (length (wstarted sched)) < two32 -> Z.of_nat (length (w_hist s)) < two32.
Proof.
  intros E H. pose proof (Permutation_length (wstarted_init sz n sched s E)) as P. rewrite app_length in P. lia.
Qed.

Lemma wstarted_prefix i (sched : list waction) : (length (wstarted (firstn i sched)) <= length (wstarted sched))%nat.
Proof.
  unfold wstarted. rewrite <- (firstn_skipn i sched) at 2. rewrite flat_map_app, app_length. lia.
Qed.

(** ** The invariant along executions *)
Lemma Known_init sz n : Known (winit sz n : wstate).
Proof.
  constructor; cbn [winit w_heads w_views w_sent]; try constructor.
  induction n as [|n IH]; cbn [repeat]; constructor; [apply knows_nil|exact IH].
Qed.

Lemma Rel_init sz n : Rel sz (winit sz n : wstate) (cinit sz n).
Proof.
  constructor; unfold published, wlost; cbn [winit cinit w_res w_pub w_heads w_slots w_threads w_views w_hist w_lost w_events
     c_ring c_heads c_threads c_hist c_starts c_claims c_events ring_new published_tail flat_map]; auto.
  - intros c. destruct c; exact I.
  - apply repeat_length.
  - induction n as [|n IH]; cbn [repeat]; constructor; [reflexivity|exact IH].
  - intros c. rewrite app_nil_r. reflexivity.
  - rewrite !repeat_length. reflexivity.
Qed.

Definition Wok (sz : nat) (s : wstate) : Prop := Known s /\ exists cs, Inv sz cs /\ Rel sz s cs.

Lemma whist_mono (s : wstate) a s' : wstep bld s a = Some s' -> exists l, w_hist s' = w_hist s ++ l.
Proof.
  assert (N : exists l, w_hist s = w_hist s ++ l) by (exists []; rewrite app_nil_r; reflexivity).
  intros E. destruct a as [t op|t fails picks|t|t k]; cbn [wstep] in E.
  - split_step E; injection E as <-; exact N.
  - destruct (nth_error (w_threads s) t) as [p|]; try discriminate.
    destruct p as [|x|rt x|rt x|c|c h|c h|c h|c|c h| |q]; cbn [wthread_step] in E; try discriminate;
      split_step E; injection E as <-; try exact N. cbn [goto w_hist]. eauto.
  - split_step E; injection E as <-; exact N.
  - split_step E; injection E as <-; exact N.
Qed.

Lemma wrun_hist sched : forall (s s' : wstate), wrun bld s sched = Some s' -> exists l, w_hist s' = w_hist s ++ l.
Proof.
  induction sched as [|a rest IH]; intros s s' E; cbn [wrun] in E.
  - injection E as <-. exists []. rewrite app_nil_r. reflexivity.
  - destruct (wstep bld s a) as [s1|] eqn:E1; try discriminate.
    destruct (whist_mono s a s1 E1) as (l1 & H1). destruct (IH s1 s' E) as (l2 & H2).
    exists (l1 ++ l2). rewrite H2, H1, app_assoc. reflexivity.
Qed.

Lemma wrun_inv (P : wstate -> Prop) sz : (1 <= sz)%nat -> Z.of_nat sz < two32 ->
  (forall s a s', Wok sz s -> P s -> wstep bld s a = Some s' -> Wok sz s' -> P s') ->
  forall sched s s', Wok sz s -> P s -> wrun bld s sched = Some s' -> Z.of_nat (length (w_hist s')) < two32 -> Wok sz s' /\ P s'.
Proof.
  intros HS HSB HStep. induction sched as [|a rest IH]; intros s s' HW HP E HB; cbn [wrun] in E.
  - injection E as <-. auto.
  - destruct (wstep bld s a) as [s1|] eqn:E1; [|discriminate].
    assert (HB1 : Z.of_nat (length (w_hist s1)) < two32).
    { destruct (wrun_hist rest s1 s' E) as (l & Hl). rewrite Hl, app_length in HB. lia. }
    destruct HW as (HK & cs & HI & HR).
    destruct (W_step bld sz s cs a s1 HS HSB HI HR HK E1 HB1) as (cs1 & HI1 & HR1).
    assert (W1 : Wok sz s1) by (split; [eapply Known_step; eauto|eauto]).
    eapply (IH s1); [exact W1| |exact E|exact HB]. eapply HStep; [|exact HP|exact E1|exact W1].
    split; [exact HK|eauto].
Qed.

Lemma Wok_init sz n : Wok sz (winit sz n).
Proof. split; [apply Known_init|]. exists (cinit sz n). split; [apply Inv_init|apply Rel_init]. Qed.

Lemma Wok_reachable sz n sched s : (1 <= sz)%nat -> Z.of_nat sz < two32 ->
  wrun bld (winit sz n) sched = Some s -> Z.of_nat (length (wstarted sched)) < two32 -> Wok sz s.
Proof.
  intros HS HSB E HB. pose proof (whist_started sz n sched s E HB) as HB'.
  destruct (wrun_inv (fun _ => True) sz HS HSB (fun _ _ _ _ _ _ _ => I) sched _ _ (Wok_init sz n) I E HB'). assumption.
Qed.

(** ** Views grow, and are handed on by Send / Recv *)
Definition vle (v v' : view) : Prop := forall l, (seen v l <= seen v' l)%nat.
Lemma vle_refl v : vle v v. Proof. intros l. lia. Qed.
Lemma vle_trans v v' v'' : vle v v' -> vle v' v'' -> vle v v''.
Proof. intros H H' l. specialize (H l). specialize (H' l). lia. Qed.
Lemma vle_cons l k v : vle v ((l, k) :: v).
Proof. intros l'. rewrite seen_cons. destruct (loc_eqb l l'); lia. Qed.
Lemma vle_app_r v v' : vle v (v' ++ v).
Proof. intros l. rewrite seen_app. lia. Qed.
Lemma vle_app_l v v' : vle v (v ++ v').
Proof. intros l. rewrite seen_app. lia. Qed.

Lemma view_upd (vs : list view) t v t' : nth t' (upd t v vs) [] =
  if Nat.eqb t t' then (if (t <? length vs)%nat then v else []) else nth t' vs [].
Proof.
  revert t t'; induction vs as [|u vs IH]; intros [|t] [|t']; cbn [upd nth Nat.eqb]; auto.
  - destruct (Nat.eqb t t'); auto.
  - rewrite IH. reflexivity.
Qed.

(** what one action does to the views *)
Lemma step_views (s : wstate) a s' : wstep bld s a = Some s' -> length (w_views s) = length (w_threads s) ->
  (forall t, vle (view_of s t) (view_of s' t)) /\ length (w_views s') = length (w_threads s').
Proof.
  intros E HL.
  assert (K : forall t v (s1 : wstate), nth_error (w_threads s) t <> None -> w_views s1 = upd t v (w_views s) -> vle (view_of s t) v ->
              forall t', vle (view_of s t') (view_of s1 t')).
  { intros t v s1 Ht Es Hv t'. unfold view_of in *. rewrite Es, view_upd. apply nth_error_Some in Ht.
    destruct (Nat.eqb_spec t t') as [<-|]; [|apply vle_refl].
    rewrite (proj2 (Nat.ltb_lt _ _)) by lia. exact Hv. }
  destruct a as [t op|t fails picks|t|t k]; cbn [wstep] in E.
  - destruct (nth_error (w_threads s) t) as [[]|] eqn:Ht; try discriminate. split_step E. injection E as <-.
    split; [|cbn [goto w_views w_threads]; rewrite !upd_length; exact HL].
    eapply (K t); [congruence|reflexivity|apply vle_refl].
  - destruct (nth_error (w_threads s) t) as [p|] eqn:Ht; try discriminate.
    destruct p as [|x|rt x|rt x|c|c h|c h|c h|c|c h| |q]; cbn [wthread_step] in E; try discriminate;
      split_step E; injection E as <-;
      (split; [|cbn [race wlog lose goto w_views w_threads]; rewrite !upd_length; exact HL]);
      (eapply (K t); [congruence|reflexivity|]);
      try (repeat first [apply vle_refl | eapply vle_trans; [|apply vle_cons]]).
    apply vle_app_r.
  - split_step E. injection E as <-. split; [intros; apply vle_refl|exact HL].
  - destruct (nth_error (w_threads s) t) as [[]|] eqn:Ht; try discriminate. split_step E. injection E as <-.
    split; [|cbn [goto w_views w_threads]; rewrite !upd_length; exact HL].
    eapply (K t); [congruence|reflexivity|apply vle_app_r].
Qed.

Lemma step_sent (s : wstate) a s' : wstep bld s a = Some s' ->
  w_sent s' = w_sent s ++ match a with Send t => [view_of s t] | _ => [] end.
Proof.
  intros E. destruct a as [t op|t fails picks|t|t k]; cbn [wstep] in E; rewrite ?app_nil_r.
  - split_step E; injection E as <-; reflexivity.
  - destruct (nth_error (w_threads s) t) as [p|]; try discriminate.
    destruct p as [|x|rt x|rt x|c|c h|c h|c h|c|c h| |q]; cbn [wthread_step] in E; try discriminate;
      split_step E; injection E as <-; reflexivity.
  - split_step E; injection E as <-; reflexivity.
  - split_step E; injection E as <-; reflexivity.
Qed.

Section Path.
Variables (sz n : nat) (sched : list waction).
Notation att := (at_ sz n sched).

Lemma at_nth i s s' : att i = Some s -> att (S i) = Some s' -> nth_error sched i = None -> s' = s.
Proof. unfold at_. intros H H' N. apply nth_error_None in N. rewrite firstn_all2 in * by lia. congruence. Qed.

Lemma at_views i s : att i = Some s -> length (w_views s) = length (w_threads s).
Proof.
  intros H. unfold at_ in H.
  eapply (wrun_ind (fun s => length (w_views s) = length (w_threads s))); [| |exact H].
  - intros s0 a s1 H0 E. apply (step_views s0 a s1 E H0).
  - cbn. rewrite !repeat_length. reflexivity.
Qed.

Lemma at_mono i j s s' t : (i <= j)%nat -> att i = Some s -> att j = Some s' ->
  vle (view_of s t) (view_of s' t) /\ (exists l, w_sent s' = w_sent s ++ l).
Proof.
  intros L. revert s'. induction L as [|j L IH]; intros s' H H'.
  - rewrite H in H'. injection H' as <-. split; [apply vle_refl|]. exists []. rewrite app_nil_r. reflexivity.
  - destruct (at_prev _ _ _ _ _ H') as (s1 & H1). destruct (IH s1 H H1) as (V & l & Hl).
    destruct (nth_error sched j) as [a|] eqn:Ha.
    + pose proof (at_S _ _ _ _ _ _ _ Ha H1 H') as E.
      destruct (step_views _ _ _ E (at_views _ _ H1)) as (V1 & _). split; [eapply vle_trans; [exact V|apply V1]|].
      rewrite (step_sent _ _ _ E), Hl, <- app_assoc. eauto.
    + rewrite (at_nth j s1 s' H1 H' Ha). eauto.
Qed.

Lemma sent_count i s : att i = Some s -> length (w_sent s) = length (filter is_send (firstn i sched)).
Proof.
  revert s. induction i as [|i IH]; intros s H.
  - cbn in H. injection H as <-. reflexivity.
  - destruct (at_prev _ _ _ _ _ H) as (s1 & H1). destruct (nth_error sched i) as [a|] eqn:Ha.
    + rewrite (firstn_S _ _ _ Ha), filter_app, app_length, <- (IH s1 H1).
      rewrite (step_sent _ _ _ (at_S _ _ _ _ _ _ _ Ha H1 H)), app_length. destruct a; reflexivity.
    + rewrite (at_nth i s1 s H1 H Ha), (IH s1 H1). apply nth_error_None in Ha. rewrite !firstn_all2 by lia. reflexivity.
Qed.

Lemma hb_lt i j : hb sched i j -> (i < j)%nat.
Proof. induction 1; lia. Qed.

Definition is_recv (a : waction) : bool := match a with Recv _ _ => true | _ => false end.

(** what is known when action [i] is over is known to everything it happens before *)
Lemma hb_views i j : hb sched i j ->
  forall a a' si sj sj', nth_error sched i = Some a -> nth_error sched j = Some a' ->
  att (S i) = Some si -> att j = Some sj -> att (S j) = Some sj' ->
  vle (view_of si (actor a)) (view_of sj' (actor a')) /\
  (is_recv a' = false -> vle (view_of si (actor a)) (view_of sj (actor a'))).
Proof.
  induction 1 as [i j a0 a0' L H1 H2 Ht|i j t u H1 H2 L|i j k H1 IH1 H2 IH2]; intros a a' si sj sj' Ha Ha' Hi Hj Hj'.
  - rewrite H1 in Ha. injection Ha as <-. rewrite H2 in Ha'. injection Ha' as <-. rewrite <- Ht.
    split; [apply (at_mono (S i) (S j) si sj')|intros _; apply (at_mono (S i) j si sj)]; auto; lia.
  - rewrite H1 in Ha. injection Ha as <-. rewrite H2 in Ha'. injection Ha' as <-.
    split; [|discriminate]. cbn [actor].
    destruct (at_prev _ _ _ _ _ Hi) as (s0 & H0).
    pose proof (at_S _ _ _ _ _ _ _ H1 H0 Hi) as E. pose proof (at_S _ _ _ _ _ _ _ H2 Hj Hj') as E'.
    pose proof (step_sent _ _ _ E) as ES.
    destruct (at_mono (S i) j si sj 0%nat ltac:(lia) Hi Hj) as (_ & l & Hl).
    cbn [wstep] in E. destruct (nth_error (w_threads s0) t) as [[]|]; try discriminate. injection E as <-.
    cbn [wstep] in E'. destruct (nth_error (w_threads sj) u) as [[]|] eqn:Hu; try discriminate.
    assert (N : nth_error (w_sent sj) (length (filter is_send (firstn i sched))) = Some (view_of s0 t)).
    { rewrite Hl, ES, <- (sent_count i s0 H0), <- app_assoc, nth_error_app2, Nat.sub_diag by lia. reflexivity. }
    rewrite N in E'. injection E' as <-. 
    change (vle (view_of s0 t) (nth u (upd u (view_of s0 t ++ view_of sj u) (w_views sj)) [])). rewrite view_upd, Nat.eqb_refl.
    rewrite (proj2 (Nat.ltb_lt _ _)).
    + apply vle_app_l.
    + rewrite (at_views j sj Hj). apply nth_error_Some. congruence.
  - pose proof (hb_lt j k H2) as L2. pose proof (hb_lt i j H1) as L1.
    destruct (nth_error sched j) as [b|] eqn:Hb.
    2:{ apply nth_error_None in Hb. assert (k < length sched)%nat by (apply nth_error_Some; congruence). lia. }
    destruct (at_le sz n sched (S j) k sj ltac:(lia) Hj) as (m' & Hm').
    destruct (at_prev _ _ _ _ _ Hm') as (m & Hm).
    destruct (IH1 a b si m m' Ha eq_refl Hi Hm Hm') as (V1 & _).
    destruct (IH2 b a' m' sj sj' eq_refl Ha' Hm' Hj Hj') as (V2 & V3).
    split; [eapply vle_trans; eauto|]. intros R. eapply vle_trans; [exact V1|auto].
Qed.
End Path.
End Weak3.
