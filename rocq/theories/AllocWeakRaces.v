(** * Relaxed memory: ordered save points and delta requests have no data race. *)
From Coq Require Import List ZArith Lia Bool Arith.
From Verif Require Import Machine Ring RingSeq RingConc Alloc AllocSpec AllocProofs AllocConc AllocConcSpec AllocConcProofs AllocConcProofs2
  RingWeak RingWeakSpec RingWeakProofs RingWeakProofs3 AllocWeak AllocWeakSpec AllocWeakProofs AllocWeakProofs2 AllocWeakProofs3 AllocWeakProofs4 AllocWeakProofs5
  AllocWeakCalls.
Import ListNotations.
Open Scope Z_scope.

Definition stat_pc (p : apc) : bool :=
  match p with
  | SLoadMin | SLoadMax _ | SEnq _ _ | SConsumer | SLoadCur1 _ | SStoreMin _ _ | SLoadCur2 _ | SStoreMax _ _ | SSnap _ _ _
  | DPeek _ | DMin _ _ _ | DMax _ _ _ | DLoads _ _ _ _ _ => true
  | _ => false
  end.

(** ** One step of the ring *)
Lemma slot_write b (r : wstate (Z * Z)) a r' : length (w_views r) = length (w_threads r) -> wstep b r a = Some r' -> w_slots r' = w_slots r \/
  exists t fails picks i x, a = WStep t fails picks /\ w_slots r' = upd i (nth i (w_slots r) [] ++ [x]) (w_slots r) /\
    (S (length (nth i (w_slots r) [])) <= seen (view_of r' t) (Slot i))%nat.
Proof.
  intros LV E. destruct a as [t op|t f picks|t|t k]; cbn [wstep] in E.
  - destruct (nth_error (w_threads r) t) as [[]|]; try discriminate. destruct (wop_ok r t op); [|discriminate]. injection E as <-. left. reflexivity.
  - destruct (nth_error (w_threads r) t) as [p|] eqn:Et; [|discriminate].
    assert (LT : (t < length (w_views r))%nat) by (rewrite LV; apply nth_error_Some; congruence).
    destruct p as [|x|rt x|rt x|c|c h|c h|c h|c|c h| |q]; cbn [wthread_step] in E; try discriminate.
    2:{ injection E as <-. right. exists t, f, picks, (slot_of r rt), x. split; [reflexivity|]. split; [reflexivity|].
        unfold view_of. cbn [race goto w_views]. rewrite nth_upd, Nat.eqb_refl, (proj2 (Nat.ltb_lt _ _)) by exact LT.
        cbn [seen fold_right fst snd loc_eqb]. rewrite Nat.eqb_refl. lia. }
    all: left; revert E; repeat match goal with |- context [match ?x with _ => _ end] => destruct x end; try discriminate; intros [= <-]; reflexivity.
  - destruct (nth_error (w_threads r) t) as [[]|]; try discriminate. injection E as <-. left. reflexivity.
  - destruct (nth_error (w_threads r) t) as [[]|]; try discriminate. destruct (nth_error (w_sent r) k); [|discriminate]. injection E as <-. left. reflexivity.
Qed.
Lemma unknown_in (r : wstate (Z * Z)) v l : unknown r v l <> [] -> exists i, (seen v (Slot i) < length (nth i (w_slots r) []))%nat.
Proof.
  unfold unknown. induction l as [|i l IH]; cbn [filter]; [congruence|].
  destruct (Nat.ltb_spec (seen v (Slot i)) (length (nth i (w_slots r) []))) as [L|L]; [eauto|exact IH].
Qed.
Lemma race_why b (r : wstate (Z * Z)) a r' : wstep b r a = Some r' -> w_races r' = w_races r \/
  exists t fails picks i, a = WStep t fails picks /\ (seen (view_of r t) (Slot i) < length (nth i (w_slots r) []))%nat.
Proof.
  intros E. destruct a as [t op|t f picks|t|t k]; cbn [wstep] in E.
  - destruct (nth_error (w_threads r) t) as [[]|]; try discriminate. destruct (wop_ok r t op); [|discriminate]. injection E as <-. left. reflexivity.
  - assert (K : forall (r1 r2 : wstate (Z * Z)) l, Some (race r1 t (unknown r (view_of r t) l)) = Some r2 -> w_races r1 = w_races r -> w_races r2 = w_races r \/
      exists t0 fails0 picks0 i, WStep t f picks = WStep (A := Z * Z) t0 fails0 picks0 /\ (seen (view_of r t0) (Slot i) < length (nth i (w_slots r) []))%nat).
    { intros r1 r2 l [= <-] H. cbn [race w_races]. destruct (unknown r (view_of r t) l) as [|x u] eqn:U; [left; cbn [map]; rewrite app_nil_r; exact H|].
      right. destruct (unknown_in r (view_of r t) l) as (i & Hi); [rewrite U; discriminate|]. exists t, f, picks, i. split; [reflexivity|exact Hi]. }
    destruct (nth_error (w_threads r) t) as [p|] eqn:Et; [|discriminate].
    destruct p as [|x|rt x|rt x|c|c h|c h|c h|c|c h| |q]; cbn [wthread_step] in E; try discriminate.
    2:{ eapply K; [exact E|reflexivity]. }
    all: revert E; repeat match goal with |- context [match ?x with _ => _ end] => destruct x end; try discriminate;
      try (intros [= <-]; left; reflexivity); intros E; (eapply K; [exact E|reflexivity]).
  - destruct (nth_error (w_threads r) t) as [[]|]; try discriminate. injection E as <-. left. reflexivity.
  - destruct (nth_error (w_threads r) t) as [[]|]; try discriminate. destruct (nth_error (w_sent r) k); [|discriminate]. injection E as <-. left. reflexivity.
Qed.

(** ** One step of the allocator *)
Lemma ring_op_stat s p op : ring_op s p op -> stat_pc p = true.
Proof. intros []; reflexivity. Qed.
Lemma kring_step b s a s' : kstep b s a = Some s' -> k_ring s' = k_ring s \/
  exists ra, wstep b (k_ring s) ra = Some (k_ring s') /\
    forall t fails picks, ra = WStep t fails picks -> exists p fails' picks', a = KStep t fails' picks' /\ nth_error (k_threads s) t = Some p /\ stat_pc p = true.
Proof.
  intros E. unfold kstep in E. destruct (kact b s a) as [s1|] eqn:E1; [|discriminate]. injection E as <-. kfld.
  destruct a as [t op|t fails picks|t|t k]; cbn [kact] in E1.
  - destruct (nth_error (k_threads s) t) as [[]|]; try discriminate. destruct (kcan_start s t op); [|discriminate]. injection E1 as <-. left. reflexivity.
  - destruct (nth_error (k_threads s) t) as [p|] eqn:Et; [|discriminate]. apply kstep_shapes in E1.
    inversion E1; subst; try (left; reflexivity).
    + right. eexists. split; [kfld; eassumption|]. discriminate.
    + right. eexists. split; [kfld; eassumption|]. intros t0 f0 p0 [= -> _ _]. eexists _, _, _. split; [reflexivity|]. split; [exact Et|]. eapply ring_op_stat; eassumption.
    + right. eexists. split; [kfld; eassumption|]. intros t0 f0 p0 [= -> _ _]. eexists _, _, _. split; [reflexivity|]. split; [exact Et|]. eapply ring_op_stat; eassumption.
    + right. match goal with L : ring_ret _ _ _ _ _ |- _ => rename L into RR end.
      assert (k_ring s1 = r) as -> by (inversion RR; reflexivity).
      eexists. split; [eassumption|]. intros t0 f0 p0 [= -> _ _]. eexists _, _, _. split; [reflexivity|]. split; [exact Et|]. eapply ring_op_stat; eassumption.
  - destruct (nth_error (k_threads s) t) as [[]|]; try discriminate. destruct (wstep b (k_ring s) (Send t)) as [r|] eqn:Er; [|discriminate]. injection E1 as <-.
    right. exists (Send t). split; [exact Er|]. discriminate.
  - destruct (nth_error (k_threads s) t) as [[]|]; try discriminate. destruct (nth_error (k_sent s) k); [|discriminate].
    destruct (wstep b (k_ring s) (Recv t k)) as [r|] eqn:Er; [|discriminate]. injection E1 as <-.
    right. exists (Recv t k). split; [exact Er|]. discriminate.
Qed.
Lemma stat_step b n s t fails picks s' p' : KWf n s -> kstep b s (KStep t fails picks) = Some s' -> nth_error (k_threads s') t = Some p' -> stat_pc p' = true ->
  exists p, nth_error (k_threads s) t = Some p /\ stat_pc p = true.
Proof.
  intros HW E. unfold kstep in E. destruct (kact b s (KStep t fails picks)) as [s1|] eqn:E1; [|discriminate]. injection E as <-. kfld. cbn [kact] in E1.
  destruct (nth_error (k_threads s) t) as [p|] eqn:Et; [|discriminate]. apply kstep_shapes in E1.
  assert (U : forall q, nth_error (upd t q (k_threads s)) t = Some q).
  { intros q. rewrite nth_error_upd, Nat.eqb_refl, (proj2 (Nat.ltb_lt _ _)); [reflexivity|]. apply nth_error_Some. congruence. }
  intros H Hs. exists p. split; [reflexivity|].
  assert (K : forall q, nth_error (upd t q (k_threads s)) t = Some p' -> p' = q) by (intros q0 H0; rewrite U in H0; congruence).
  inversion E1; subst; kfld; try reflexivity; try (apply K in H; subst p'; cbn [stat_pc] in *; congruence).
  - apply K in H. subst p'. destruct l; discriminate.
  - apply K in H. subst p'. match goal with L : load_kind _ _ _ |- _ => destruct L; cbn [stat_pc] in *; congruence end.
  - eapply ring_op_stat; eassumption.
  - eapply ring_op_stat; eassumption.
  - eapply ring_op_stat; eassumption.
Qed.

(** ** Along a schedule *)
Section Path.
Variables (b : build) (sz n : nat) (sched : list kaction).
Notation kat := (kat b sz n sched).
Notation kpc := (kpc b sz n sched).
Notation call_over := (call_over b sz n sched).

(** the thread acting at [m] is inside save_point or delta_statistics *)
Definition stat_at (m : nat) : Prop :=
  exists t fails picks p, nth_error sched m = Some (KStep t fails picks) /\ kpc m t = Some p /\ stat_pc p = true.

Lemma stat_call t : forall j s p, (j <= length sched)%nat -> kat j = Some s -> nth_error (k_threads s) t = Some p -> stat_pc p = true ->
  exists i op, lastcall sched t j = Some i /\ nth_error sched i = Some (KStart t op) /\ is_stat op = true.
Proof.
  induction j as [|j IH]; intros s p L H Hp HS.
  - unfold kat in H. cbn in H. injection H as <-. cbn [kinit k_threads] in Hp. apply nth_error_In, repeat_spec in Hp. subst. discriminate.
  - destruct (kat_prev _ _ _ _ _ _ H) as (s1 & H1). destruct (nth_error sched j) as [a|] eqn:Ha; [|apply nth_error_None in Ha; lia].
    pose proof (kat_S _ _ _ _ _ _ _ _ Ha H1 H) as E. pose proof (kat_wf _ _ _ _ _ _ H1) as HW. cbn [lastcall]. rewrite Ha.
    destruct (Nat.eq_dec (kactor a) t) as [Q|Q].
    2:{ rewrite (step_other b n s1 a s t HW E Q) in Hp. destruct (IH s1 p ltac:(lia) H1 Hp HS) as (i & op & K).
        exists i, op. destruct a; cbn [kactor] in Q; try exact K. rewrite (proj2 (Nat.eqb_neq _ _)) by exact Q. exact K. }
    destruct a as [t0 op|t0 fails picks|t0|t0 k]; cbn [kactor] in Q; subst t0.
    + rewrite Nat.eqb_refl. exists j, op. split; [reflexivity|]. split; [exact Ha|].
      unfold kstep in E. cbn [kact] in E. destruct (nth_error (k_threads s1) t) as [[]|] eqn:Et; try discriminate. destruct (kcan_start s1 t op); [|discriminate].
      injection E as <-. kfld. rewrite nth_error_upd, Nat.eqb_refl, (proj2 (Nat.ltb_lt _ _)) in Hp by (apply nth_error_Some; congruence).
      injection Hp as <-. destruct op; cbn [first_apc] in HS; try discriminate; try reflexivity.
      all: match type of HS with stat_pc ?x = true => destruct x eqn:Ex; try discriminate end.
    + destruct (stat_step b n s1 t fails picks s p HW E Hp HS) as (p1 & Hp1 & HS1). exact (IH s1 p1 ltac:(lia) H1 Hp1 HS1).
    + exfalso. unfold kstep in E. cbn [kact] in E. destruct (nth_error (k_threads s1) t) as [[]|] eqn:Et; try discriminate.
      destruct (wstep b (k_ring s1) (Send t)); [|discriminate]. injection E as <-. kfld. rewrite Et in Hp. injection Hp as <-. discriminate.
    + exfalso. unfold kstep in E. cbn [kact] in E. destruct (nth_error (k_threads s1) t) as [[]|] eqn:Et; try discriminate.
      destruct (nth_error (k_sent s1) k); [|discriminate].
      destruct (wstep b (k_ring s1) (Recv t k)); [|discriminate]. injection E as <-. kfld. rewrite Et in Hp. injection Hp as <-. discriminate.
Qed.

Hypothesis HS : (1 <= sz)%nat.
Hypothesis HN : (n <= sz)%nat.
Hypothesis ORD : ordered_statistics b sz n sched.

(** two accesses inside save_point or delta_statistics are ordered *)
Lemma stat_hb m j s : stat_at m -> stat_at j -> (m < j)%nat -> kat (S j) = Some s -> khb sched m j.
Proof.
  intros (t & f1 & p1 & q1 & Hm & Hq1 & S1) (u & f2 & p2 & q2 & Hj & Hq2 & S2) L H.
  destruct (Nat.eq_dec t u) as [<-|N]; [eapply khb_thread; [exact L|exact Hm|exact Hj|reflexivity]|].
  assert (LJ : (j < length sched)%nat) by (apply nth_error_Some; congruence).
  destruct (kat_prev _ _ _ _ _ _ H) as (s2 & H2). destruct (kat_le _ _ _ _ m j s2 ltac:(lia) H2) as (s1 & H1).
  rewrite (kat_pc _ _ _ _ _ _ _ H1) in Hq1. rewrite (kat_pc _ _ _ _ _ _ _ H2) in Hq2.
  destruct (stat_call t m s1 q1 ltac:(lia) H1 Hq1 S1) as (i1 & o1 & LC1 & Hi1 & T1).
  destruct (stat_call u j s2 q2 ltac:(lia) H2 Hq2 S2) as (i2 & o2 & LC2 & Hi2 & T2).
  destruct (lastcall_spec sz n sched HS HN _ _ _ LC1) as (L1 & _ & N1). destruct (lastcall_spec sz n sched HS HN _ _ _ LC2) as (L2 & _ & N2).
  assert (DONE : forall i e v w x s0 q, call_over i e -> nth_error sched i = Some (KStart v w) -> lastcall sched v x = Some i -> kat x = Some s0 ->
            nth_error (k_threads s0) v = Some q -> stat_pc q = true -> (x <= e)%nat).
  { intros i e v w x s0 q CO Hi LC H0 Hq Sq. destruct (Nat.lt_ge_cases e x) as [Le|]; [exfalso|assumption].
    pose proof (call_done b sz n sched HS HN v i e x w CO Hi Le LC s0 H0) as D. rewrite (kat_pc _ _ _ _ _ _ _ H0), Hq in D. injection D as ->. discriminate. }
  assert (i1 <> i2) by (intros ->; rewrite Hi1 in Hi2; congruence).
  destruct (Nat.lt_ge_cases i1 i2) as [LT|GE].
  - destruct (ORD i1 i2 t u o1 o2 LT Hi1 Hi2 T1 T2) as [->|(e & CO & HB)]; [congruence|].
    pose proof (DONE i1 e t o1 m s1 q1 CO Hi1 LC1 H1 Hq1 S1) as Le.
    assert (HJ : khb sched i2 j) by (eapply khb_thread; [exact L2|exact Hi2|exact Hj|reflexivity]).
    destruct (Nat.eq_dec m e) as [->|]; [eapply khb_trans; eassumption|].
    destruct CO as (t' & op' & f' & p' & Hi' & He & _). rewrite Hi1 in Hi'. injection Hi' as <- <-.
    eapply khb_trans; [|eapply khb_trans; [exact HB|exact HJ]]. eapply khb_thread; [|exact Hm|exact He|reflexivity]. lia.
  - exfalso. destruct (ORD i2 i1 u t o2 o1 ltac:(lia) Hi2 Hi1 T2 T1) as [->|(e & CO & HB)]; [congruence|].
    pose proof (DONE i2 e u o2 j s2 q2 CO Hi2 LC2 H2 Hq2 S2) as Le. pose proof (khb_lt _ _ _ HB). lia.
Qed.

(** the last write to a slot *)
Lemma last_write i : forall j s, (j <= length sched)%nat -> kat j = Some s -> length (nth i (w_slots (k_ring s)) []) = 0%nat \/
  exists m a s1, (m < j)%nat /\ stat_at m /\ nth_error sched m = Some a /\ kat (S m) = Some s1 /\
    (length (nth i (w_slots (k_ring s)) []) <= seen (view_of (k_ring s1) (kactor a)) (Slot i))%nat.
Proof.
  induction j as [|j IH]; intros s L H.
  - left. unfold kat in H. cbn in H. injection H as <-. cbn [kinit k_ring winit w_slots]. rewrite nth_repeat. reflexivity.
  - destruct (kat_prev _ _ _ _ _ _ H) as (s1 & H1). destruct (nth_error sched j) as [a|] eqn:Ha; [|apply nth_error_None in Ha; lia].
    pose proof (kat_S _ _ _ _ _ _ _ _ Ha H1 H) as E. pose proof (kat_wf _ _ _ _ _ _ H1) as HW.
    assert (OLD : nth i (w_slots (k_ring s)) [] = nth i (w_slots (k_ring s1)) [] -> length (nth i (w_slots (k_ring s)) []) = 0%nat \/
      exists m a s1, (m < S j)%nat /\ stat_at m /\ nth_error sched m = Some a /\ kat (S m) = Some s1 /\
        (length (nth i (w_slots (k_ring s)) []) <= seen (view_of (k_ring s1) (kactor a)) (Slot i))%nat).
    { intros ->. destruct (IH s1 ltac:(lia) H1) as [Z|(m & a0 & s0 & Lm & K)]; [left; exact Z|right]. exists m, a0, s0. split; [lia|exact K]. }
    destruct (kring_step b s1 a s E) as [RE|(ra & RE & ST)]; [apply OLD; rewrite RE; reflexivity|].
    destruct (slot_write b (k_ring s1) ra (k_ring s)) as [SE|(t & fails & picks & i' & x & -> & SE & SN)].
    { rewrite (W_lenrv _ _ HW), (W_lenr _ _ HW). reflexivity. }
    { exact RE. }
    { apply OLD. rewrite SE. reflexivity. }
    destruct (Nat.eq_dec i' i) as [->|NE].
    + destruct (ST t fails picks eq_refl) as (p & f' & p' & -> & Hp & HSt). right. exists j, (KStep t f' p'), s. split; [lia|].
      split; [exists t, f', p', p; split; [exact Ha|]; split; [rewrite (kat_pc _ _ _ _ _ _ _ H1); exact Hp|exact HSt]|].
      split; [exact Ha|]. split; [exact H|]. cbn [kactor]. rewrite SE, nth_upd, Nat.eqb_refl.
      destruct (Nat.ltb_spec i (length (w_slots (k_ring s1)))); [rewrite app_length; cbn [length]; lia|cbn [length]; lia].
    + apply OLD. rewrite SE, nth_upd, (proj2 (Nat.eqb_neq _ _)) by exact NE. reflexivity.
Qed.

Lemma no_races j s : (j <= length sched)%nat -> kat j = Some s -> w_races (k_ring s) = [].
Proof.
  revert s. induction j as [|j IH]; intros s L H.
  - unfold kat in H. cbn in H. injection H as <-. reflexivity.
  - destruct (kat_prev _ _ _ _ _ _ H) as (s1 & H1). destruct (nth_error sched j) as [a|] eqn:Ha; [|apply nth_error_None in Ha; lia].
    pose proof (kat_S _ _ _ _ _ _ _ _ Ha H1 H) as E. specialize (IH s1 ltac:(lia) H1).
    destruct (kring_step b s1 a s E) as [RE|(ra & RE & ST)]; [rewrite RE; exact IH|].
    destruct (race_why b _ _ _ RE) as [R|(t & fails & picks & i & -> & LT)]; [rewrite R; exact IH|exfalso].
    destruct (ST t fails picks eq_refl) as (p & f' & p' & -> & Hp & HSt).
    assert (SJ : stat_at j).
    { exists t, f', p', p. split; [exact Ha|]. split; [rewrite (kat_pc _ _ _ _ _ _ _ H1); exact Hp|exact HSt]. }
    destruct (last_write i j s1 ltac:(lia) H1) as [Z|(m & a0 & s0 & Lm & SM & Hm & Hm' & SN)]; [lia|].
    pose proof (hb_ring b sz n sched m j a0 _ s0 s1 s (Slot i) (stat_hb m j s SM SJ Lm H) Hm Ha eq_refl Hm' H1 H) as V. cbn [kactor] in V. lia.
Qed.
End Path.
