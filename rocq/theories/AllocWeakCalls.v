(** * Relaxed memory: which calls the answer of delta_statistics counts. *)
From Coq Require Import List ZArith Lia Bool Arith.
From Verif Require Import Machine Ring RingSeq RingConc Alloc AllocSpec AllocProofs AllocConc AllocConcSpec AllocConcProofs AllocConcProofs2
  RingWeak RingWeakSpec RingWeakProofs RingWeakProofs3 AllocWeak AllocWeakSpec AllocWeakProofs AllocWeakProofs2 AllocWeakProofs3 AllocWeakProofs4 AllocWeakProofs5.
Import ListNotations.
Open Scope Z_scope.

(** ** Sums over lists of indices *)
Definition zsum (g : nat -> Z) (l : list nat) : Z := sum (map g l).
Lemma zsum_cons g x l : zsum g (x :: l) = g x + zsum g l.
Proof. reflexivity. Qed.
Lemma zsum_app g l l' : zsum g (l ++ l') = zsum g l + zsum g l'.
Proof. unfold zsum, sum. induction l as [|x l IH]; cbn [app map fold_right]; lia. Qed.
Lemma zsum_split g x l : In x l -> exists l', zsum g l = g x + zsum g l' /\ forall y, In y l -> y <> x -> In y l'.
Proof.
  intros H. apply in_split in H. destruct H as (l1 & l2 & ->). exists (l1 ++ l2). rewrite !zsum_app, zsum_cons. split; [lia|].
  intros y Hy N. apply in_app_or in Hy. destruct Hy as [Hy|[Hy|Hy]]; [apply in_or_app; auto|congruence|apply in_or_app; auto].
Qed.
Lemma zsum_nonneg g l : (forall x, 0 <= g x) -> 0 <= zsum g l.
Proof. intros H. induction l as [|x l IH]; [cbv; discriminate|]. rewrite zsum_cons. specialize (H x). lia. Qed.
Lemma zsum_incl g l : forall l', (forall x, 0 <= g x) -> NoDup l -> (forall x, In x l -> g x <> 0 -> In x l') -> zsum g l <= zsum g l'.
Proof.
  induction l as [|x l IH]; intros l' H ND I; [apply zsum_nonneg; exact H|]. inversion ND; subst. rewrite zsum_cons.
  destruct (Z.eq_dec (g x) 0) as [Z0|N0].
  - rewrite Z0. apply (IH l' H); [assumption|]. intros y Hy. apply I. right. exact Hy.
  - destruct (zsum_split g x l' (I x (or_introl eq_refl) N0)) as (l2 & E & K). rewrite E. specialize (IH l2 H ltac:(assumption)).
    assert (zsum g l <= zsum g l2); [|lia]. apply IH. intros y Hy Ny. apply K; [apply I; [right; exact Hy|exact Ny]|]. intros ->. contradiction.
Qed.
Lemma zsum_ext g h l : (forall x, In x l -> g x = h x) -> zsum g l = zsum h l.
Proof. intros H. induction l as [|x l IH]; [reflexivity|]. rewrite !zsum_cons, IH, (H x) by (intros; apply H; right; assumption) || (left; reflexivity). reflexivity. Qed.

Section Path.
Variables (b : build) (sz n : nat) (sched : list kaction).
Hypothesis HS : (1 <= sz)%nat.
Hypothesis HSB : Z.of_nat sz < two32.
Hypothesis HN : (n <= sz)%nat.
Hypothesis HF : fits (kcalls sched).
Notation kat := (kat b sz n sched).
Notation kpc := (kpc b sz n sched).
Notation call_over := (call_over b sz n sched).

Lemma kcalls_firstn i : exists rest, kcalls sched = kcalls (firstn i sched) ++ rest.
Proof. exists (kcalls (skipn i sched)). rewrite <- kcalls_app, firstn_skipn. reflexivity. Qed.
Lemma kat_fits i s : kat i = Some s -> fits (k_started s).
Proof.
  intros H. unfold kat in H. rewrite (kstarted_run _ _ _ _ H). cbn [kinit k_started app]. destruct (kcalls_firstn i) as (r & E).
  rewrite E in HF. eapply fits_prefix; exact HF.
Qed.
Lemma kat_KS i s : kat i = Some s -> KS sz n s.
Proof.
  intros H. eapply KS_run; [exact HS|exact HSB|exact HN|apply KS_init; exact HS|exact H|]. eapply kat_fits; exact H.
Qed.
Lemma kat_KN i s : kat i = Some s -> KN n s.
Proof. intros H. apply (kat_KS i s H). Qed.
Lemma kat_fwd i j s s' : (i <= j)%nat -> kat i = Some s -> kat j = Some s' -> fwd n s s'.
Proof.
  intros L. revert s'. induction L as [|j L IH]; intros s' H H'.
  - rewrite H in H'. injection H' as <-. apply fwd_same; auto.
  - destruct (kat_prev _ _ _ _ _ _ H') as (s1 & H1). eapply fwd_trans; [apply (IH s1 H H1)|].
    destruct (nth_error sched j) as [a|] eqn:Ha.
    + eapply step_fwd; [eapply kat_wf; exact H1|]. eapply kat_S; eassumption.
    + rewrite (kat_nth _ _ _ _ j s1 s' H1 H' Ha). apply fwd_same; auto.
Qed.
Lemma kat_pc i s t : kat i = Some s -> kpc i t = nth_error (k_threads s) t.
Proof. unfold kat, AllocWeakSpec.kpc. intros ->. reflexivity. Qed.

(** what the [m]-th action adds to [f] *)
Definition amt (f : field) (m : nat) : Z :=
  match nth_error sched m with
  | Some (KStep t _ _) => match kpc m t with
                          | Some (AAdds ((g, x) :: _)) => if field_eq_dec g f then x else 0
                          | _ => 0
                          end
  | _ => 0
  end.
Lemma amt_nonneg f m s : In f counter_fields -> kat m = Some s -> 0 <= amt f m.
Proof.
  intros Hf H. unfold amt. destruct (nth_error sched m) as [[]|]; try lia. rewrite (kat_pc m s _ H).
  destruct (nth_error (k_threads s) t) as [[]|] eqn:Et; try lia. destruct l as [|[g x] l]; [lia|]. destruct (field_eq_dec g f) as [->|]; [|lia].
  pose proof (Forall_nth _ _ _ _ (N_pos _ _ (kat_KN m s H)) Et) as P. apply (P f x); [left; reflexivity|exact Hf].
Qed.

(** one step of another thread, or of none, leaves a thread where it is *)
Lemma step_other s a s' u : KWf n s -> kstep b s a = Some s' -> kactor a <> u -> nth_error (k_threads s') u = nth_error (k_threads s) u.
Proof.
  intros HW E N. unfold kstep in E. destruct (kact b s a) as [s1|] eqn:E1; [|discriminate]. injection E as <-.
  assert (U : forall t p, kactor a = t -> nth_error (upd t p (k_threads s)) u = nth_error (k_threads s) u).
  { intros t p <-. rewrite nth_error_upd. apply Nat.eqb_neq in N. rewrite N. reflexivity. }
  destruct a as [t op|t fails picks|t|t k]; cbn [kact kactor] in *.
  - destruct (nth_error (k_threads s) t) as [[]|]; try discriminate. destruct (kcan_start s t op); [|discriminate]. injection E1 as <-. apply U. reflexivity.
  - destruct (nth_error (k_threads s) t) as [p|]; [|discriminate]. apply kstep_shapes in E1.
    inversion E1; subst; try (apply U; reflexivity); try reflexivity.
    match goal with L : ring_ret _ _ _ _ _ |- _ => destruct (ring_ret_msgs _ _ _ _ _ L) as (_ & _ & p' & T & _) end. kfld. rewrite T. apply U. reflexivity.
  - destruct (nth_error (k_threads s) t) as [[]|]; try discriminate. destruct (wstep b (k_ring s) (Send t)); [|discriminate]. injection E1 as <-. reflexivity.
  - destruct (nth_error (k_threads s) t) as [[]|]; try discriminate. destruct (nth_error (k_sent s) k); [|discriminate].
    destruct (wstep b (k_ring s) (Recv t k)); [|discriminate]. injection E1 as <-. reflexivity.
Qed.
(** an idle thread stays idle until its next call *)
Lemma idle_stays t i j : (i <= j)%nat -> forall s', kat j = Some s' -> kpc i t = Some AIdle ->
  (forall m op, (i <= m < j)%nat -> nth_error sched m <> Some (KStart t op)) -> kpc j t = Some AIdle.
Proof.
  intros L. induction L as [|j L IH]; intros s' H' P N; [exact P|].
  destruct (kat_prev _ _ _ _ _ _ H') as (s & H). assert (PJ : kpc j t = Some AIdle) by (apply (IH s H P); intros; apply N; lia).
  rewrite (kat_pc _ _ _ H'). rewrite (kat_pc _ _ _ H) in PJ. destruct (nth_error sched j) as [a|] eqn:Ha.
  - pose proof (kat_S _ _ _ _ _ _ _ _ Ha H H') as E. destruct (Nat.eq_dec (kactor a) t) as [Q|Q].
    2:{ rewrite (step_other s a s' t (kat_wf _ _ _ _ _ _ H) E Q). exact PJ. }
    unfold kstep in E. destruct (kact b s a) as [s1|] eqn:E1; [|discriminate]. injection E as <-.
    destruct a as [t0 op|t0 fails picks|t0|t0 k]; cbn [kact kactor] in *; subst t0.
    + exfalso. apply (N j op); [lia|exact Ha].
    + rewrite PJ in E1. discriminate.
    + rewrite PJ in E1. destruct (wstep b (k_ring s) (Send t)); [|discriminate]. injection E1 as <-. exact PJ.
    + rewrite PJ in E1. destruct (nth_error (k_sent s) k); [|discriminate]. destruct (wstep b (k_ring s) (Recv t k)); [|discriminate]. injection E1 as <-. exact PJ.
  - rewrite (kat_nth _ _ _ _ j s s' H H' Ha). exact PJ.
Qed.

(** ** Every message of a counter is one addition *)
Lemma step_counter s a s' m : kat m = Some s -> nth_error sched m = Some a -> kat (S m) = Some s' ->
  forall f, In f counter_fields ->
  k_msgs s' f = k_msgs s f /\ amt f m = 0 \/
  exists v, k_msgs s' f = k_msgs s f ++ [FMsg v true (Some m)] /\ v = kvalue s f + amt f m /\ kv (kview_of s' (kactor a)) f = length (k_msgs s f).
Proof.
  intros H Ha H' f Hf. pose proof (kat_S _ _ _ _ _ _ _ _ Ha H H') as E. pose proof (kat_wf _ _ _ _ _ _ H) as HW.
  pose proof (kat_KN m s H) as KNs. pose proof (kat_fits m s H) as FI. destruct (counter_cnt f Hf) as [F1 F2].
  assert (CK : k_clock s = m). { eapply clock_at; [|exact H]. assert (m < length sched)%nat by (apply nth_error_Some; congruence). lia. }
  unfold amt. rewrite Ha. unfold kstep in E. destruct (kact b s a) as [s1|] eqn:E1; [|discriminate]. injection E as <-.
  destruct a as [t op|t fails picks|t|t k]; cbn [kact kactor] in *.
  - left. split; [|reflexivity]. destruct (nth_error (k_threads s) t) as [[]|]; try discriminate. destruct (kcan_start s t op); [|discriminate]. injection E1 as <-. reflexivity.
  - rewrite (kat_pc m s t H). destruct (nth_error (k_threads s) t) as [p|] eqn:Et; [|discriminate]. apply kstep_shapes in E1.
    assert (OTHER : forall g k v rmw p', (g = FMin \/ g = FMax) -> k_msgs (ktick (kput (written s t g k v rmw) t p')) f = k_msgs s f).
    { intros g k v rmw p' Hg. apply (written_other s t g k v rmw f). destruct Hg; congruence. }
    inversion E1; subst; try (left; split; [reflexivity|reflexivity]); try (left; split; [apply OTHER; auto|reflexivity]).
    + (* add *)
      match goal with L : can_load _ _ _ _ _ |- _ => rename L into CL end. match goal with L : can_write _ _ _ _ |- _ => rename L into CW end.
      destruct (field_eq_dec f0 f) as [->|Hne]; [|left; split; [apply (written_other s t f0 k (wrap64 (v + n0)) true f); congruence|reflexivity]].
      right. pose proof (counter_end _ _ _ _ _ HW CW F1 F2) as EK. exists (wrap64 (v + n0)).
      change (k_msgs (ktick (kput (written s t f k (wrap64 (v + n0)) true) t (after_adds l))) f) with (k_msgs (written s t f k (wrap64 (v + n0)) true) f).
      rewrite written_end by exact EK. split; [reflexivity|]. split.
      * destruct CL as [(m & Em & Ev) _]. replace k with (length (k_msgs s f) - 1)%nat in Em by lia.
        pose proof (nth_last_val _ _ _ Em) as EV. rewrite EV in Ev. rewrite <- Ev. apply wrap64_in.
        pose proof (pend_ge f _ _ _ (N_pos _ _ KNs) Hf Et) as HG. cbn [pend1] in HG.
        assert (sum_for f ((f, n0) :: l) = n0 + sum_for f l) as EQ.
        { unfold sum_for, sum. cbn [map fst snd fold_right]. destruct (field_eq_dec f f); [reflexivity|congruence]. }
        pose proof (Forall_nth _ _ _ _ (N_pos _ _ KNs) Et) as Hq. cbn [pos_pc] in Hq.
        pose proof (Hq f n0 (or_introl eq_refl) Hf) as Hn.
        assert (0 <= sum_for f l) as Hsl by (apply sum_for_nonneg; [intros g' n' Hin; apply Hq; right; exact Hin|exact Hf]).
        destruct FI as (_ & FI & _). specialize (FI f Hf). pose proof (N_val _ _ KNs f Hf) as HV.
        pose proof (N_rise _ _ KNs f Hf _ _ _ _ (Nat.le_refl _) Em Em) as [P0 _]. rewrite EV in P0. lia.
      * assert (LT : (t < length (k_views s))%nat) by (rewrite (W_lenv _ _ HW), <- (W_len _ _ HW); apply nth_error_Some; congruence).
        change (kview_of (ktick (kput (written s t f k (wrap64 (v + n0)) true) t (after_adds l))) t) with (kview_of (written s t f k (wrap64 (v + n0)) true) t).
        rewrite view_written, Nat.eqb_refl by exact LT. cbn [kv kv_set]. destruct (field_eq_dec f f); [lia|congruence].
    + left. split; [reflexivity|]. match goal with L : load_kind _ _ _ |- _ => destruct L; reflexivity end.
    + left. split; [reflexivity|]. match goal with L : ring_op _ _ _ |- _ => destruct L; reflexivity end.
    + left. split; [reflexivity|]. match goal with L : ring_op _ _ _ |- _ => destruct L; reflexivity end.
    + left. split; [reflexivity|]. match goal with L : ring_op _ _ _ |- _ => destruct L; reflexivity end.
    + left. match goal with L : ring_ret _ _ _ _ _ |- _ => destruct (ring_ret_same _ _ _ _ _ L) as (M & _) end. split; [apply M|].
      match goal with L : ring_op _ _ _ |- _ => destruct L; reflexivity end.
  - left. split; [|reflexivity]. destruct (nth_error (k_threads s) t) as [[]|]; try discriminate. destruct (wstep b (k_ring s) (Send t)); [|discriminate]. injection E1 as <-. reflexivity.
  - left. split; [|reflexivity]. destruct (nth_error (k_threads s) t) as [[]|]; try discriminate. destruct (nth_error (k_sent s) k); [|discriminate].
    destruct (wstep b (k_ring s) (Recv t k)); [|discriminate]. injection E1 as <-. reflexivity.
Qed.

Lemma kat_in m s' : kat (S m) = Some s' -> nth_error sched m <> None -> exists s a, kat m = Some s /\ nth_error sched m = Some a.
Proof. intros H N. destruct (kat_prev _ _ _ _ _ _ H) as (s & Hs). destruct (nth_error sched m) as [a|]; [eauto|congruence]. Qed.

(** successive messages of a counter *)
Lemma msg_chain j s : (j <= length sched)%nat -> kat j = Some s -> forall f, In f counter_fields -> forall p m m',
  nth_error (k_msgs s f) p = Some m -> nth_error (k_msgs s f) (S p) = Some m' ->
  exists i, f_by m' = Some i /\ (i < j)%nat /\ f_val m' = f_val m + amt f i.
Proof.
  revert s. induction j as [|j IH]; intros s L H f Hf p m m' Hp Hp'.
  - cbn in H. injection H as <-. cbn in Hp'. destruct p; discriminate.
  - destruct (kat_prev _ _ _ _ _ _ H) as (s1 & H1). destruct (nth_error sched j) as [a|] eqn:Ha; [|apply nth_error_None in Ha; lia].
    destruct (step_counter s1 a s j H1 Ha H f Hf) as [[E Z0]|(v & E & V & _)]; rewrite E in Hp, Hp'.
    + destruct (IH s1 ltac:(lia) H1 f Hf p m m' Hp Hp') as (i & A & B & C). exists i. split; [exact A|]. split; [lia|exact C].
    + destruct (Nat.lt_ge_cases (S p) (length (k_msgs s1 f))) as [Lp|Lp].
      * rewrite nth_error_app1 in Hp, Hp' by lia. destruct (IH s1 ltac:(lia) H1 f Hf p m m' Hp Hp') as (i & A & B & C). exists i. split; [exact A|]. split; [lia|exact C].
      * rewrite nth_error_app2 in Hp' by lia. destruct (S p - length (k_msgs s1 f))%nat as [|[|]] eqn:EP; try discriminate. injection Hp' as <-.
        rewrite nth_error_app1 in Hp by lia. replace p with (length (k_msgs s1 f) - 1)%nat in Hp by lia. apply nth_last_val in Hp.
        exists j. split; [reflexivity|]. split; [lia|]. cbn [f_val]. rewrite V, Hp. reflexivity.
Qed.

(** the difference of two values of a counter is the sum of the additions in between *)
Lemma between j s f p q mp mq : (j <= length sched)%nat -> kat j = Some s -> In f counter_fields -> (p <= q)%nat ->
  nth_error (k_msgs s f) p = Some mp -> nth_error (k_msgs s f) q = Some mq ->
  exists W, NoDup W /\ f_val mq - f_val mp = zsum (amt f) W /\
    forall i, In i W <-> exists r m, (p < r <= q)%nat /\ nth_error (k_msgs s f) r = Some m /\ f_by m = Some i.
Proof.
  intros L H Hf PQ Hp. revert mq. induction PQ as [|q PQ IH]; intros mq Hq.
  - exists []. rewrite Hp in Hq. injection Hq as <-. split; [constructor|]. split; [cbv -[Z.sub f_val]; lia|].
    intros i. split; [intros []|]. intros (r & m & R & _). lia.
  - destruct (nth_error (k_msgs s f) q) as [m0|] eqn:E0.
    2:{ apply nth_error_None in E0. assert (S q < length (k_msgs s f))%nat by (apply nth_error_Some; congruence). lia. }
    destruct (IH m0 eq_refl) as (W & ND & SU & IN). destruct (msg_chain j s L H f Hf q m0 mq E0 Hq) as (i & Bi & Li & Vi).
    exists (i :: W). rewrite zsum_cons. split; [|split; [lia|]].
    + constructor; [|exact ND]. rewrite IN. intros (r & m & R & Hr & Br).
      pose proof (W_inj _ _ (kat_wf _ _ _ _ _ _ H) f r (S q) m mq Hr Hq ltac:(congruence)). lia.
    + intros i'. cbn [In]. rewrite IN. split.
      * intros [<-|(r & m & R & Hr & Br)]; [exists (S q), mq; split; [lia|split; assumption]|exists r, m; split; [lia|split; assumption]].
      * intros (r & m & R & Hr & Br). destruct (Nat.eq_dec r (S q)) as [->|N]; [left; congruence|right]. exists r, m. split; [lia|split; assumption].
Qed.

(** ** The additions of a call *)
(** the last call of thread [t] begun before the [j]-th action *)
Fixpoint lastcall (t j : nat) : option nat :=
  match j with
  | 0%nat => None
  | Datatypes.S j' => match nth_error sched j' with
                      | Some (KStart u _) => if Nat.eqb u t then Some j' else lastcall t j'
                      | _ => lastcall t j'
                      end
  end.
Definition owner (m : nat) : option nat := match nth_error sched m with Some (KStep t _ _) => lastcall t m | _ => None end.

Lemma lastcall_spec t j i : lastcall t j = Some i -> (i < j)%nat /\ (exists op, nth_error sched i = Some (KStart t op)) /\
  forall m op, (i < m < j)%nat -> nth_error sched m <> Some (KStart t op).
Proof.
  induction j as [|j IH]; cbn [lastcall]; [discriminate|].
  assert (OLD : (forall op, nth_error sched j <> Some (KStart t op)) -> lastcall t j = Some i -> (i < S j)%nat /\ (exists op, nth_error sched i = Some (KStart t op)) /\
    forall m op, (i < m < S j)%nat -> nth_error sched m <> Some (KStart t op)).
  { intros N H. destruct (IH H) as (A & B & C). split; [lia|]. split; [exact B|]. intros m op Hm. destruct (Nat.eq_dec m j) as [->|]; [apply N|apply C; lia]. }
  destruct (nth_error sched j) as [[u op|u f p|u|u k]|] eqn:Ej; try (apply OLD; intros; discriminate).
  destruct (Nat.eqb_spec u t) as [->|N].
  - intros [= <-]. split; [lia|]. split; [eauto|]. intros m op' Hm. lia.
  - apply OLD. intros op' [= -> _]. congruence.
Qed.

Lemma lastcall_none t j s : kat j = Some s -> (t < n)%nat -> lastcall t j = None -> nth_error (k_threads s) t = Some AIdle.
Proof.
  intros H Ht N.
  assert (I0 : kpc 0 t = Some AIdle).
  { unfold AllocWeakSpec.kpc. cbn [firstn krun kinit k_threads]. rewrite (nth_error_nth' _ AIdle) by (rewrite repeat_length; exact Ht). rewrite nth_repeat. reflexivity. }
  rewrite <- (kat_pc j s t H). apply (idle_stays t 0 j ltac:(lia) s H I0).
  clear - N. induction j as [|j IH]; [intros; lia|]. cbn [lastcall] in N. intros m op Hm E.
  destruct (Nat.eq_dec m j) as [->|]; [rewrite E, Nat.eqb_refl in N; discriminate|].
  apply (IH) with (m := m) (op := op); [|lia|exact E]. destruct (nth_error sched j) as [[u op'|u f p|u|u k]|]; try exact N.
  destruct (Nat.eqb u t); [discriminate|exact N].
Qed.

Definition tpend (f : field) (t j : nat) : Z := match kpc j t with Some p => pend1 f p | None => 0 end.
Definition pick (P : nat -> bool) (o : option nat) (z : Z) : Z := match o with Some i => if P i then z else 0 | None => 0 end.

Lemma zsum_change g h t m : (t < m)%nat -> (forall u, u <> t -> g u = h u) -> zsum g (seq 0 m) = zsum h (seq 0 m) + g t - h t.
Proof.
  intros L E. induction m as [|m IH]; [lia|]. rewrite seq_S, !zsum_app. cbn [plus]. rewrite !zsum_cons. change (zsum ?z []) with 0.
  destruct (Nat.eq_dec t m) as [->|N].
  - assert (zsum g (seq 0 m) = zsum h (seq 0 m)) as ->; [|lia]. apply zsum_ext. intros x Hx. apply E. apply in_seq in Hx. lia.
  - rewrite IH by lia. rewrite (E m) by congruence. lia.
Qed.
Lemma zsum_same g h m : (forall u, (u < m)%nat -> g u = h u) -> zsum g (seq 0 m) = zsum h (seq 0 m).
Proof. intros E. apply zsum_ext. intros x Hx. apply E. apply in_seq in Hx. lia. Qed.

Lemma step_pend s t fails picks s' m : kat m = Some s -> nth_error sched m = Some (KStep t fails picks) -> kat (S m) = Some s' ->
  forall f, cnt f -> tpend f t m = amt f m + tpend f t (S m).
Proof.
  intros H Ha H' f [F1 F2]. pose proof (kat_S _ _ _ _ _ _ _ _ Ha H H') as E. pose proof (kat_wf _ _ _ _ _ _ H) as HW.
  unfold tpend, amt. rewrite Ha, (kat_pc _ _ _ H), (kat_pc _ _ _ H'). clear H H' Ha.
  unfold kstep in E. destruct (kact b s (KStep t fails picks)) as [s1|] eqn:E1; [|discriminate]. injection E as <-. cbn [kact] in E1.
  destruct (nth_error (k_threads s) t) as [p|] eqn:Et; [|discriminate]. apply kstep_shapes in E1.
  assert (U : forall p', nth_error (upd t p' (k_threads s)) t = Some p').
  { intros p'. rewrite nth_error_upd, Nat.eqb_refl, (proj2 (Nat.ltb_lt _ _)); [reflexivity|]. apply nth_error_Some. congruence. }
  inversion E1; subst; kfld; rewrite ?U, ?Et; try reflexivity.
  - rewrite pend1_after. cbn [pend1]. unfold sum_for at 1, sum. cbn [map fst snd fold_right]. destruct (field_eq_dec f0 f); reflexivity.
  - match goal with L : load_kind _ _ _ |- _ => rename L into LK end. destruct (load_kind_pend _ _ _ LK f v) as [-> _]. destruct LK; reflexivity.
  - match goal with L : ring_op _ _ _ |- _ => destruct L; reflexivity end.
  - match goal with L : ring_op _ _ _ |- _ => destruct L; reflexivity end.
  - match goal with L : ring_op _ _ _ |- _ => destruct L; reflexivity end.
  - match goal with L : ring_ret _ _ _ _ _ |- _ => destruct (ring_ret_msgs _ _ _ _ _ L) as (_ & _ & p' & T & Z0 & _) end. kfld. rewrite T, U, Z0.
    match goal with L : ring_op _ _ _ |- _ => destruct L; reflexivity end.
Qed.

Lemma ledger (P : nat -> bool) f : cnt f -> forall j s, (j <= length sched)%nat -> kat j = Some s ->
  zsum (fun m => pick P (owner m) (amt f m)) (seq 0 j) + zsum (fun t => pick P (lastcall t j) (tpend f t j)) (seq 0 n) =
  zsum (fun i => if P i then contrib_at sched f i else 0) (seq 0 j).
Proof.
  intros CF. induction j as [|j IH]; intros s L H.
  - cbn [seq]. change (zsum ?g []) with 0. assert (zsum (fun t => pick P (lastcall t 0) (tpend f t 0)) (seq 0 n) = 0) as ->; [|reflexivity].
    clear. generalize (seq 0 n) as l. induction l as [|x l IHl]; [reflexivity|]. rewrite zsum_cons, IHl. reflexivity.
  - destruct (kat_prev _ _ _ _ _ _ H) as (s1 & H1). destruct (nth_error sched j) as [a|] eqn:Ha; [|apply nth_error_None in Ha; lia].
    specialize (IH s1 ltac:(lia) H1). rewrite !seq_S, !zsum_app. cbn [plus]. rewrite !zsum_cons. change (zsum ?g []) with 0. rewrite !Z.add_0_r.
    rewrite <- IH. pose proof (kactor_lt _ _ _ _ _ _ _ _ Ha H1 H) as LT. pose proof (kat_wf _ _ _ _ _ _ H1) as HW.
    pose proof (kat_S _ _ _ _ _ _ _ _ Ha H1 H) as E.
    assert (OTH : forall u, u <> kactor a -> tpend f u (S j) = tpend f u j).
    { intros u Hu. unfold tpend. rewrite (kat_pc _ _ _ H), (kat_pc _ _ _ H1), (step_other _ _ _ _ HW E); congruence. }
    destruct a as [t op|t fails picks|t|t k]; cbn [kactor] in *.
    + (* a call begins *)
      rewrite (zsum_change _ (fun t => pick P (lastcall t j) (tpend f t j)) t n LT).
      2:{ intros u Hu. cbn [lastcall]. rewrite Ha, (proj2 (Nat.eqb_neq _ _)) by congruence. rewrite OTH by exact Hu. reflexivity. }
      unfold owner at 2. rewrite Ha. cbn [pick lastcall]. rewrite Ha, Nat.eqb_refl. cbn [pick].
      assert (T0 : tpend f t j = 0 /\ tpend f t (S j) = contrib f op).
      { unfold tpend. rewrite (kat_pc _ _ _ H), (kat_pc _ _ _ H1). unfold kstep in E. cbn [kact] in E.
        destruct (nth_error (k_threads s1) t) as [[]|] eqn:Et; try discriminate. destruct (kcan_start s1 t op); [|discriminate]. injection E as <-. kfld.
        rewrite nth_error_upd, Nat.eqb_refl, (proj2 (Nat.ltb_lt _ _)) by (apply nth_error_Some; congruence). split; [reflexivity|]. destruct CF. apply pend1_first; assumption. }
      destruct T0 as [T0 T1]. rewrite T0, T1. unfold contrib_at. rewrite Ha.
      assert (pick P (lastcall t j) 0 = 0) as ->. { unfold pick. destruct (lastcall t j); [destruct (P n0)|]; reflexivity. }
      destruct (P j); lia.
    + rewrite (zsum_change _ (fun t => pick P (lastcall t j) (tpend f t j)) t n LT).
      2:{ intros u Hu. cbn [lastcall]. rewrite Ha, OTH by exact Hu. reflexivity. }
      unfold owner at 2. rewrite Ha. cbn [lastcall]. rewrite Ha. rewrite (step_pend _ _ _ _ _ _ H1 Ha H f CF). unfold contrib_at. rewrite Ha.
      unfold pick at 2 4 5. destruct (lastcall t j) as [i|]; [destruct (P i)|]; destruct (P j); lia.
    + unfold owner at 2, contrib_at. rewrite Ha. cbn [pick].
      rewrite (zsum_same (fun t0 => pick P (lastcall t0 (S j)) (tpend f t0 (S j))) (fun t => pick P (lastcall t j) (tpend f t j))); [destruct (P j); lia|].
      intros u _. cbn [lastcall]. rewrite Ha. f_equal. destruct (Nat.eq_dec u t) as [->|Hu]; [|apply OTH; exact Hu].
      unfold tpend. rewrite (kat_pc _ _ _ H), (kat_pc _ _ _ H1). unfold kstep in E. cbn [kact] in E.
      destruct (nth_error (k_threads s1) t) as [[]|] eqn:Et; try discriminate. destruct (wstep b (k_ring s1) (Send t)); [|discriminate]. injection E as <-. kfld. rewrite Et. reflexivity.
    + unfold owner at 2, contrib_at. rewrite Ha. cbn [pick].
      rewrite (zsum_same (fun t0 => pick P (lastcall t0 (S j)) (tpend f t0 (S j))) (fun t => pick P (lastcall t j) (tpend f t j))); [destruct (P j); lia|].
      intros u _. cbn [lastcall]. rewrite Ha. f_equal. destruct (Nat.eq_dec u t) as [->|Hu]; [|apply OTH; exact Hu].
      unfold tpend. rewrite (kat_pc _ _ _ H), (kat_pc _ _ _ H1). unfold kstep in E. cbn [kact] in E.
      destruct (nth_error (k_threads s1) t) as [[]|] eqn:Et; try discriminate. destruct (nth_error (k_sent s1) k); [|discriminate].
      destruct (wstep b (k_ring s1) (Recv t k)); [|discriminate]. injection E as <-. kfld. rewrite Et. reflexivity.
Qed.

Lemma call_done t i e j s : call_over i e -> nth_error sched i = Some (KStart t s) -> (e < j)%nat -> lastcall t j = Some i ->
  forall s', kat j = Some s' -> kpc j t = Some AIdle.
Proof.
  intros (t' & op & fails & picks & Hi & He & L & ID & _) Hi' Lj LC s' H. rewrite Hi in Hi'. injection Hi' as -> _.
  destruct (lastcall_spec _ _ _ LC) as (_ & _ & N). apply (idle_stays t (S e) j ltac:(lia) s' H ID). intros m op' Hm. apply N. lia.
Qed.

(** ** What a save point contains *)
Definition snaps (s0 : kst) (t : nat) (s : kst) (acc : list Z) : Prop :=
  forall x f v, nth_error counter_fields x = Some f -> nth_error acc x = Some v ->
  exists q m, nth_error (k_msgs s f) q = Some m /\ f_val m = v /\ (kv (kview_of s0 t) f <= q)%nat.
Definition save_pc (s0 : kst) (t : nat) (s : kst) (p : apc) : Prop :=
  match p with
  | SSnap _ todo acc => (exists l, snapshot_fields = l ++ todo /\ length l = length acc) /\ snaps s0 t s acc
  | SLoadMin | SLoadMax _ | SEnq _ _ | SConsumer | SLoadCur1 _ | SStoreMin _ _ | SLoadCur2 _ | SStoreMax _ _ | APanicked _ => True
  | _ => False
  end.
Lemma snaps_fwd s0 t s s' acc : fwd n s s' -> snaps s0 t s acc -> snaps s0 t s' acc.
Proof.
  intros F H x f v Hf Hv. destruct (H x f v Hf Hv) as (q & m & E & V & L). exists q, m. split; [|auto].
  destruct (F_msgs _ _ _ F f (counter_cnt f (nth_error_In _ _ Hf))) as (l & ->). rewrite nth_error_app1; [exact E|apply nth_error_Some; congruence].
Qed.
Lemma save_pc_fwd s0 t s s' p : fwd n s s' -> save_pc s0 t s p -> save_pc s0 t s' p.
Proof. intros F. destruct p; cbn [save_pc]; auto. intros [A B]. split; [exact A|eapply snaps_fwd; eassumption]. Qed.

Lemma snap_field l f todo x g : snapshot_fields = l ++ f :: todo -> nth_error counter_fields x = Some g -> x = length l -> g = f.
Proof.
  intros E Hg ->. assert (nth_error snapshot_fields (length l) = Some f) as Q. { rewrite E, nth_error_app2, Nat.sub_diag by lia. reflexivity. }
  unfold snapshot_fields in Q. rewrite nth_error_app1 in Q by (apply nth_error_Some; congruence). congruence.
Qed.

Lemma save_step s0 t s fails picks s' p : KWf n s -> kstep b s (KStep t fails picks) = Some s' -> nth_error (k_threads s) t = Some p ->
  (forall f, cnt f -> (kv (kview_of s0 t) f <= kv (kview_of s t) f)%nat) -> save_pc s0 t s p ->
  (exists p', nth_error (k_threads s') t = Some p' /\ save_pc s0 t s' p') \/
  (nth_error (k_threads s') t = Some AIdle /\ exists c acc, k_sps s' = k_sps s ++ [(c, acc)] /\ length acc = 12%nat /\ snaps s0 t s' acc).
Proof.
  intros HW E Et VM SP. pose proof (step_fwd _ _ _ _ _ HW E) as FW.
  unfold kstep in E. destruct (kact b s (KStep t fails picks)) as [s1|] eqn:E1; [|discriminate]. injection E as <-. cbn [kact] in E1.
  rewrite Et in E1. apply kstep_shapes in E1.
  assert (U : forall p', nth_error (upd t p' (k_threads s)) t = Some p').
  { intros p'. rewrite nth_error_upd, Nat.eqb_refl, (proj2 (Nat.ltb_lt _ _)); [reflexivity|]. apply nth_error_Some. congruence. }
  inversion E1; subst; cbn [save_pc] in SP; try contradiction;
    try (left; eexists; split; [apply U|exact I]).
  - (* load *)
    left. exists (next v). split; [apply U|].
    match goal with L : load_kind _ _ _ |- _ => rename L into LK end. match goal with L : can_load _ _ _ _ _ |- _ => rename L into CL end.
    inversion LK; subst; cbn [save_pc] in *; try contradiction; try exact I.
    destruct SP as [(l & El & Ll) SN]. split.
    + exists (l ++ [f]). rewrite <- app_assoc. split; [exact El|]. rewrite !app_length, Ll. reflexivity.
    + intros x g w Hg Hw. destruct (Nat.lt_ge_cases x (length acc)) as [L|L].
      * rewrite nth_error_app1 in Hw by exact L. exact (SN x g w Hg Hw).
      * rewrite nth_error_app2 in Hw by exact L. destruct (x - length acc)%nat as [|[|]] eqn:Ei; try discriminate. injection Hw as <-.
        assert (g = f) as ->. { eapply snap_field; [exact El|exact Hg|lia]. }
        destruct CL as [(m & Em & Ev) CL]. exists k, m. split; [exact Em|]. split; [exact Ev|].
        specialize (VM f (counter_cnt f (nth_error_In _ _ Hg))). lia.
  - left. exists (SSnap c snapshot_fields []). split; [apply U|]. cbn [save_pc]. split; [exists []; split; reflexivity|].
    intros x f w _ Hw. destruct x; discriminate.
  - right. split; [apply U|]. exists c, acc. destruct SP as [(l & El & Ll) SN]. rewrite app_nil_r in El. subst l.
    split; [reflexivity|]. split; [symmetry; exact Ll|]. exact SN.
  - left. exists p. kfld. split; [exact Et|]. destruct p; try contradiction; exact I || (match goal with L : ring_op _ _ _ |- _ => inversion L end).
  - left. exists p. kfld. split; [exact Et|]. destruct p; try contradiction; exact I || (match goal with L : ring_op _ _ _ |- _ => inversion L end).
  - match goal with L : ring_ret _ _ _ _ _ |- _ => inversion L; subst end; cbn [save_pc] in SP; try contradiction;
      left; eexists; (split; [apply U|exact I]).
Qed.

(** between the call and the return of save_point *)
Lemma save_path i e t s0 : nth_error sched i = Some (KStart t OSave) -> call_over i e -> kat i = Some s0 ->
  forall j, (i < j)%nat -> (j <= e)%nat -> forall s, kat j = Some s -> exists p, nth_error (k_threads s) t = Some p /\ save_pc s0 t s p.
Proof.
  intros Hi (t' & op & fails & picks & Hi' & He & L & ID & NI) H0. rewrite Hi in Hi'. injection Hi' as <- <-.
  assert (LE : (e < length sched)%nat) by (apply nth_error_Some; congruence).
  induction 1 as [|j Lj IH]; intros Le s H.
  - pose proof (kat_S _ _ _ _ _ _ _ _ Hi H0 H) as E. unfold kstep in E. cbn [kact] in E.
    destruct (nth_error (k_threads s0) t) as [[]|] eqn:Et; try discriminate. cbn [kcan_start] in E. injection E as <-. kfld.
    exists SLoadMin. split; [|exact I]. rewrite nth_error_upd, Nat.eqb_refl, (proj2 (Nat.ltb_lt _ _)); [reflexivity|]. apply nth_error_Some. congruence.
  - destruct (kat_prev _ _ _ _ _ _ H) as (s1 & H1). destruct (IH ltac:(lia) s1 H1) as (p & Ep & SP). pose proof (kat_wf _ _ _ _ _ _ H1) as HW.
    destruct (nth_error sched j) as [a|] eqn:Ha; [|apply nth_error_None in Ha; lia].
    pose proof (kat_S _ _ _ _ _ _ _ _ Ha H1 H) as E.
    destruct (Nat.eq_dec (kactor a) t) as [Q|Q].
    2:{ exists p. rewrite (step_other _ _ _ _ HW E Q). split; [exact Ep|]. eapply save_pc_fwd; [eapply step_fwd; eassumption|exact SP]. }
    assert (NJ : nth_error (k_threads s) t <> Some AIdle) by (rewrite <- (kat_pc _ _ _ H); apply NI; lia).
    assert (NJ1 : nth_error (k_threads s1) t <> Some AIdle) by (rewrite <- (kat_pc _ _ _ H1); apply NI; lia).
    destruct a as [t0 op|t0 fails' picks'|t0|t0 k0]; cbn [kactor] in Q; subst t0.
    + exfalso. unfold kstep in E. cbn [kact] in E. destruct (nth_error (k_threads s1) t) as [[]|]; try discriminate. congruence.
    + destruct (save_step s0 t s1 _ _ s p HW E Ep) as [K|[K _]]; [|exact SP|exact K|congruence].
      intros f Hf. assert (i <= j)%nat by lia. pose proof (kat_fwd i j s0 s1 ltac:(lia) H0 H1) as FW. apply (F_views _ _ _ FW); [|exact Hf].
      rewrite <- (W_len _ _ HW). apply nth_error_Some. congruence.
    + exfalso. unfold kstep in E. cbn [kact] in E. destruct (nth_error (k_threads s1) t) as [[]|]; try discriminate. congruence.
    + exfalso. unfold kstep in E. cbn [kact] in E. destruct (nth_error (k_threads s1) t) as [[]|]; try discriminate. congruence.
Qed.
Lemma save_end i e k s' : save_over b sz n sched i e k -> kat (S e) = Some s' ->
  exists t s0 c acc, nth_error sched i = Some (KStart t OSave) /\ kat i = Some s0 /\ nth_error (k_sps s') k = Some (c, acc) /\ length acc = 12%nat /\ snaps s0 t s' acc.
Proof.
  intros ((t & Hi) & CO & (s & Hs & Lk)) H'. change (kat e = Some s) in Hs. pose proof CO as CO'.
  destruct CO' as (t' & op & fails & picks & Hi' & He & L & ID & NI). rewrite Hi in Hi'. injection Hi' as <- <-.
  destruct (kat_le _ _ _ _ i e s ltac:(lia) Hs) as (s0 & H0).
  destruct (save_path i e t s0 Hi CO H0 e L ltac:(lia) s Hs) as (p & Ep & SP).
  pose proof (kat_S _ _ _ _ _ _ _ _ He Hs H') as E. pose proof (kat_wf _ _ _ _ _ _ Hs) as HW.
  destruct (save_step s0 t s _ _ s' p HW E Ep) as [(p' & Ep' & K)|(_ & c & acc & K & LA & SN)]; [|exact SP| |].
  - intros f Hf. pose proof (kat_fwd i e s0 s ltac:(lia) H0 Hs) as FW. apply (F_views _ _ _ FW); [|exact Hf].
    rewrite <- (W_len _ _ HW). apply nth_error_Some. congruence.
  - rewrite (kat_pc _ _ _ H') in ID. rewrite Ep' in ID. injection ID as ->. destruct K.
  - exists t, s0, c, acc. split; [exact Hi|]. split; [exact H0|]. split; [|split; [exact LA|exact SN]].
    rewrite K, nth_error_app2, Lk, Nat.sub_diag by lia. reflexivity.
Qed.

(** ** What delta_statistics answers *)
Definition diffs (s0 : kst) (u : nat) (s : kst) (sp : Z * list Z) (acc : list Z) : Prop :=
  forall x f d, nth_error counter_fields x = Some f -> nth_error acc x = Some d ->
  exists q m, nth_error (k_msgs s f) q = Some m /\ d = f_val m - snap_at sp x /\ (kv (kview_of s0 u) f <= q)%nat.
Definition delta_pc (s0 : kst) (u k : nat) (s : kst) (p : apc) : Prop :=
  match p with
  | DPeek k' | DMin k' _ _ | DMax k' _ _ => k' = k
  | DLoads k' _ _ todo acc => k' = k /\ (exists l, counter_fields = l ++ todo /\ length l = length acc) /\
      forall sp, nth_error (k_sps s) k = Some sp -> diffs s0 u s sp acc
  | APanicked _ => True
  | _ => False
  end.
Lemma diffs_fwd s0 u s s' sp acc : fwd n s s' -> diffs s0 u s sp acc -> diffs s0 u s' sp acc.
Proof.
  intros F H x f v Hf Hv. destruct (H x f v Hf Hv) as (q & m & E & V & L). exists q, m. split; [|auto].
  destruct (F_msgs _ _ _ F f (counter_cnt f (nth_error_In _ _ Hf))) as (l & ->). rewrite nth_error_app1; [exact E|apply nth_error_Some; congruence].
Qed.
Lemma sps_fwd s s' k sp : fwd n s s' -> (k < length (k_sps s))%nat -> nth_error (k_sps s') k = Some sp -> nth_error (k_sps s) k = Some sp.
Proof. intros F L H. destruct (F_sps _ _ _ F) as (l & E). rewrite E, nth_error_app1 in H by exact L. exact H. Qed.
Lemma delta_pc_fwd s0 u k s s' p : fwd n s s' -> (k < length (k_sps s))%nat -> delta_pc s0 u k s p -> delta_pc s0 u k s' p.
Proof.
  intros F LK. destruct p; cbn [delta_pc]; auto. intros (A & B & C). split; [exact A|]. split; [exact B|].
  intros sp Hsp. eapply diffs_fwd; [exact F|]. apply C. eapply sps_fwd; eassumption.
Qed.
Lemma delta_step s0 u k s fails picks s' p : KS sz n s -> fits (k_started s) -> kstep b s (KStep u fails picks) = Some s' -> nth_error (k_threads s) u = Some p ->
  (forall f, cnt f -> (kv (kview_of s0 u) f <= kv (kview_of s u) f)%nat) -> (k < length (k_sps s))%nat -> delta_pc s0 u k s p ->
  (exists p', nth_error (k_threads s') u = Some p' /\ delta_pc s0 u k s' p') \/
  (nth_error (k_threads s') u = Some AIdle /\ exists o, k_deltas s' = k_deltas s ++ [(k, o)] /\
     forall ds sp, o = Some ds -> nth_error (k_sps s) k = Some sp -> exists acc v mn mx, ds = acc ++ [v; mn; mx] /\ length acc = 9%nat /\ diffs s0 u s' sp acc).
Proof.
  intros KSs FI E Et VM LK SP. pose proof KSs as (KNs & RGs & KTs & KPs). pose proof (N_wf _ _ KNs) as HW. pose proof (step_fwd _ _ _ _ _ HW E) as FW.
  unfold kstep in E. destruct (kact b s (KStep u fails picks)) as [s1|] eqn:E1; [|discriminate]. injection E as <-. cbn [kact] in E1.
  rewrite Et in E1. apply kstep_shapes in E1.
  assert (Hu : (u < n)%nat) by (rewrite <- (W_len _ _ HW); apply nth_error_Some; congruence).
  assert (U : forall p', nth_error (upd u p' (k_threads s)) u = Some p').
  { intros p'. rewrite nth_error_upd, Nat.eqb_refl, (proj2 (Nat.ltb_lt _ _)); [reflexivity|]. apply nth_error_Some. congruence. }
  inversion E1; subst; cbn [delta_pc] in SP; try contradiction;
    try (left; eexists; split; [apply U|exact I]).
  - left. exists (next v). split; [apply U|].
    match goal with L : load_kind _ _ _ |- _ => rename L into LD end.
    inversion LD; subst; cbn [delta_pc] in *; try contradiction; try exact SP.
    split; [exact SP|]. split; [exists []; split; reflexivity|]. intros sp _ x f d _ Hd. destruct x; discriminate.
  - left. exists p. kfld. split; [exact Et|]. match goal with L : ring_op _ _ _ |- _ => inversion L; subst end; try contradiction. exact SP.
  - left. exists p. kfld. split; [exact Et|]. match goal with L : ring_op _ _ _ |- _ => inversion L; subst end; try contradiction. exact SP.
  - match goal with L : ring_ret _ _ _ _ _ |- _ => inversion L; subst end; cbn [delta_pc] in SP; try contradiction.
    + right. split; [apply U|]. exists None. split; [subst; reflexivity|]. discriminate.
    + left. eexists. split; [apply U|]. exact SP.
    + left. eexists. split; [apply U|]. exact I.
  - (* a load *)
    match goal with L : can_load _ _ _ _ _ |- _ => rename L into CL end. match goal with L : usize_sub _ _ _ = Val _ |- _ => rename L into US end.
    match goal with L : nth_error (k_sps s) _ = Some _ |- _ => rename L into ES end.
    left. eexists. split; [apply U|]. destruct SP as (-> & (l & El & Ll) & SN). cbn [delta_pc]. split; [reflexivity|]. split.
    + exists (l ++ [f]). rewrite <- app_assoc. split; [exact El|]. rewrite !app_length, Ll. reflexivity.
    + intros sp Hsp y g dd Hg Hd. change (nth_error (k_sps s) k = Some sp) in Hsp. destruct (Nat.lt_ge_cases y (length acc)) as [L|L].
      * rewrite nth_error_app1 in Hd by exact L. exact (SN sp Hsp y g dd Hg Hd).
      * rewrite nth_error_app2 in Hd by exact L. destruct (y - length acc)%nat as [|[|]] eqn:Ei; try discriminate. injection Hd as <-.
        rewrite ES in Hsp. injection Hsp as <-.
        assert (Hf : nth_error counter_fields (length acc) = Some f). { rewrite El, nth_error_app2, Ll, Nat.sub_diag by lia. reflexivity. }
        assert (y = length acc) as -> by lia. rewrite Hf in Hg. injection Hg as <-.
        pose proof (nth_error_In _ _ Hf) as Hin.
        pose proof (T_pcs _ _ KTs u _ Et) as PQ. cbn [pcq] in PQ. destruct PQ as (Q1 & _).
        destruct (T_views _ _ KTs u Hu k Q1) as (sp & E0 & L12 & SNP & _). rewrite ES in E0. injection E0 as <-.
        assert (LA : (length acc < 9)%nat) by (change 9%nat with (length counter_fields); apply nth_error_Some; congruence).
        destruct (nth_error (snd x) (length acc)) as [v0|] eqn:Ev0; [|apply nth_error_None in Ev0; lia].
        destruct (SNP _ _ _ Hf Ev0) as (pp & m & Em & Vm & Lp). destruct CL as [(m' & Em' & Vm') CL].
        pose proof (N_rise _ _ KNs f Hin pp i m m' ltac:(lia) Em Em') as RS.
        assert (UB : f_val m' < two64).
        { destruct (nth_error (k_msgs s f) (length (k_msgs s f) - 1)) as [ml|] eqn:EL.
          - assert (i < length (k_msgs s f))%nat by (apply nth_error_Some; congruence).
            pose proof (N_rise _ _ KNs f Hin i (length (k_msgs s f) - 1)%nat m' ml ltac:(lia) Em' EL) as RS2. pose proof (nth_last_val _ _ _ EL) as VL.
            pose proof (N_val _ _ KNs f Hin) as NV.
            assert (0 <= pend f (k_threads s)).
            { pose proof (pend_ge f _ _ _ (N_pos _ _ KNs) Hin Et) as PG. cbn [pend1] in PG. exact PG. }
            destruct FI as (_ & FI & _). specialize (FI f Hin). lia.
          - apply nth_error_None in EL. assert (i < length (k_msgs s f))%nat by (apply nth_error_Some; congruence). lia. }
        exists i, m'. split; [exact Em'|]. split; [|specialize (VM f (counter_cnt f Hin)); lia].
        unfold usize_sub, snap_at in US. erewrite (nth_error_nth (snd x)) in US by exact Ev0. rewrite checked_in in US by lia.
        injection US as <-. unfold snap_at. erewrite (nth_error_nth (snd x)) by exact Ev0. lia.
  - right. split; [apply U|]. destruct SP as (-> & (l & El & Ll) & SN). exists (Some (acc ++ [v; mn; mx])). split; [reflexivity|].
    intros ds sp Q Hsp. injection Q as <-. exists acc, v, mn, mx. split; [reflexivity|]. rewrite app_nil_r in El. subst l. split; [symmetry; exact Ll|].
    exact (SN sp Hsp).
Qed.

Lemma delta_path i e u k s0 : nth_error sched i = Some (KStart u (ODelta k)) -> call_over i e -> kat i = Some s0 -> (k < length (k_sps s0))%nat ->
  forall j, (i < j)%nat -> (j <= e)%nat -> forall s, kat j = Some s -> exists p, nth_error (k_threads s) u = Some p /\ delta_pc s0 u k s p.
Proof.
  intros Hi (t' & op & fails & picks & Hi' & He & L & ID & NI) H0 LK. rewrite Hi in Hi'. injection Hi' as <- <-.
  assert (LE : (e < length sched)%nat) by (apply nth_error_Some; congruence).
  induction 1 as [|j Lj IH]; intros Le s H.
  - pose proof (kat_S _ _ _ _ _ _ _ _ Hi H0 H) as E. unfold kstep in E. cbn [kact] in E.
    destruct (nth_error (k_threads s0) u) as [[]|] eqn:Et; try discriminate. destruct (kcan_start s0 u (ODelta k)); [|discriminate]. injection E as <-. kfld.
    exists (DPeek k). split; [|reflexivity]. rewrite nth_error_upd, Nat.eqb_refl, (proj2 (Nat.ltb_lt _ _)); [reflexivity|]. apply nth_error_Some. congruence.
  - destruct (kat_prev _ _ _ _ _ _ H) as (s1 & H1). destruct (IH ltac:(lia) s1 H1) as (p & Ep & SP). pose proof (kat_wf _ _ _ _ _ _ H1) as HW.
    destruct (nth_error sched j) as [a|] eqn:Ha; [|apply nth_error_None in Ha; lia].
    pose proof (kat_S _ _ _ _ _ _ _ _ Ha H1 H) as E. pose proof (kat_fwd i j s0 s1 ltac:(lia) H0 H1) as FW.
    assert (LK1 : (k < length (k_sps s1))%nat) by (destruct (F_sps _ _ _ FW) as (l & ->); rewrite app_length; lia).
    destruct (Nat.eq_dec (kactor a) u) as [Q|Q].
    2:{ exists p. rewrite (step_other _ _ _ _ HW E Q). split; [exact Ep|]. eapply delta_pc_fwd; [eapply step_fwd; eassumption|exact LK1|exact SP]. }
    assert (NJ : nth_error (k_threads s) u <> Some AIdle) by (rewrite <- (kat_pc _ _ _ H); apply NI; lia).
    assert (NJ1 : nth_error (k_threads s1) u <> Some AIdle) by (rewrite <- (kat_pc _ _ _ H1); apply NI; lia).
    destruct a as [t0 op|t0 fails' picks'|t0|t0 k0]; cbn [kactor] in Q; subst t0.
    + exfalso. unfold kstep in E. cbn [kact] in E. destruct (nth_error (k_threads s1) u) as [[]|]; try discriminate. congruence.
    + destruct (delta_step s0 u k s1 _ _ s p (kat_KS j s1 H1) (kat_fits j s1 H1) E Ep) as [K|[K _]]; [|exact LK1|exact SP|exact K|congruence].
      intros f Hf. apply (F_views _ _ _ FW); [|exact Hf]. rewrite <- (W_len _ _ HW). apply nth_error_Some. congruence.
    + exfalso. unfold kstep in E. cbn [kact] in E. destruct (nth_error (k_threads s1) u) as [[]|]; try discriminate. congruence.
    + exfalso. unfold kstep in E. cbn [kact] in E. destruct (nth_error (k_threads s1) u) as [[]|]; try discriminate. congruence.
Qed.
Lemma delta_end i e k ds s' : delta_over b sz n sched i e k ds -> kat (S e) = Some s' ->
  exists u s0, nth_error sched i = Some (KStart u (ODelta k)) /\ kat i = Some s0 /\ (k < length (k_sps s0))%nat /\
  forall sp, nth_error (k_sps s') k = Some sp -> exists acc v mn mx, ds = acc ++ [v; mn; mx] /\ length acc = 9%nat /\ diffs s0 u s' sp acc.
Proof.
  intros ((u & Hi) & CO & (s & s'' & Hs & Hs' & DS)) H'. change (kat e = Some s) in Hs. change (kat (S e) = Some s'') in Hs'. rewrite H' in Hs'. injection Hs' as <-.
  pose proof CO as CO'. destruct CO' as (t' & op & fails & picks & Hi' & He & L & ID & NI). rewrite Hi in Hi'. injection Hi' as <- <-.
  destruct (kat_le _ _ _ _ i e s ltac:(lia) Hs) as (s0 & H0). destruct (kat_le _ _ _ _ (S i) e s ltac:(lia) Hs) as (si & Hsi).
  assert (LK : (k < length (k_sps s0))%nat).
  { pose proof (kat_S _ _ _ _ _ _ _ _ Hi H0 Hsi) as E. unfold kstep in E. cbn [kact] in E.
    destruct (nth_error (k_threads s0) u) as [[]|] eqn:Et; try discriminate. cbn [kcan_start] in E.
    destruct (in_dec Nat.eq_dec k (refs (kview_of s0 u))) as [R|]; [|discriminate]. pose proof (kat_KS i s0 H0) as (_ & _ & KT0 & _).
    destruct (T_views _ _ KT0 u) with (k := k) as (sp & Hsp & _); [|exact R|].
    - rewrite <- (W_len _ _ (kat_wf _ _ _ _ _ _ H0)). apply nth_error_Some. congruence.
    - apply nth_error_Some. congruence. }
  exists u, s0. split; [exact Hi|]. split; [exact H0|]. split; [exact LK|].
  destruct (delta_path i e u k s0 Hi CO H0 LK e L ltac:(lia) s Hs) as (p & Ep & SP).
  pose proof (kat_S _ _ _ _ _ _ _ _ He Hs H') as E. pose proof (kat_wf _ _ _ _ _ _ Hs) as HW. pose proof (kat_fwd i e s0 s ltac:(lia) H0 Hs) as FW.
  assert (LK1 : (k < length (k_sps s))%nat) by (destruct (F_sps _ _ _ FW) as (l & ->); rewrite app_length; lia).
  destruct (delta_step s0 u k s _ _ s' p (kat_KS e s Hs) (kat_fits e s Hs) E Ep) as [(p' & Ep' & K)|(_ & o & K & AN)]; [|exact LK1|exact SP| |].
  - intros f Hf. apply (F_views _ _ _ FW); [|exact Hf]. rewrite <- (W_len _ _ HW). apply nth_error_Some. congruence.
  - rewrite (kat_pc _ _ _ H') in ID. rewrite Ep' in ID. injection ID as ->. destruct K.
  - rewrite K in DS. apply app_inv_head in DS. injection DS as ->. intros sp Hsp. apply (AN ds sp eq_refl).
    eapply sps_fwd; [eapply step_fwd; eassumption|exact LK1|exact Hsp].
Qed.

(** ** Where the additions of a call end up *)
(** an addition by an action before [j], known to the thread that acts at [j] *)
Lemma add_position m j s s1 f : In f counter_fields -> kat m = Some s1 -> amt f m <> 0 -> (m < j)%nat -> kat j = Some s ->
  exists v, nth_error (k_msgs s f) (length (k_msgs s1 f)) = Some (FMsg v true (Some m)).
Proof.
  intros Hf H1 NZ L H. destruct (kat_le _ _ _ _ (S m) j s ltac:(lia) H) as (s2 & H2).
  destruct (nth_error sched m) as [a|] eqn:Ha; [|unfold amt in NZ; rewrite Ha in NZ; congruence].
  destruct (step_counter s1 a s2 m H1 Ha H2 f Hf) as [[_ Z0]|(v & E & _)]; [congruence|].
  exists v. destruct (F_msgs _ _ _ (kat_fwd (S m) j s2 s ltac:(lia) H2 H) f (counter_cnt f Hf)) as (l & ->). rewrite E.
  rewrite nth_error_app1 by (rewrite app_length; cbn [length]; lia). rewrite nth_error_app2, Nat.sub_diag by lia. reflexivity.
Qed.
Lemma add_known m j a s s' s1 f : In f counter_fields -> kat m = Some s1 -> amt f m <> 0 -> khb sched m j ->
  nth_error sched j = Some a -> kis_recv a = false -> kat j = Some s -> kat (S j) = Some s' ->
  (length (k_msgs s1 f) <= kv (kview_of s (kactor a)) f)%nat.
Proof.
  intros Hf H1 NZ HB Ha RC H H'. pose proof (khb_lt sched m j HB) as L. destruct (kat_le _ _ _ _ (S m) j s ltac:(lia) H) as (s2 & H2).
  destruct (nth_error sched m) as [a0|] eqn:Ha0; [|unfold amt in NZ; rewrite Ha0 in NZ; congruence].
  destruct (step_counter s1 a0 s2 m H1 Ha0 H2 f Hf) as [[_ Z0]|(v & E & _ & K)]; [congruence|].
  destruct (khb_views b sz n sched m j HB a0 a s2 s s' Ha0 Ha H2 H H') as (_ & V). specialize (V RC). destruct V as (V & _).
  destruct (V f m) as (p & mm & Hp & Hm & Lp).
  - exists (length (k_msgs s1 f)), (FMsg v true (Some m)). rewrite E, nth_error_app2, Nat.sub_diag by lia. split; [reflexivity|]. split; [reflexivity|lia].
  - destruct (add_position m j s s1 f Hf H1 NZ L H) as (v' & Q).
    pose proof (W_inj _ _ (kat_wf _ _ _ _ _ _ H) f p _ mm _ Hp Q Hm). lia.
Qed.
Lemma in_call t m : nth_error sched m <> None -> forall s, kat m = Some s -> (t < n)%nat -> nth_error (k_threads s) t <> Some AIdle ->
  exists i, lastcall t m = Some i.
Proof. intros _ s H Ht N. destruct (lastcall t m) eqn:E; [eauto|]. elim N. eapply lastcall_none; eassumption. Qed.

Lemma amt_step f m : amt f m <> 0 -> exists t fails picks g x l, nth_error sched m = Some (KStep t fails picks) /\ kpc m t = Some (AAdds ((g, x) :: l)).
Proof.
  unfold amt. destruct (nth_error sched m) as [[t op|t fails picks|t|t k]|]; try congruence.
  destruct (kpc m t) as [p|] eqn:Ep; [|congruence]. destruct p; try congruence. destruct l as [|[g x] l]; [congruence|]. intros _.
  exists t, fails, picks, g, x, l. auto.
Qed.
Lemma mid_call m j i f : amt f m <> 0 -> owner m = Some i -> (m < j)%nat -> forall s, kat j = Some s ->
  exists t op, nth_error sched i = Some (KStart t op) /\ (i < m)%nat /\ forall e, call_over i e -> (m <= e)%nat /\ (khb sched e j -> khb sched m j).
Proof.
  intros NZ OW L s H. destruct (amt_step f m NZ) as (t & fails & picks & g & x & l & Hm & Hp). unfold owner in OW. rewrite Hm in OW.
  destruct (lastcall_spec _ _ _ OW) as (Li & (op & Hi) & N). exists t, op. split; [exact Hi|]. split; [exact Li|].
  intros e CO. destruct (kat_le _ _ _ _ m j s ltac:(lia) H) as (s1 & H1).
  destruct (Nat.lt_ge_cases e m) as [Le|Le].
  - exfalso. pose proof (call_done t i e m op CO Hi Le OW s1 H1) as D. rewrite Hp in D. discriminate.
  - split; [exact Le|]. intros K. destruct (Nat.eq_dec m e) as [->|Ne]; [exact K|].
    destruct CO as (t' & op' & f' & p' & Hi' & He & _). rewrite Hi in Hi'. injection Hi' as <- <-.
    eapply khb_trans; [|exact K]. eapply khb_thread; [|exact Hm|exact He|reflexivity]. lia.
Qed.

Lemma contrib_at_nonneg f i : In f counter_fields -> 0 <= contrib_at sched f i.
Proof.
  intros Hf. unfold contrib_at. destruct (nth_error sched i) as [[t op|t fails picks|t|t k]|] eqn:E; try lia.
  assert (sizes_ok op) as Hop.
  { destruct HF as [F _]. rewrite Forall_forall in F. apply F. unfold kcalls. apply in_flat_map. exists (KStart t op). split; [eapply nth_error_In; exact E|left; reflexivity]. }
  destruct (counter_cnt f Hf) as [F1 F2]. rewrite <- pend1_first by assumption. apply pend1_nonneg; [|exact Hf].
  apply pos_first. exact Hop.
Qed.

Lemma zsum_filter (P : nat -> bool) g l : zsum g (filter P l) = zsum (fun x => if P x then g x else 0) l.
Proof. induction l as [|x l IH]; [reflexivity|]. cbn [filter]. rewrite zsum_cons. destruct (P x); [rewrite zsum_cons|]; lia. Qed.
Lemma zsum_le g h l : (forall x, In x l -> g x <= h x) -> zsum g l <= zsum h l.
Proof. intros H. induction l as [|x l IH]; [apply Z.le_refl|]. rewrite !zsum_cons. pose proof (H x (or_introl eq_refl)). assert (zsum g l <= zsum h l) by (apply IH; intros; apply H; right; assumption). lia. Qed.
Lemma zsum_nonneg_in g l : (forall x, In x l -> 0 <= g x) -> 0 <= zsum g l.
Proof. intros H. replace 0 with (zsum (fun _ => 0) l); [apply zsum_le; exact H|]. clear H. induction l as [|x l IH]; [reflexivity|]. rewrite zsum_cons, IH. reflexivity. Qed.

Definition pos_amt (f : field) (m : nat) : Z := Z.max 0 (amt f m).
Lemma amt_pos f m s : In f counter_fields -> kat m = Some s -> pos_amt f m = amt f m.
Proof. intros Hf H. unfold pos_amt. pose proof (amt_nonneg f m s Hf H). lia. Qed.
Definition chosen (I : list nat) (i : nat) : bool := if in_dec Nat.eq_dec i I then true else false.
Lemma chosen_in I i : chosen I i = true <-> In i I.
Proof. unfold chosen. destruct (in_dec Nat.eq_dec i I); split; auto; discriminate. Qed.

Theorem delta_counts si se k di de ds x f d s :
  krun b (kinit sz n) sched = Some s -> save_over b sz n sched si se k -> delta_over b sz n sched di de k ds ->
  nth_error counter_fields x = Some f -> nth_error ds x = Some d ->
  (forall I, NoDup I -> (forall i, In i I -> (se < i)%nat /\ exists e, call_over i e /\ khb sched e di) -> zsum (contrib_at sched f) I <= d) /\
  (forall J, (forall i t op, (i < de)%nat -> nth_error sched i = Some (KStart t op) -> In i J \/ exists e, call_over i e /\ khb sched e si) ->
     d <= zsum (contrib_at sched f) J).
Proof.
  intros R SO DO Hf Hd. pose proof (nth_error_In _ _ Hf) as Hin. pose proof (counter_cnt f Hin) as CF.
  assert (HEND : kat (length sched) = Some s) by (unfold kat; rewrite firstn_all; exact R).
  assert (Ldi : (di < de)%nat /\ (de < length sched)%nat).
  { destruct DO as (_ & (t & op & fa & pi & _ & He & L & _) & _). split; [exact L|apply nth_error_Some; congruence]. }
  assert (Lsi : (si < se)%nat /\ (se < length sched)%nat).
  { destruct SO as (_ & (t & op & fa & pi & _ & He & L & _) & _). split; [exact L|apply nth_error_Some; congruence]. }
  destruct (kat_le _ _ _ _ (S de) (length sched) s ltac:(lia) HEND) as (s2 & H2).
  destruct (kat_le _ _ _ _ (S se) (length sched) s ltac:(lia) HEND) as (s1 & H1).
  destruct (save_end si se k s1 SO H1) as (t & s0 & c & sacc & Hsi & H0 & Hsp & Lsacc & SN).
  destruct (delta_end di de k ds s2 DO H2) as (u & sd & Hdi & Hd0 & LK & AN).
  (* the save point was returned before delta_statistics was called *)
  assert (BEF : (se < di)%nat).
  { destruct (Nat.lt_ge_cases se di) as [|G]; [assumption|exfalso].
    destruct SO as (_ & _ & (sx & Hx & Lx)). change (kat se = Some sx) in Hx.
    destruct (F_sps _ _ _ (kat_fwd di se sd sx G Hd0 Hx)) as (l & E). rewrite E, app_length in Lx. lia. }
  pose proof (kat_fwd (S se) (S de) s1 s2 ltac:(lia) H1 H2) as FW12.
  assert (SP2 : nth_error (k_sps s2) k = Some (c, sacc)).
  { destruct (F_sps _ _ _ FW12) as (l & ->). rewrite nth_error_app1; [exact Hsp|apply nth_error_Some; congruence]. }
  destruct (AN _ SP2) as (acc & v & mn & mx & -> & Lacc & DF).
  assert (Lx : (x < 9)%nat) by (change 9%nat with (length counter_fields); apply nth_error_Some; congruence).
  rewrite nth_error_app1 in Hd by lia. destruct (DF x f d Hf Hd) as (pd & md & Epd & Vd & Lpd).
  destruct (nth_error sacc x) as [v0|] eqn:Ev0; [|apply nth_error_None in Ev0; lia].
  destruct (SN x f v0 Hf Ev0) as (ps & ms & Eps & Vs & Lps).
  assert (SA : snap_at (c, sacc) x = v0) by (unfold snap_at; cbn [snd]; apply nth_error_nth with (1 := Ev0)).
  rewrite SA in Vd. rewrite <- Vs in Vd.
  assert (Eps2 : nth_error (k_msgs s2 f) ps = Some ms).
  { destruct (F_msgs _ _ _ FW12 f CF) as (l & ->). rewrite nth_error_app1; [exact Eps|apply nth_error_Some; congruence]. }
  assert (Lps1 : (ps < length (k_msgs s1 f))%nat) by (apply nth_error_Some; congruence).
  assert (WS2 : forall r mm i, nth_error (k_msgs s2 f) r = Some mm -> f_by mm = Some i -> (i < S de)%nat).
  { intros r mm i Hr Hb. destruct (writer_knows b sz n sched (S de) s2 ltac:(lia) H2 f r mm i Hr Hb) as (L & _). exact L. }
  split.
  - (* lower bound *)
    intros I ND HI.
    assert (LOW : zsum (contrib_at sched f) I <= zsum (pos_amt f) (filter (fun m => match owner m with Some i => chosen I i | None => false end) (seq 0 di))).
    { pose proof (ledger (chosen I) f CF di sd ltac:(lia) Hd0) as LG.
      assert (zsum (fun t0 => pick (chosen I) (lastcall t0 di) (tpend f t0 di)) (seq 0 n) = 0) as PZ.
      { transitivity (zsum (fun _ => 0) (seq 0 n)).
        - apply zsum_ext. intros t0 Ht0. unfold pick. destruct (lastcall t0 di) as [i|] eqn:LC; [|reflexivity]. destruct (chosen I i) eqn:CI; [|reflexivity].
          apply chosen_in in CI. destruct (HI i CI) as (_ & e & CO & HB). destruct (lastcall_spec _ _ _ LC) as (_ & (op & Hi) & _).
          unfold tpend. rewrite (call_done t0 i e di op CO Hi (khb_lt _ _ _ HB) LC sd Hd0). reflexivity.
        - generalize (seq 0 n). intros l. induction l as [|y l IHl]; [reflexivity|]. rewrite zsum_cons, IHl. reflexivity. }
      rewrite PZ, Z.add_0_r in LG.
      apply Z.le_trans with (zsum (fun i => if chosen I i then contrib_at sched f i else 0) (seq 0 di)).
      - rewrite <- zsum_filter. apply zsum_incl; [intros; apply contrib_at_nonneg; exact Hin|exact ND|].
        intros i Hi _. apply filter_In. split; [|apply chosen_in; exact Hi]. apply in_seq. destruct (HI i Hi) as (_ & e & CO & HB).
        destruct CO as (? & ? & ? & ? & _ & _ & Li & _). pose proof (khb_lt _ _ _ HB). lia.
      - rewrite <- LG, zsum_filter. apply zsum_le. intros m Hm. apply in_seq in Hm. destruct (kat_le _ _ _ _ m di sd ltac:(lia) Hd0) as (sm & Hsm).
        rewrite (amt_pos f m sm Hin Hsm). unfold pick. destruct (owner m) as [i|]; [|lia]. destruct (chosen I i); lia. }
    (* every such addition lies between what the save point and what delta_statistics read *)
    assert (POS : forall m i, (m < di)%nat -> owner m = Some i -> In i I -> amt f m <> 0 -> exists r mm, (ps < r <= pd)%nat /\ nth_error (k_msgs s2 f) r = Some mm /\ f_by mm = Some m).
    { intros m i Lm OW Ii NZ. destruct (HI i Ii) as (Bi & e & CO & HB).
      destruct (mid_call m di i f NZ OW Lm sd Hd0) as (tm & op & _ & Lim & K). destruct (K e CO) as (_ & KH).
      destruct (kat_le _ _ _ _ m di sd ltac:(lia) Hd0) as (sm & Hsm).
      destruct (add_position m (S de) s2 sm f Hin Hsm NZ ltac:(lia) H2) as (vm & Em).
      exists (length (k_msgs sm f)), (FMsg vm true (Some m)). split; [|split; [exact Em|reflexivity]]. split.
      - destruct (F_msgs _ _ _ (kat_fwd (S se) m s1 sm ltac:(lia) H1 Hsm) f CF) as (l & E). rewrite E, app_length. lia.
      - destruct (kat_le _ _ _ _ (S di) (length sched) s ltac:(lia) HEND) as (sd' & Hd').
        pose proof (add_known m di (KStart u (ODelta k)) sd sd' sm f Hin Hsm NZ (KH HB) Hdi eq_refl Hd0 Hd') as AK. cbn [kactor] in AK. lia. }
    destruct (Nat.le_gt_cases ps pd) as [LPD|GPD].
    + destruct (between (S de) s2 f ps pd ms md ltac:(lia) H2 Hin LPD Eps2 Epd) as (W & NDW & SW & IW).
      rewrite Vd, SW. eapply Z.le_trans; [exact LOW|].
      rewrite (zsum_ext (amt f) (pos_amt f) W).
      2:{ intros i Hi. apply IW in Hi. destruct Hi as (r & mm & _ & Hr & Hb). pose proof (WS2 r mm i Hr Hb).
          destruct (kat_le _ _ _ _ i (S de) s2 ltac:(lia) H2) as (sx & Hsx). symmetry. eapply amt_pos; [exact Hin|exact Hsx]. }
      apply zsum_incl; [intros; unfold pos_amt; lia|apply NoDup_filter, seq_NoDup|].
      intros m Hm NZ. apply filter_In in Hm. destruct Hm as [Hm OW]. apply in_seq in Hm. destruct (owner m) as [i|] eqn:Eo; [|discriminate]. apply chosen_in in OW.
      apply IW. apply (POS m i); [lia|exact Eo|exact OW|]. intros Z0. apply NZ. unfold pos_amt. rewrite Z0. reflexivity.
    + (* nothing in between: no addition *)
      assert (zsum (pos_amt f) (filter (fun m => match owner m with Some i => chosen I i | None => false end) (seq 0 di)) <= 0) as Z0.
      { replace 0 with (zsum (pos_amt f) []) by reflexivity. apply zsum_incl; [intros; unfold pos_amt; lia|apply NoDup_filter, seq_NoDup|].
        intros m Hm NZ. apply filter_In in Hm. destruct Hm as [Hm OW]. apply in_seq in Hm. destruct (owner m) as [i|] eqn:Eo; [|discriminate]. apply chosen_in in OW.
        destruct (POS m i) as (r & mm & RR & _); [lia|exact Eo|exact OW| |lia]. intros Z0. apply NZ. unfold pos_amt. rewrite Z0. reflexivity. }
      (* the delta is not negative: the caller knows what the save point read *)
      pose proof (kat_KS di sd Hd0) as (_ & _ & KTd & _).
      assert (REF : In k (refs (kview_of sd u)) /\ (u < n)%nat).
      { destruct (kat_le _ _ _ _ (S di) (length sched) s ltac:(lia) HEND) as (sd' & Hd'). pose proof (kat_S _ _ _ _ _ _ _ _ Hdi Hd0 Hd') as E.
        split; [|apply (kactor_lt _ _ _ _ _ _ _ _ Hdi Hd0 Hd')]. unfold kstep in E. cbn [kact] in E.
        destruct (nth_error (k_threads sd) u) as [[]|]; try discriminate. cbn [kcan_start] in E. destruct (in_dec Nat.eq_dec k (refs (kview_of sd u))); [assumption|discriminate]. }
      destruct REF as [REF Hu]. destruct (T_views _ _ KTd u Hu k REF) as (sp & Esp & _ & KSN & _).
      assert (sp = (c, sacc)) as ->.
      { destruct (F_sps _ _ _ (kat_fwd di (S de) sd s2 ltac:(lia) Hd0 H2)) as (l & E). rewrite E, nth_error_app1 in SP2 by (apply nth_error_Some; congruence). congruence. }
      destruct (KSN x f v0 Hf Ev0) as (p' & m' & Ep' & Vp' & Lp').
      assert (Ep2 : nth_error (k_msgs s2 f) p' = Some m').
      { destruct (F_msgs _ _ _ (kat_fwd di (S de) sd s2 ltac:(lia) Hd0 H2) f CF) as (l & ->). rewrite nth_error_app1; [exact Ep'|apply nth_error_Some; congruence]. }
      pose proof (N_rise _ _ (kat_KN _ _ H2) f Hin p' pd m' md ltac:(lia) Ep2 Epd). lia.
  - (* upper bound *)
    intros J HJ.
    destruct (Nat.le_gt_cases ps pd) as [LPD|GPD].
    2:{ pose proof (N_rise _ _ (kat_KN _ _ H2) f Hin pd ps md ms ltac:(lia) Epd Eps2).
        assert (0 <= zsum (contrib_at sched f) J); [|lia]. apply zsum_nonneg. intros. apply contrib_at_nonneg. exact Hin. }
    destruct (between (S de) s2 f ps pd ms md ltac:(lia) H2 Hin LPD Eps2 Epd) as (W & NDW & SW & IW). rewrite Vd, SW.
    assert (OWN : forall m, In m W -> amt f m <> 0 -> exists i, owner m = Some i /\ In i J).
    { intros m Hm NZ. apply IW in Hm. destruct Hm as (r & mm & RR & Hr & Hb). pose proof (WS2 r mm m Hr Hb) as Lm.
      destruct (kat_le _ _ _ _ m (S de) s2 ltac:(lia) H2) as (sm & Hsm).
      destruct (amt_step f m NZ) as (tm & fa & pi & g & y & l & Hma & Hpc).
      assert (exists i, owner m = Some i) as (i & OW).
      { unfold owner. rewrite Hma. apply (in_call tm m ltac:(congruence) sm Hsm).
        - destruct (kat_le _ _ _ _ (S m) (S de) s2 ltac:(lia) H2) as (sm' & Hsm'). apply (kactor_lt _ _ _ _ _ _ _ _ Hma Hsm Hsm').
        - rewrite <- (kat_pc _ _ _ Hsm), Hpc. discriminate. }
      exists i. split; [exact OW|]. destruct (mid_call m (S de) i f NZ OW Lm s2 H2) as (t' & op & Hi & Lim & K).
      destruct (HJ i t' op ltac:(lia) Hi) as [|(e & CO & HB)]; [assumption|exfalso].
      destruct (K e CO) as (Le & _). pose proof (khb_lt _ _ _ HB) as Lesi.
      destruct (mid_call m si i f NZ OW ltac:(lia) s0 H0) as (_ & _ & _ & _ & K'). destruct (K' e CO) as (_ & KH).
      destruct (kat_le _ _ _ _ (S si) (length sched) s ltac:(lia) HEND) as (s0' & H0').
      pose proof (add_known m si (KStart t OSave) s0 s0' sm f Hin Hsm NZ (KH HB) Hsi eq_refl H0 H0') as AK. cbn [kactor] in AK.
      destruct (add_position m (S de) s2 sm f Hin Hsm NZ ltac:(lia) H2) as (vm & Em).
      pose proof (W_inj _ _ (kat_wf _ _ _ _ _ _ H2) f r _ mm _ Hr Em Hb). lia. }
    rewrite (zsum_ext (amt f) (pos_amt f) W).
    2:{ intros i Hi. apply IW in Hi. destruct Hi as (r & mm & _ & Hr & Hb). pose proof (WS2 r mm i Hr Hb).
        destruct (kat_le _ _ _ _ i (S de) s2 ltac:(lia) H2) as (sx & Hsx). symmetry. eapply amt_pos; [exact Hin|exact Hsx]. }
    apply Z.le_trans with (zsum (pos_amt f) (filter (fun m => match owner m with Some i => chosen J i | None => false end) (seq 0 (S de)))).
    { apply zsum_incl; [intros; unfold pos_amt; lia|exact NDW|]. intros m Hm NZ. apply filter_In.
      destruct (OWN m Hm) as (i & OW & Ji); [intros Z0; apply NZ; unfold pos_amt; rewrite Z0; reflexivity|].
      rewrite OW. split; [|apply chosen_in; exact Ji]. apply IW in Hm. destruct Hm as (r & mm & _ & Hr & Hb). pose proof (WS2 r mm m Hr Hb). apply in_seq. lia. }
    pose proof (ledger (chosen J) f CF (S de) s2 ltac:(lia) H2) as LG.
    assert (0 <= zsum (fun t0 => pick (chosen J) (lastcall t0 (S de)) (tpend f t0 (S de))) (seq 0 n)) as PP.
    { apply zsum_nonneg. intros t0. unfold pick. destruct (lastcall t0 (S de)) as [i|]; [|lia]. destruct (chosen J i); [|lia].
      unfold tpend. rewrite (kat_pc _ _ _ H2). destruct (nth_error (k_threads s2) t0) as [p|] eqn:Ep; [|lia].
      apply pend1_nonneg; [exact (Forall_nth _ _ _ _ (N_pos _ _ (kat_KN _ _ H2)) Ep)|exact Hin]. }
    rewrite zsum_filter.
    apply Z.le_trans with (zsum (fun m => pick (chosen J) (owner m) (amt f m)) (seq 0 (S de))).
    { apply zsum_le. intros m Hm. apply in_seq in Hm. destruct (kat_le _ _ _ _ m (S de) s2 ltac:(lia) H2) as (sm & Hsm).
      rewrite (amt_pos f m sm Hin Hsm). unfold pick. destruct (owner m) as [i|]; [|lia]. destruct (chosen J i); lia. }
    apply Z.le_trans with (zsum (fun i => if chosen J i then contrib_at sched f i else 0) (seq 0 (S de))); [lia|].
    rewrite <- zsum_filter. apply zsum_incl; [intros; apply contrib_at_nonneg; exact Hin|apply NoDup_filter, seq_NoDup|].
    intros i Hi _. apply filter_In in Hi. apply chosen_in. apply Hi.
Qed.
End Path.
