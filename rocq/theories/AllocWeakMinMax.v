(** * Relaxed memory: min / max of the usage between a save point and a delta request on it.
    Part 1: what an allocation keeps true while no save point is being taken. *)
From Coq Require Import List ZArith Lia Bool Arith.
From Verif Require Import Machine Ring RingSeq RingConc Alloc AllocSpec AllocProofs AllocConc AllocConcSpec AllocConcProofs AllocConcProofs2
  RingWeak RingWeakSpec RingWeakProofs RingWeakProofs3 AllocWeak AllocWeakSpec AllocWeakProofs AllocWeakProofs2 AllocWeakProofs3 AllocWeakProofs4 AllocWeakProofs5.
Import ListNotations.
Open Scope Z_scope.

Section Region.
Variables (n : nat) (base : field -> list fmsg) (pub0 : list msg).
Definition start (f : field) : nat := (length (base f) - 1)%nat.
(** the fields in question *)
Definition mmc (f : field) : Prop := f = FMin \/ f = FMax \/ f = FCur.
(** [v] is the value of a message of [f] of the region *)
Definition reg (s : kst) (f : field) (v : Z) : Prop :=
  exists p m, (start f <= p)%nat /\ nth_error (k_msgs s f) p = Some m /\ f_val m = v.
Definition newest_known (s : kst) (u : nat) (f : field) : Prop := kv (kview_of s u) f = (length (k_msgs s f) - 1)%nat.
Definition will_max (s : kst) (u : nat) (p : apc) : Prop :=
  match p with
  | AAdds _ | ALoadCur => newest_known s u FCur
  | ALoadMin c | AMin c _ | ALoadMax c | AMax c _ => c = kvalue s FCur
  | _ => False
  end.
Definition will_min (s : kst) (u : nat) (p : apc) : Prop :=
  match p with
  | AAdds _ | ALoadCur => newest_known s u FCur
  | ALoadMin c | AMin c _ => c = kvalue s FCur
  | _ => False
  end.
Definition pc_in (s : kst) (p : apc) : Prop :=
  match p with
  | ALoadMin c => reg s FCur c
  | AMin c mn => reg s FCur c /\ kvalue s FMin <= mn
  | ALoadMax c => reg s FCur c
  | AMax c mx => reg s FCur c /\ mx <= kvalue s FMax
  | SLoadMin | SLoadMax _ | SEnq _ _ | SConsumer | SLoadCur1 _ | SStoreMin _ _ | SLoadCur2 _ | SStoreMax _ _ | SSnap _ _ _ => False
  | _ => True
  end.
Record RB (s : kst) : Prop := {
  B_wf : KWf n s;
  B_base : forall f, mmc f -> base f <> [] /\ exists ext, k_msgs s f = base f ++ ext /\ Forall (fun m => f_rmw m = true) ext;
  B_min : forall v, reg s FMin v -> kvalue s FMin <= v;
  B_max : forall v, reg s FMax v -> v <= kvalue s FMax;
  B_in : forall f v, f = FMin \/ f = FMax -> reg s f v -> reg s FCur v;
  B_pcs : forall u p, nth_error (k_threads s) u = Some p -> pc_in s p;
  B_cmax : kvalue s FCur <= kvalue s FMax \/ exists u p, nth_error (k_threads s) u = Some p /\ will_max s u p;
  B_cmin : kvalue s FMin <= kvalue s FCur \/ exists u p, nth_error (k_threads s) u = Some p /\ will_min s u p;
  B_pub : w_pub (k_ring s) = pub0
}.

(** a step that writes none of the three fields *)
Definition quiet (s s' : kst) : Prop := forall f, mmc f -> k_msgs s' f = k_msgs s f.
Lemma quiet_value s s' f : quiet s s' -> mmc f -> kvalue s' f = kvalue s f.
Proof. intros Q M. unfold kvalue. rewrite (Q f M). reflexivity. Qed.
Lemma quiet_reg s s' f v : quiet s s' -> mmc f -> reg s' f v <-> reg s f v.
Proof. intros Q M. unfold reg. rewrite (Q f M). reflexivity. Qed.
Lemma mmin : mmc FMin. Proof. left. reflexivity. Qed.
Lemma mmax : mmc FMax. Proof. right. left. reflexivity. Qed.
Lemma mcur : mmc FCur. Proof. right. right. reflexivity. Qed.
Lemma quiet_pc s s' p : quiet s s' -> pc_in s p -> pc_in s' p.
Proof.
  intros Q. pose proof (fun v => quiet_reg s s' FCur v Q mcur) as R. pose proof (quiet_value s s' FMin Q mmin) as V1. pose proof (quiet_value s s' FMax Q mmax) as V2.
  destruct p; cbn [pc_in]; rewrite ?R, ?V1, ?V2; auto.
Qed.
(** ... by thread [t], which goes from [p] to [p'] *)
Lemma RB_quiet s s' t p p' : RB s -> KWf n s' -> quiet s s' -> w_pub (k_ring s') = pub0 ->
  nth_error (k_threads s) t = Some p -> k_threads s' = upd t p' (k_threads s) ->
  (forall u, u <> t -> (u < n)%nat -> newest_known s u FCur -> newest_known s' u FCur) ->
  pc_in s' p' ->
  (will_max s t p -> will_max s' t p' \/ kvalue s FCur <= kvalue s FMax) ->
  (will_min s t p -> will_min s' t p' \/ kvalue s FMin <= kvalue s FCur) -> RB s'.
Proof.
  intros H W' Q P Ht T' NK PI WM Wm.
  pose proof (quiet_value s s' FMin Q mmin) as V1. pose proof (quiet_value s s' FMax Q mmax) as V2. pose proof (quiet_value s s' FCur Q mcur) as V3.
  assert (U : forall u, nth_error (k_threads s') u = if Nat.eqb t u then Some p' else nth_error (k_threads s) u).
  { intros u. rewrite T', nth_error_upd. destruct (Nat.eqb_spec t u) as [<-|]; [|reflexivity].
    rewrite (proj2 (Nat.ltb_lt _ _)); [reflexivity|]. apply nth_error_Some. congruence. }
  assert (LN : forall u q, nth_error (k_threads s) u = Some q -> (u < n)%nat).
  { intros u q Hq. rewrite <- (W_len _ _ (B_wf _ H)). apply nth_error_Some. congruence. }
  constructor.
  - exact W'.
  - intros f M. rewrite (Q f M). exact (B_base _ H f M).
  - intros v R. apply (quiet_reg s s' FMin v Q mmin) in R. rewrite V1. exact (B_min _ H v R).
  - intros v R. apply (quiet_reg s s' FMax v Q mmax) in R. rewrite V2. exact (B_max _ H v R).
  - intros f v F R. assert (mmc f) as M by (destruct F as [->| ->]; [exact mmin|exact mmax]). apply (quiet_reg s s' f v Q M) in R.
    apply (quiet_reg s s' FCur v Q mcur). exact (B_in _ H f v F R).
  - intros u q Hq. rewrite U in Hq. destruct (Nat.eqb t u); [injection Hq as <-; exact PI|]. eapply quiet_pc; [exact Q|]. eapply B_pcs; eassumption.
  - rewrite V2, V3. destruct (B_cmax _ H) as [L|(u & q & Hu & W)]; [left; exact L|].
    destruct (Nat.eq_dec t u) as [<-|N].
    + rewrite Ht in Hu. injection Hu as <-. destruct (WM W) as [K|K]; [right|left; exact K]. exists t, p'. rewrite U, Nat.eqb_refl. auto.
    + right. exists u, q. rewrite U, (proj2 (Nat.eqb_neq _ _)) by exact N. split; [exact Hu|]. pose proof (LN u q Hu) as Lu. destruct q; cbn [will_max] in *; try rewrite V3; auto.
  - rewrite V1, V3. destruct (B_cmin _ H) as [L|(u & q & Hu & W)]; [left; exact L|].
    destruct (Nat.eq_dec t u) as [<-|N].
    + rewrite Ht in Hu. injection Hu as <-. destruct (Wm W) as [K|K]; [right|left; exact K]. exists t, p'. rewrite U, Nat.eqb_refl. auto.
    + right. exists u, q. rewrite U, (proj2 (Nat.eqb_neq _ _)) by exact N. split; [exact Hu|]. pose proof (LN u q Hu) as Lu. destruct q; cbn [will_min] in *; try rewrite V3; auto.
  - exact P.
Qed.

Lemma base_nth s f : RB s -> mmc f -> (start f < length (k_msgs s f))%nat /\
  forall i m, nth_error (k_msgs s f) (S i) = Some m -> (start f <= i)%nat -> f_rmw m = true.
Proof.
  intros H M. destruct (B_base _ H f M) as (NE & ext & E & F). unfold start. rewrite E, app_length.
  destruct (base f) as [|x l] eqn:Eb; [congruence|]. cbn [length]. split; [lia|]. intros i m Hi L.
  rewrite nth_error_app2 in Hi by (cbn [length]; lia). rewrite Forall_forall in F. apply F. eapply nth_error_In; exact Hi.
Qed.
Lemma last_reg s f : RB s -> mmc f -> reg s f (kvalue s f).
Proof.
  intros H M. destruct (base_nth s f H M) as [L _]. destruct (nth_error (k_msgs s f) (length (k_msgs s f) - 1)) as [m|] eqn:E.
  - exists (length (k_msgs s f) - 1)%nat, m. split; [lia|]. split; [exact E|]. symmetry. apply kvalue_nth. exact E.
  - apply nth_error_None in E. lia.
Qed.
Lemma reg_snoc s s' f m v : k_msgs s' f = k_msgs s f ++ [m] -> RB s -> mmc f -> reg s' f v <-> reg s f v \/ f_val m = v.
Proof.
  intros E H M. destruct (base_nth s f H M) as [L _]. unfold reg. rewrite E. split.
  - intros (p & m' & Lp & Hp & Hv). destruct (Nat.lt_ge_cases p (length (k_msgs s f))) as [LT|GE].
    + rewrite nth_error_app1 in Hp by exact LT. left. eauto.
    + rewrite nth_error_app2 in Hp by exact GE. destruct (p - length (k_msgs s f))%nat as [|[|]]; try discriminate. injection Hp as <-. right. exact Hv.
  - intros [(p & m' & Lp & Hp & Hv)|Hv].
    + exists p, m'. rewrite nth_error_app1 by (apply nth_error_Some; congruence). auto.
    + exists (length (k_msgs s f)), m. split; [lia|]. rewrite nth_error_app2, Nat.sub_diag by lia. auto.
Qed.


(** ... that writes one *)
Lemma cur_view s t f k v rmw u : (t < length (k_views s))%nat -> (u < length (k_views s))%nat -> f <> FCur ->
  kv (kview_of (written s t f k v rmw) u) FCur = kv (kview_of s u) FCur.
Proof.
  intros Ht Hu F. rewrite view_written by assumption. destruct (Nat.eqb_spec t u) as [<-|]; cbn [kv_set bump kv];
    (destruct (field_eq_dec FCur f); [congruence|reflexivity]).
Qed.
Lemma other_value s t f k v rmw g : g <> f -> kvalue (written s t f k v rmw) g = kvalue s g.
Proof. intros N. unfold kvalue. rewrite written_other by exact N. reflexivity. Qed.
Lemma other_reg s t f k v rmw g x : g <> f -> reg (written s t f k v rmw) g x <-> reg s g x.
Proof. intros N. unfold reg. rewrite written_other by exact N. reflexivity. Qed.

Lemma RB_write s t p p' f k v s' : RB s -> mmc f -> (forall g, mmc g -> (start g <= kv (kview_of s t) g)%nat) -> can_write s t f k ->
  nth_error (k_threads s) t = Some p ->
  s' = ktick (kput (written s t f k v true) t p') -> KWf n s' ->
  (f = FMin -> v < kvalue s FMin /\ reg s FCur v /\ (exists mn, p = AMin v mn) /\ p' = ALoadMax v) ->
  (f = FMax -> kvalue s FMax < v /\ reg s FCur v /\ (exists mx, p = AMax v mx) /\ p' = AIdle) ->
  (f = FCur -> exists l, p' = after_adds l) -> RB s'.
Proof.
  intros H M KN0 CW Et ES HW' Hmin Hmax Hcur. pose proof (B_wf _ H) as HW.
  assert (Ht : (t < n)%nat) by (rewrite <- (W_len _ _ HW); apply nth_error_Some; congruence).
  assert (LV : length (k_views s) = n) by apply (W_lenv _ _ HW).
  assert (END : S k = length (k_msgs s f)).
  { eapply rmw_end; [exact HW|exact CW|]. intros i m Hi L. destruct (base_nth s f H M) as [_ R]. apply (R i m Hi). specialize (KN0 f M). destruct CW. lia. }
  assert (MF : k_msgs s' f = k_msgs s f ++ [FMsg v true (Some (k_clock s))]) by (subst s'; apply (written_end s t f k v true END)).
  assert (MO : forall g, g <> f -> k_msgs s' g = k_msgs s g) by (intros g Ng; subst s'; apply (written_other s t f k v true g Ng)).
  assert (VF : kvalue s' f = v) by (subst s'; apply (kvalue_written s t f k v true END)).
  assert (VO : forall g, g <> f -> kvalue s' g = kvalue s g) by (intros g Ng; subst s'; apply (other_value s t f k v true g Ng)).
  assert (RF : forall x, reg s' f x <-> reg s f x \/ v = x) by (intros x; apply (reg_snoc s s' f _ x MF H M)).
  assert (RO : forall g x, g <> f -> reg s' g x <-> reg s g x) by (intros g x Ng; unfold reg; rewrite (MO g Ng); reflexivity).
  assert (U : forall u, nth_error (k_threads s') u = if Nat.eqb t u then Some p' else nth_error (k_threads s) u).
  { intros u. subst s'. kfld. rewrite nth_error_upd. destruct (Nat.eqb_spec t u) as [<-|]; [|reflexivity].
    rewrite (proj2 (Nat.ltb_lt _ _)); [reflexivity|]. apply nth_error_Some. congruence. }
  assert (VW : forall u, (u < n)%nat -> f <> FCur -> kv (kview_of s' u) FCur = kv (kview_of s u) FCur).
  { intros u Hu Nf. subst s'. change (kview_of (ktick (kput ?x _ _)) u) with (kview_of x u). apply cur_view; [rewrite LV..|]; assumption. }
  assert (TV : kv (kview_of s' t) f = S k).
  { subst s'. change (kview_of (ktick (kput ?x _ _)) t) with (kview_of x t). rewrite view_written, Nat.eqb_refl by (rewrite LV; exact Ht).
    cbn [kv_set kv]. destruct (field_eq_dec f f); [reflexivity|congruence]. }
  assert (PUB : w_pub (k_ring s') = pub0) by (subst s'; apply (B_pub _ H)).
  assert (LN : forall u q, nth_error (k_threads s) u = Some q -> (u < n)%nat).
  { intros u q Hq. rewrite <- (W_len _ _ HW). apply nth_error_Some. congruence. }
  assert (BASE : forall g, mmc g -> base g <> [] /\ exists ext, k_msgs s' g = base g ++ ext /\ Forall (fun m => f_rmw m = true) ext).
  { intros g Mg. destruct (B_base _ H g Mg) as (NE & ext & E & F). split; [exact NE|].
    destruct (field_eq_dec g f) as [->|Ng]; [|exists ext; rewrite (MO g Ng); auto].
    exists (ext ++ [FMsg v true (Some (k_clock s))]). rewrite MF, E, app_assoc. split; [reflexivity|]. apply Forall_app. split; [exact F|]. constructor; [reflexivity|constructor]. }
  clear ES.
  destruct M as [->|[->| ->]].
  - destruct (Hmin eq_refl) as (LT & RV & (mn & ->) & ->). clear Hmin Hmax Hcur.
    assert (NM : FMax <> FMin) by discriminate. assert (NC : FCur <> FMin) by discriminate.
    constructor; auto.
    + intros x R. apply RF in R. rewrite VF. destruct R as [R|<-]; [|lia]. pose proof (B_min _ H x R). lia.
    + intros x R. apply (RO FMax x NM) in R. rewrite (VO FMax NM). exact (B_max _ H x R).
    + intros g x F R. apply (RO FCur x NC). destruct F as [->| ->].
      * apply RF in R. destruct R as [R|<-]; [|exact RV]. apply (B_in _ H FMin x); auto.
      * apply (RO FMax x NM) in R. apply (B_in _ H FMax x); auto.
    + intros u q Hq. rewrite U in Hq. destruct (Nat.eqb t u); [injection Hq as <-; cbn [pc_in]; apply (RO FCur v NC); exact RV|].
      pose proof (B_pcs _ H u q Hq) as PI. destruct q; cbn [pc_in] in *; rewrite ?(RO FCur _ NC), ?(VO FMax NM), ?VF; auto. destruct PI. split; [assumption|lia].
    + rewrite (VO FMax NM), (VO FCur NC). destruct (B_cmax _ H) as [L|(u & q & Hu & W)]; [left; exact L|right]. destruct (Nat.eq_dec t u) as [<-|N].
      * exists t, (ALoadMax v). rewrite U, Nat.eqb_refl. split; [reflexivity|]. rewrite Et in Hu. injection Hu as <-. cbn [will_max] in *. rewrite (VO FCur NC). exact W.
      * exists u, q. rewrite U, (proj2 (Nat.eqb_neq _ _)) by exact N. split; [exact Hu|]. pose proof (LN u q Hu).
        destruct q; cbn [will_max] in *; unfold newest_known in *; rewrite ?(VO FCur NC), ?(VW u ltac:(assumption) ltac:(discriminate)), ?(MO FCur NC); auto.
    + rewrite VF, (VO FCur NC). destruct (B_cmin _ H) as [L|(u & q & Hu & W)]; [left; lia|]. destruct (Nat.eq_dec t u) as [<-|N].
      * rewrite Et in Hu. injection Hu as <-. cbn [will_min] in W. left. lia.
      * right. exists u, q. rewrite U, (proj2 (Nat.eqb_neq _ _)) by exact N. split; [exact Hu|]. pose proof (LN u q Hu).
        destruct q; cbn [will_min] in *; unfold newest_known in *; rewrite ?(VO FCur NC), ?(VW u ltac:(assumption) ltac:(discriminate)), ?(MO FCur NC); auto.
  - destruct (Hmax eq_refl) as (LT & RV & (mx & ->) & ->). clear Hmin Hmax Hcur.
    assert (NM : FMin <> FMax) by discriminate. assert (NC : FCur <> FMax) by discriminate.
    constructor; auto.
    + intros x R. apply (RO FMin x NM) in R. rewrite (VO FMin NM). exact (B_min _ H x R).
    + intros x R. apply RF in R. rewrite VF. destruct R as [R|<-]; [|lia]. pose proof (B_max _ H x R). lia.
    + intros g x F R. apply (RO FCur x NC). destruct F as [->| ->].
      * apply (RO FMin x NM) in R. apply (B_in _ H FMin x); auto.
      * apply RF in R. destruct R as [R|<-]; [|exact RV]. apply (B_in _ H FMax x); auto.
    + intros u q Hq. rewrite U in Hq. destruct (Nat.eqb t u); [injection Hq as <-; exact I|].
      pose proof (B_pcs _ H u q Hq) as PI. destruct q; cbn [pc_in] in *; rewrite ?(RO FCur _ NC), ?(VO FMin NM), ?VF; auto. destruct PI. split; [assumption|lia].
    + rewrite VF, (VO FCur NC). destruct (B_cmax _ H) as [L|(u & q & Hu & W)]; [left; lia|]. destruct (Nat.eq_dec t u) as [<-|N].
      * rewrite Et in Hu. injection Hu as <-. cbn [will_max] in W. left. lia.
      * right. exists u, q. rewrite U, (proj2 (Nat.eqb_neq _ _)) by exact N. split; [exact Hu|]. pose proof (LN u q Hu).
        destruct q; cbn [will_max] in *; unfold newest_known in *; rewrite ?(VO FCur NC), ?(VW u ltac:(assumption) ltac:(discriminate)), ?(MO FCur NC); auto.
    + rewrite (VO FMin NM), (VO FCur NC). destruct (B_cmin _ H) as [L|(u & q & Hu & W)]; [left; exact L|right]. destruct (Nat.eq_dec t u) as [<-|N].
      * rewrite Et in Hu. injection Hu as <-. destruct W.
      * exists u, q. rewrite U, (proj2 (Nat.eqb_neq _ _)) by exact N. split; [exact Hu|]. pose proof (LN u q Hu).
        destruct q; cbn [will_min] in *; unfold newest_known in *; rewrite ?(VO FCur NC), ?(VW u ltac:(assumption) ltac:(discriminate)), ?(MO FCur NC); auto.
  - destruct (Hcur eq_refl) as (l & ->). clear Hmin Hmax Hcur.
    assert (NM : FMin <> FCur) by discriminate. assert (NX : FMax <> FCur) by discriminate.
    assert (NK : newest_known s' t FCur) by (unfold newest_known; rewrite TV, MF, app_length; cbn [length]; lia).
    constructor; auto.
    + intros x R. apply (RO FMin x NM) in R. rewrite (VO FMin NM). exact (B_min _ H x R).
    + intros x R. apply (RO FMax x NX) in R. rewrite (VO FMax NX). exact (B_max _ H x R).
    + intros g x F R. apply RF. left. destruct F as [->| ->].
      * apply (RO FMin x NM) in R. apply (B_in _ H FMin x); auto.
      * apply (RO FMax x NX) in R. apply (B_in _ H FMax x); auto.
    + intros u q Hq. rewrite U in Hq. destruct (Nat.eqb t u); [injection Hq as <-; destruct l; exact I|].
      pose proof (B_pcs _ H u q Hq) as PI. destruct q; cbn [pc_in] in *; rewrite ?RF, ?(VO FMin NM), ?(VO FMax NX); tauto.
    + right. exists t, (after_adds l). rewrite U, Nat.eqb_refl. split; [reflexivity|]. destruct l; exact NK.
    + right. exists t, (after_adds l). rewrite U, Nat.eqb_refl. split; [reflexivity|]. destruct l; exact NK.
Qed.

Lemma load_reg s t f k v : RB s -> mmc f -> (start f <= kv (kview_of s t) f)%nat -> can_load s t f k v -> reg s f v.
Proof. intros H M L [(m & Hm & Hv) K]. exists k, m. split; [lia|auto]. Qed.
Lemma load_newest s t f k v : RB s -> mmc f -> newest_known s t f -> can_load s t f k v -> v = kvalue s f.
Proof.
  intros H M NK [(m & Hm & Hv) K]. unfold newest_known in NK. assert (k < length (k_msgs s f))%nat by (apply nth_error_Some; congruence).
  assert (k = length (k_msgs s f) - 1)%nat as -> by lia. rewrite <- Hv. symmetry. apply kvalue_nth. exact Hm.
Qed.

Lemma pub_ring b (r : wstate (Z * Z)) a r' : wstep b r a = Some r' ->
  (forall t fails picks rt x, a = WStep t fails picks -> nth_error (w_threads r) t <> Some (EnqPublish rt x)) -> w_pub r' = w_pub r.
Proof.
  intros E N. destruct a as [t op|t f picks|t|t k]; cbn [wstep] in E.
  1,3,4: split_step E; injection E as <-; reflexivity.
  destruct (nth_error (w_threads r) t) as [p|] eqn:Et; [|discriminate]. specialize (fun rt x => N t f picks rt x eq_refl). rewrite Et in N.
  destruct p as [|x|rt x|rt x|c|c h|c h|c h|c|c h| |q]; cbn [wthread_step] in E; try discriminate.
  3:{ elim (N rt x). reflexivity. }
  all: split_step E; injection E as <-; reflexivity.
Qed.

Lemma write_last s t f k v : RB s -> mmc f -> (start f <= kv (kview_of s t) f)%nat -> can_write s t f k -> can_load s t f k v -> v = kvalue s f.
Proof.
  intros H M L CW [(m & Hm & Hv) _]. assert (END : S k = length (k_msgs s f)).
  { eapply rmw_end; [exact (B_wf _ H)|exact CW|]. intros i m' Hi L'. destruct (base_nth s f H M) as [_ R]. apply (R i m' Hi). destruct CW. lia. }
  rewrite <- Hv. symmetry. apply kvalue_nth. rewrite <- END. replace (S k - 1)%nat with k by lia. exact Hm.
Qed.

Lemma RB_step b s a s' : RB s -> kstep b s a = Some s' ->
  (forall t, a <> KStart t OSave) ->
  Forall wf_pc (k_threads s) ->
  (forall t p q, nth_error (k_threads s) t = Some p -> nth_error (w_threads (k_ring s)) t = Some q -> pair_ok (k_sps s) p q) ->
  (forall t fails picks, a = KStep t fails picks -> forall f, mmc f -> (start f <= kv (kview_of s t) f)%nat) -> RB s'.
Proof.
  intros H E NS WFP PAIR KN0. pose proof (B_wf _ H) as HW. pose proof (KWf_step _ _ _ _ _ HW E) as HW'.
  pose proof E as E0. unfold kstep in E. destruct (kact b s a) as [s1|] eqn:E1; [|discriminate]. injection E as <-.
  (* ticks do not matter *)
  assert (TK : forall p t p', nth_error (k_threads s) t = Some p -> quiet s s1 -> w_pub (k_ring s1) = w_pub (k_ring s) ->
     k_threads s1 = upd t p' (k_threads s) ->
     (forall u, u <> t -> (u < n)%nat -> newest_known s u FCur -> newest_known s1 u FCur) ->
     pc_in s1 p' ->
     (will_max s t p -> will_max s1 t p' \/ kvalue s FCur <= kvalue s FMax) ->
     (will_min s t p -> will_min s1 t p' \/ kvalue s FMin <= kvalue s FCur) -> RB (ktick s1)).
  { intros p t p' Ht Q P T NK PI WM Wm. apply (RB_quiet s (ktick s1) t p p' H HW'); auto.
    - change (w_pub (k_ring s1) = pub0). rewrite P. apply (B_pub _ H). }
  assert (OTHER : forall t, (forall u, u <> t -> kview_of s1 u = kview_of s u) -> quiet s s1 ->
            forall u, u <> t -> (u < n)%nat -> newest_known s u FCur -> newest_known s1 u FCur).
  { intros t Ev Q u N _ K. unfold newest_known. rewrite (Q FCur mcur), (Ev u N). exact K. }
  destruct a as [t op|t fails picks|t|t k]; cbn [kact] in E1.
  - destruct (nth_error (k_threads s) t) as [[]|] eqn:Et; try discriminate. destruct (kcan_start s t op); [|discriminate]. injection E1 as <-.
    apply (TK AIdle t (first_apc op) Et); auto; try (intros []; fail).
    + intros f _. reflexivity.
    + destruct op; cbn [first_apc pc_in]; try exact I; [..|exfalso; eapply NS; reflexivity];
        match goal with |- pc_in _ (after_adds ?l) => destruct l; exact I end.
  - specialize (KN0 t fails picks eq_refl).
    destruct (nth_error (k_threads s) t) as [p|] eqn:Et; [|discriminate].
    assert (Ht : (t < n)%nat) by (rewrite <- (W_len _ _ HW); apply nth_error_Some; congruence).
    assert (Hv : (t < length (k_views s))%nat) by (rewrite (W_lenv _ _ HW); exact Ht).
    pose proof (B_pcs _ H t p Et) as PI.
    apply kstep_shapes in E1.
    assert (VO : forall f k, forall u, u <> t -> kview_of (loaded s t f k) u = kview_of s u).
    { intros f k u N. unfold loaded. rewrite view_put by exact Hv. rewrite (proj2 (Nat.eqb_neq _ _)) by congruence. reflexivity. }
    assert (WP : wf_pc p) by (rewrite Forall_forall in WFP; apply WFP; eapply nth_error_In; exact Et).
    assert (LQ : forall f k v p', can_load s t f k v -> s1 = kput (loaded s t f k) t p' -> pc_in s p' ->
       (will_max s t p -> will_max s t p' \/ kvalue s FCur <= kvalue s FMax) -> (will_min s t p -> will_min s t p' \/ kvalue s FMin <= kvalue s FCur) ->
       (match p' with AAdds _ | ALoadCur => False | _ => True end) -> RB (ktick s1)).
    { intros f k v p' CL ES PI' WM Wm NA. apply (TK p t p' Et); try (subst s1; reflexivity).
      - subst s1. intros g _. reflexivity.
      - apply (OTHER t); [intros u N; subst s1; change (kview_of (kput ?x _ _) u) with (kview_of x u); apply VO; exact N|subst s1; intros g _; reflexivity].
      - subst s1. exact PI'.
      - intros W. destruct (WM W) as [K|K]; [left|right; exact K]. subst s1. destruct p'; try exact K; destruct NA.
      - intros W. destruct (Wm W) as [K|K]; [left|right; exact K]. subst s1. destruct p'; try exact K; destruct NA. }
    assert (PQ : forall p', s1 = kput s t p' -> pc_in s p' ->
       (will_max s t p -> will_max s t p' \/ kvalue s FCur <= kvalue s FMax) -> (will_min s t p -> will_min s t p' \/ kvalue s FMin <= kvalue s FCur) -> RB (ktick s1)).
    { intros p' ES PI' WM Wm. apply (TK p t p' Et); try (subst s1; reflexivity); try (subst s1; assumption).
      - subst s1. intros g _. reflexivity.
      - apply (OTHER t); [intros u N; subst s1; reflexivity|subst s1; intros g _; reflexivity]. }
    inversion E1; subst.
    + apply (PQ ALoadCur eq_refl I); intros W; left; exact W.
    + cbn [wf_pc] in WP. apply cur_last_tl in WP. destruct WP as (_ & F1 & F2 & _).
      match goal with C : can_write _ _ _ _ |- _ => rename C into CW end.
      destruct (field_eq_dec f FCur) as [->|NC].
      * eapply (RB_write s t _ (after_adds l) FCur k); [exact H|exact mcur|exact KN0|exact CW|exact Et|reflexivity|exact HW'|discriminate|discriminate|intros _; eauto].
      * set (s1 := written s t f k (wrap64 (v + n0)) true).
        assert (QQ : quiet s s1) by (intros g [->|[->| ->]]; apply written_other; congruence).
        assert (NK : forall u, (u < n)%nat -> newest_known s u FCur -> newest_known s1 u FCur).
        { intros u Hu K. unfold newest_known. rewrite (QQ FCur mcur). unfold s1. rewrite cur_view; [exact K|exact Hv|rewrite (W_lenv _ _ HW); exact Hu|exact NC]. }
        apply (TK (AAdds ((f, n0) :: l)) t (after_adds l) Et); auto.
        -- exact (fun u _ => NK u).
        -- destruct l; exact I.
        -- intros W. left. destruct l; exact (NK t Ht W).
        -- intros W. left. destruct l; exact (NK t Ht W).
    + match goal with C : can_load _ _ _ _ _ |- _ => rename C into CL end.
      match goal with C : load_kind _ _ _ |- _ => rename C into LK end.
      destruct LK as [|c|c mn LT|c|c mx LT| |mn|c|c|c f todo acc|kk mn mx|kk mn mx]; cbn [pc_in] in PI; try (destruct PI; fail).
      * eapply LQ; [exact CL|reflexivity|exact (load_reg s t FCur k v H mcur (KN0 _ mcur) CL)| | |exact I]; intros W; left; exact (load_newest s t FCur k v H mcur W CL).
      * eapply LQ; [exact CL|reflexivity| | | |exact I]; [|intros W; left; exact W..].
        split; [exact PI|]. apply (B_min _ H). exact (load_reg s t FMin k v H mmin (KN0 _ mmin) CL).
      * eapply LQ; [exact CL|reflexivity| | | |exact I]; [|intros W; left; exact W..].
        split; [apply PI|]. apply (B_min _ H). exact (load_reg s t FMin k v H mmin (KN0 _ mmin) CL).
      * eapply LQ; [exact CL|reflexivity| | | |exact I]; [|intros W; left; exact W|intros []].
        split; [exact PI|]. apply (B_max _ H). exact (load_reg s t FMax k v H mmax (KN0 _ mmax) CL).
      * eapply LQ; [exact CL|reflexivity| | | |exact I]; [|intros W; left; exact W|intros []].
        split; [apply PI|]. apply (B_max _ H). exact (load_reg s t FMax k v H mmax (KN0 _ mmax) CL).
      * eapply LQ; [exact CL|reflexivity|exact I|intros []|intros []|exact I].
      * eapply LQ; [exact CL|reflexivity|exact I|intros []|intros []|exact I].
    + match goal with C : can_write _ _ _ _ |- _ => rename C into CW end. match goal with C : can_load _ _ _ _ _ |- _ => rename C into CL end.
      pose proof (write_last s t FMin k mn H mmin (KN0 _ mmin) CW CL) as ->. cbn [pc_in] in PI.
      eapply (RB_write s t _ (ALoadMax c) FMin k); [exact H|exact mmin|exact KN0|exact CW|exact Et|reflexivity|exact HW'| |discriminate|discriminate].
      intros _. split; [assumption|]. split; [apply PI|]. split; [eauto|reflexivity].
    + cbn [pc_in] in PI. apply (PQ (ALoadMax c) eq_refl (proj1 PI)); intros W; [left; exact W|]. cbn [will_min] in W. right. lia.
    + match goal with C : can_write _ _ _ _ |- _ => rename C into CW end. match goal with C : can_load _ _ _ _ _ |- _ => rename C into CL end.
      pose proof (write_last s t FMax k mx H mmax (KN0 _ mmax) CW CL) as ->. cbn [pc_in] in PI.
      eapply (RB_write s t _ AIdle FMax k); [exact H|exact mmax|exact KN0|exact CW|exact Et|reflexivity|exact HW'|discriminate| |discriminate].
      intros _. split; [assumption|]. split; [apply PI|]. split; [eauto|reflexivity].
    + cbn [pc_in] in PI. apply (PQ AIdle eq_refl I); intros W; [|destruct W]. cbn [will_max] in W. right. lia.
    + destruct PI.
    + destruct PI.
    + destruct PI.
    + match goal with R : ring_op _ _ _ |- _ => destruct R; try destruct PI end. match goal with R : wstep _ _ _ = Some _ |- _ => pose proof (pub_ring _ _ _ _ R) as PR end.
      apply (TK (DPeek k) t (DPeek k) Et); auto; try (intros []; fail).
      * intros g _. reflexivity.
      * kfld. apply PR. discriminate.
      * kfld. rewrite upd_same by exact Et. reflexivity.
    + match goal with R : ring_op _ _ _ |- _ => destruct R; try destruct PI end. match goal with R : wstep _ _ _ = Some _ |- _ => pose proof (pub_ring _ _ _ _ R) as PR end.
      apply (TK (DPeek k) t (DPeek k) Et); auto; try (intros []; fail).
      * intros g _. reflexivity.
      * kfld. apply PR. intros t1 f1 p1 rt x [= <- <- <-]. match goal with Q : nth_error (w_threads _) t = Some _ |- _ => rewrite Q; pose proof (PAIR t _ _ Et Q) as PO end.
        cbn [pair_ok] in PO. destruct PO as [->|(? & _ & [->|[? ->]])]; discriminate.
      * kfld. rewrite upd_same by exact Et. reflexivity.
    + match goal with R : ring_op _ _ _ |- _ => destruct R; try destruct PI end. match goal with R : wstep _ _ _ = Some _ |- _ => pose proof (pub_ring _ _ _ _ R) as PR end.
      apply (TK (DPeek k) t (APanicked e) Et); auto; try (intros []; fail); try exact I.
      * intros g _. reflexivity.
      * kfld. apply PR. intros t1 f1 p1 rt x [= <- <- <-]. match goal with Q : nth_error (w_threads (k_ring s)) t = Some _ |- _ => rewrite Q; pose proof (PAIR t _ _ Et Q) as PO end.
        cbn [pair_ok] in PO. destruct PO as [->|(? & _ & [->|[? ->]])]; discriminate.
    + match goal with R : wstep _ _ _ = Some _ |- _ => pose proof (pub_ring _ _ _ _ R) as PR end.
      match goal with L : ring_ret _ _ _ _ _ |- _ => rename L into RR end.
      assert (PUB : exists k, p = DPeek k) by (match goal with R : ring_op _ _ _ |- _ => destruct R; try destruct PI end; eauto). destruct PUB as (kk & ->).
      assert (PUB : w_pub r = w_pub (k_ring s)).
      { apply PR. intros t1 f1 p1 rt x [= <- <- <-]. match goal with Q : nth_error (w_threads (k_ring s)) t = Some _ |- _ => rewrite Q; pose proof (PAIR t _ _ Et Q) as PO end.
        cbn [pair_ok] in PO. destruct PO as [->|(? & _ & [->|[? ->]])]; discriminate. }
      inversion RR; subst.
      * apply (TK (DPeek kk) t AIdle Et); auto; try (intros []; fail); try exact I. intros g _. reflexivity.
      * apply (TK (DPeek kk) t (DMin kk mn mx) Et); auto; try (intros []; fail); try exact I. intros g _. reflexivity.
      * apply (TK (DPeek kk) t (APanicked q0) Et); auto; try (intros []; fail); try exact I. intros g _. reflexivity.
    + eapply LQ; [eassumption|reflexivity|exact I|intros []|intros []|exact I].
    + eapply LQ; [eassumption|reflexivity|exact I|intros []|intros []|exact I].
    + apply (TK (DLoads k mn mx [] acc) t AIdle Et); auto; try (intros []; fail); try exact I.
      * intros g _. reflexivity.
      * apply (OTHER t); [intros u N; change (kview_of (loaded s t FCur i) u = kview_of s u); apply VO; exact N|intros g _; reflexivity].
  - destruct (nth_error (k_threads s) t) as [[]|] eqn:Et; try discriminate. destruct (wstep b (k_ring s) (Send t)) as [r|] eqn:Er; [|discriminate]. injection E1 as <-.
    apply (TK AIdle t AIdle Et); auto; try (intros []; fail).
    + intros f _. reflexivity.
    + kfld. cbn [wstep] in Er. destruct (nth_error (w_threads (k_ring s)) t) as [[]|]; try discriminate. injection Er as <-. reflexivity.
    + kfld. rewrite upd_same by exact Et. reflexivity.
    + exact I.
  - destruct (nth_error (k_threads s) t) as [[]|] eqn:Et; try discriminate. destruct (nth_error (k_sent s) k); [|discriminate].
    destruct (wstep b (k_ring s) (Recv t k)) as [r|] eqn:Er; [|discriminate]. injection E1 as <-.
    apply (TK AIdle t AIdle Et); auto; try (intros []; fail).
    + intros f _. reflexivity.
    + kfld. cbn [wstep] in Er. destruct (nth_error (w_threads (k_ring s)) t) as [[]|]; try discriminate. destruct (nth_error (w_sent (k_ring s)) k); [|discriminate]. injection Er as <-. reflexivity.
    + kfld. rewrite upd_same by exact Et. reflexivity.
    + apply (OTHER t); [|intros g _; reflexivity]. intros u N. rewrite view_put; [|kfld; rewrite (W_lenv _ _ HW), <- (W_len _ _ HW); apply nth_error_Some; congruence].
      rewrite (proj2 (Nat.eqb_neq _ _)) by congruence. reflexivity.
    + exact I.
Qed.
End Region.
