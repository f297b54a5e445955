(** * Relaxed memory: the slots, and the results of synchronised calls (C80, C82). *)
From Coq Require Import List ZArith Lia Bool Arith Permutation.
From Coq Require Import ZifyBool ZifyNat ZifyN.
From Verif Require Import Machine Ring RingSpec RingSeq RingConc RingConc2 RingConc3 RingWeak RingWeakSpec
  RingWeakProofs RingWeakProofs2 RingWeakProofs3 RingWeakProofs4.
Import ListNotations.
Open Scope Z_scope.

Section Weak5.
Context {A : Type}.
Variable bld : build.
Notation wstate := (wstate A).
Notation waction := (waction A).
Notation cstate := (cstate A).
Notation pc := (pc A).

Definition wslot (s : wstate) (i : nat) : list A := nth i (w_slots s) [].

Record SInv (sz : nat) (s : wstate) : Prop := {
  S_a : forall i k x, (i < sz)%nat -> nth_error (wslot s i) k = Some x -> nth_error (w_hist s) (i + k * sz) = Some x;
  S_b : forall t p x, nth_error (w_threads s) t = Some (EnqWrite (Z.of_nat p) x) ->
          length (wslot s (p mod sz)) = (p / sz)%nat /\ (p + 2 <= seen (view_of s t) Res)%nat;
  S_c : forall p, (p < length (w_hist s))%nat -> (forall t x, nth_error (w_threads s) t <> Some (EnqWrite (Z.of_nat p) x)) ->
          (p / sz < length (wslot s (p mod sz)))%nat;
  S_e : forall t p x, nth_error (w_threads s) t = Some (EnqPublish (Z.of_nat p) x) ->
          (p + 2 <= seen (view_of s t) Res)%nat /\ (S (p / sz) <= seen (view_of s t) (Slot (p mod sz)))%nat
}.

Lemma slot_of_nat sz (s : wstate) p : length (w_slots s) = sz -> slot_of s (Z.of_nat p) = (p mod sz)%nat.
Proof. intros H. unfold slot_of, wsize. rewrite H, <- Nat2Z.inj_mod. apply Nat2Z.id. Qed.

Definition enq_pc (p : pc) : bool := match p with EnqWrite _ _ | EnqPublish _ _ => true | _ => false end.

Lemma SInv_quiet sz (s s' : wstate) t p p' : SInv sz s -> nth_error (w_threads s) t = Some p ->
  w_hist s' = w_hist s -> w_slots s' = w_slots s -> w_threads s' = upd t p' (w_threads s) ->
  (forall t', vle (view_of s t') (view_of s' t')) ->
  writing p = false -> (enq_pc p' = false \/ p' = p) -> SInv sz s'.
Proof.
  intros [Ha Hb Hc He] Ht E1 E2 E3 V Hw Hp'.
  constructor; unfold wslot in *; rewrite ?E1, ?E2, ?E3.
  - exact Ha.
  - intros t0 q x H0. destruct (Nat.eq_dec t t0) as [<-|N].
    + rewrite (nth_error_upd_same _ _ p) in H0 by exact Ht. injection H0 as ->.
      destruct Hp' as [Hp'|<-]; discriminate.
    + rewrite nth_error_upd_neq in H0 by exact N. destruct (Hb t0 q x H0) as [B1 B2]. split; [exact B1|].
      specialize (V t0 Res). lia.
  - intros q Hq Hn. apply Hc; [exact Hq|]. intros t0 x H0. destruct (Nat.eq_dec t t0) as [<-|N].
    + rewrite Ht in H0. injection H0 as ->. discriminate.
    + apply (Hn t0 x). rewrite nth_error_upd_neq by exact N. exact H0.
  - intros t0 q x H0. destruct (Nat.eq_dec t t0) as [<-|N].
    + rewrite (nth_error_upd_same _ _ p) in H0 by exact Ht. injection H0 as ->.
      destruct Hp' as [Hp'|<-]; [discriminate|]. destruct (He t q x Ht) as [B1 B2].
      pose proof (V t Res). pose proof (V t (Slot (q mod sz))). lia.
    + rewrite nth_error_upd_neq in H0 by exact N. destruct (He t0 q x H0) as [B1 B2].
      pose proof (V t0 Res). pose proof (V t0 (Slot (q mod sz))). lia.
Qed.

Lemma NoDup_flat_map_inj {X Y} (f : X -> list Y) l i j x y z : NoDup (flat_map f l) ->
  nth_error l i = Some x -> nth_error l j = Some y -> In z (f x) -> In z (f y) -> i = j.
Proof.
  revert i j; induction l as [|u l IH]; intros i j ND Hi Hj Hx Hy; [destruct i; discriminate|].
  cbn [flat_map] in ND.
  assert (D : forall k w, nth_error l k = Some w -> In z (f w) -> In z (f u) -> False).
  { intros k w Hk Hw Hu. apply nth_error_In in Hk.
    assert (In z (flat_map f l)) by (apply in_flat_map; eauto).
    clear -ND Hu H. induction (f u) as [|v m IHm]; cbn [app] in ND; [contradiction|]. inversion ND; subst.
    destruct Hu as [->|Hu]; [rewrite in_app_iff in *; tauto|auto]. }
  assert (ND' : NoDup (flat_map f l)).
  { clear -ND. induction (f u) as [|v m IHm]; cbn [app] in ND; [exact ND|]. inversion ND; auto. }
  destruct i as [|i], j as [|j]; cbn [nth_error] in Hi, Hj.
  - reflexivity.
  - injection Hi as ->. exfalso. eapply D; eauto.
  - injection Hj as ->. exfalso. eapply D; eauto.
  - f_equal. eapply IH; eauto.
Qed.

Lemma Forall2_len {X Y} (P : X -> Y -> Prop) l l' : Forall2 P l l' -> length l = length l'.
Proof. induction 1; cbn [length]; congruence. Qed.

Lemma wok_window sz (s : wstate) cs : Inv sz cs -> Rel sz s cs -> (length (w_threads s) <= sz)%nat ->
  reserved cs - published cs <= Z.of_nat sz.
Proof.
  intros HI HR HN. pose proof (inflights_le sz cs HI) as W.
  pose proof (Forall2_len _ _ _ (R_threads sz s cs HR)) as L. lia.
Qed.

Lemma SInv_step sz (s : wstate) a s' : (1 <= sz)%nat -> (length (w_threads s) <= sz)%nat ->
  Wok sz s -> SInv sz s -> wstep bld s a = Some s' -> Wok sz s' -> SInv sz s'.
Proof.
  intros HS HN (HK & cs & HI & HR) SI E (HK' & cs' & HI' & HR').
  pose proof (step_views bld s a s' E (R_views sz s cs HR)) as [V _].
  assert (VU : forall t v (s1 : wstate), w_views s1 = upd t v (w_views s) -> (t < length (w_threads s))%nat -> view_of s1 t = v).
  { intros t v s1 Es L. unfold view_of. rewrite Es, view_upd, Nat.eqb_refl, (R_views sz s cs HR).
    rewrite (proj2 (Nat.ltb_lt _ _)) by exact L. reflexivity. }
  destruct a as [t op|t fails picks|t|t k]; cbn [wstep] in E.
  - destruct (nth_error (w_threads s) t) as [[]|] eqn:Ht; try discriminate. split_step E. injection E as <-.
    eapply (SInv_quiet sz s); [exact SI|exact Ht|reflexivity..|exact V|reflexivity|]. left. destruct op; reflexivity.
  - destruct (nth_error (w_threads s) t) as [p|] eqn:Ht; try discriminate.
    assert (LT : (t < length (w_threads s))%nat) by (apply nth_error_Some; congruence).
    destruct p as [|x|rt x|rt x|c|c h|c h|c h|c|c h| |q]; cbn [wthread_step] in E; try discriminate;
    try (split_step E; injection E as <-;
         (eapply (SInv_quiet sz s); [exact SI|exact Ht|reflexivity..|exact V|reflexivity|]);
         first [left; reflexivity | right; reflexivity]).
    + (* EnqReserve *)
      destruct (newest_ex _ _ _ (R_res sz s cs HR)) as (m & Em & Vm). rewrite Em in E. injection E as <-.
      set (P := length (w_hist s)) in *.
      assert (RW : m_val m = Z.of_nat P) by lia.
      (* the position one lap behind is written *)
      assert (W' : reserved cs' - published cs' <= Z.of_nat sz).
      { eapply wok_window; [exact HI'|exact HR'|]. cbn [goto w_threads]. rewrite upd_length. exact HN. }
      pose proof (I_res sz cs HI) as HRs. pose proof (I_res sz cs' HI') as HRs'. unfold nhist in HRs, HRs'.
      rewrite (R_hist sz s cs HR) in HRs. rewrite (R_hist _ _ _ HR') in HRs'. cbn [goto w_hist] in HRs'.
      rewrite app_length in HRs'. cbn [length] in HRs'.
      pose proof (vals_len _ _ _ (R_pub sz s cs HR)) as L1. pose proof (vals_len _ _ _ (R_pub _ _ _ HR')) as L2.
      cbn [goto w_pub] in L2. pose proof (I_pub sz cs HI) as HP. pose proof (I_pub sz cs' HI') as HP'.
      assert (PP : published cs = published cs') by lia.
      destruct SI as [Ha Hb Hc He].
      assert (LN : length (wslot s (P mod sz)) = (P / sz)%nat).
      { pose proof (Nat.div_mod P sz ltac:(lia)) as DM. pose proof (Nat.mod_upper_bound P sz ltac:(lia)) as MB.
        apply Nat.le_antisymm.
        - apply Nat.nlt_ge. intros L.
          destruct (nth_error (wslot s (P mod sz)) (P / sz)) as [y|] eqn:Q; [|apply nth_error_None in Q; lia].
          pose proof (Ha _ _ _ MB Q) as Q'. assert (P mod sz + P / sz * sz < P)%nat by (apply nth_error_Some; congruence). lia.
        - destruct (Nat.le_gt_cases sz P) as [G|G].
          + assert (Q : ((P - sz) / sz < length (wslot s ((P - sz) mod sz)))%nat).
            { apply Hc; [fold P; lia|]. intros t0 y H0.
              pose proof (R_thread sz s cs t0 _ HR H0 eq_refl) as H0'.
              assert (IN : In (Z.of_nat (P - sz)) (inflights cs)) by (eapply in_inflights; [exact H0'|left; reflexivity]).
              pose proof (inflight_range sz cs _ HI IN). lia. }
            assert (EM : ((P - sz) mod sz = P mod sz)%nat).
            { replace P with ((P - sz) + 1 * sz)%nat at 2 by lia. rewrite Nat.mod_add by lia. reflexivity. }
            assert (ED : (P / sz = S ((P - sz) / sz))%nat).
            { replace P with ((P - sz) + 1 * sz)%nat at 1 by lia. rewrite Nat.div_add by lia. lia. }
            rewrite EM in Q. lia.
          + rewrite (Nat.div_small P sz G). lia. }
      constructor; unfold wslot in *; cbn [goto w_hist w_slots w_threads].
      * intros i k y Hi Hk. pose proof (Ha i k y Hi Hk) as Q. rewrite nth_error_app1; [exact Q|apply nth_error_Some; congruence].
      * intros t0 q y H0. destruct (Nat.eq_dec t t0) as [<-|N].
        -- rewrite (nth_error_upd_same _ _ (EnqReserve x)) in H0 by exact Ht. injection H0 as H0 _.
           assert (q = P) by lia. subst q. split; [exact LN|].
           match goal with |- context [view_of ?s1 t] => rewrite (VU t ((Res, S (length (w_res s))) :: view_of s t) s1 eq_refl LT) end.
           rewrite seen_cons. cbn [loc_eqb]. rewrite (vals_len _ _ _ (R_res sz s cs HR)). fold P. lia.
        -- rewrite nth_error_upd_neq in H0 by exact N. destruct (Hb t0 q y H0) as [B1 B2]. split; [exact B1|].
           specialize (V t0 Res). lia.
      * intros q Hq Hn. rewrite app_length in Hq. cbn [length] in Hq.
        destruct (Nat.eq_dec q P) as [->|Nq].
        -- exfalso. apply (Hn t x). rewrite (nth_error_upd_same _ _ (EnqReserve x)) by exact Ht. rewrite RW. reflexivity.
        -- apply Hc; [fold P in Hq; lia|]. intros t0 y H0. destruct (Nat.eq_dec t t0) as [<-|N]; [congruence|].
           apply (Hn t0 y). rewrite nth_error_upd_neq by exact N. exact H0.
      * intros t0 q y H0. destruct (Nat.eq_dec t t0) as [<-|N].
        -- rewrite (nth_error_upd_same _ _ (EnqReserve x)) in H0 by exact Ht. discriminate.
        -- rewrite nth_error_upd_neq in H0 by exact N. destruct (He t0 q y H0) as [B1 B2].
           pose proof (V t0 Res). pose proof (V t0 (Slot (q mod sz))). lia.
    + (* EnqWrite *)
      injection E as <-.
      pose proof (R_thread sz s cs t _ HR Ht eq_refl) as Ht'. pose proof (I_pcs sz cs HI t _ Ht') as [Hx H0].
      rewrite (R_hist sz s cs HR) in Hx.
      destruct (Z_of_nat_complete rt H0) as (P & EP). subst rt. rewrite Nat2Z.id in Hx.
      pose proof (R_slots sz s cs HR) as HSL. rewrite (slot_of_nat sz s P HSL) in *.
      pose proof (Nat.mod_upper_bound P sz ltac:(lia)) as MB. pose proof (Nat.div_mod P sz ltac:(lia)) as DM.
      pose proof (wok_window sz s cs HI HR HN) as WW.
      pose proof (inflight_range sz cs (Z.of_nat P) HI (in_inflights cs t _ _ Ht' (or_introl eq_refl))) as RP.
      assert (ND : NoDup (inflights cs)) by (eapply Permutation_NoDup; [apply Permutation_sym, (I_perm sz cs HI)|apply zseq_nodup]).
      destruct SI as [Ha Hb Hc He]. destruct (Hb t P x Ht) as [LN SR].
      assert (NTH : forall i, nth i (upd (P mod sz) (nth (P mod sz) (w_slots s) [] ++ [x]) (w_slots s)) [] =
                    if Nat.eqb (P mod sz) i then wslot s (P mod sz) ++ [x] else wslot s i).
      { intros i. unfold wslot. destruct (Nat.eqb_spec (P mod sz) i) as [<-|N].
        - apply nth_error_nth. apply nth_error_upd_eq. lia.
        - destruct (Nat.lt_ge_cases i (length (w_slots s))) as [L|L].
          + apply nth_error_nth. rewrite nth_error_upd_neq by exact N. apply nth_error_nth'. exact L.
          + rewrite !nth_overflow; auto. rewrite upd_length. exact L. }
      constructor; try unfold wslot at 1; cbn [race goto w_hist w_slots w_threads].
      * intros i k y Hi Hk. rewrite NTH in Hk. destruct (Nat.eqb_spec (P mod sz) i) as [<-|N]; [|eapply Ha; eauto].
        rewrite RingSeq.nth_error_app in Hk. destruct (Nat.ltb_spec k (length (wslot s (P mod sz)))) as [L|L]; [eapply Ha; eauto|].
        destruct (k - length (wslot s (P mod sz)))%nat as [|k'] eqn:EK; cbn [nth_error] in Hk; [|destruct k'; discriminate].
        injection Hk as <-. replace (P mod sz + k * sz)%nat with P; [exact Hx|]. rewrite LN in *. assert (k = P / sz)%nat by lia. subst k. lia.
      * intros t0 q y Hq. rewrite NTH. destruct (Nat.eq_dec t t0) as [<-|N].
        -- rewrite (nth_error_upd_same _ _ (EnqWrite (Z.of_nat P) x)) in Hq by exact Ht. discriminate.
        -- rewrite nth_error_upd_neq in Hq by exact N. destruct (Hb t0 q y Hq) as [B1 B2].
           split; [|specialize (V t0 Res); lia].
           destruct (Nat.eqb_spec (P mod sz) (q mod sz)) as [EQ|NQ]; [exfalso|exact B1].
           pose proof (R_thread sz s cs t0 _ HR Hq eq_refl) as Hq'.
           pose proof (inflight_range sz cs (Z.of_nat q) HI (in_inflights cs t0 _ _ Hq' (or_introl eq_refl))) as RQ.
           assert (q = P).
           { destruct (Nat.le_gt_cases P q) as [G|G].
             - symmetry. apply (mod_inj_window sz P q); lia.
             - apply (mod_inj_window sz q P); lia. }
           subst q. apply N. eapply (NoDup_flat_map_inj inflight); [exact ND|exact Ht'|exact Hq'|left; reflexivity|left; reflexivity].
      * intros q Hq Hn. rewrite NTH.
        destruct (Nat.eq_dec q P) as [->|NP].
        -- rewrite Nat.eqb_refl, app_length, LN. cbn [length]. lia.
        -- assert (Q : (q / sz < length (wslot s (q mod sz)))%nat).
           { apply Hc; [exact Hq|]. intros t0 y Hy. destruct (Nat.eq_dec t t0) as [<-|N].
             - rewrite Ht in Hy. injection Hy as Hy _. apply NP. lia.
             - apply (Hn t0 y). rewrite nth_error_upd_neq by exact N. exact Hy. }
           destruct (Nat.eqb_spec (P mod sz) (q mod sz)) as [EQ|NQ]; [|exact Q]. rewrite EQ, app_length. lia.
      * intros t0 q y Hq. destruct (Nat.eq_dec t t0) as [<-|N].
        -- rewrite (nth_error_upd_same _ _ (EnqWrite (Z.of_nat P) x)) in Hq by exact Ht. injection Hq as Hq _.
           assert (q = P) by lia. subst q.
           match goal with |- context [view_of ?s1 t] =>
             rewrite (VU t ((Slot (P mod sz), S (length (nth (P mod sz) (w_slots s) []))) :: view_of s t) s1 eq_refl LT) end.
           rewrite !seen_cons, loc_eqb_refl. cbn [loc_eqb]. fold (wslot s (P mod sz)). rewrite LN. lia.
        -- rewrite nth_error_upd_neq in Hq by exact N. destruct (He t0 q y Hq) as [B1 B2].
           pose proof (V t0 Res). pose proof (V t0 (Slot (q mod sz))). lia.
  - split_step E. injection E as <-. destruct SI; constructor; auto.
  - destruct (nth_error (w_threads s) t) as [[]|] eqn:Ht; try discriminate. split_step E. injection E as <-.
    eapply (SInv_quiet sz s); [exact SI|exact Ht|reflexivity..|exact V|reflexivity|]. left; reflexivity.
Qed.

Lemma wthreads_len (s : wstate) a s' : wstep bld s a = Some s' -> length (w_threads s') = length (w_threads s).
Proof.
  intros E. destruct a as [t op|t fails picks|t|t k]; cbn [wstep] in E.
  1,3,4: split_step E; injection E as <-; cbn [goto w_threads]; rewrite ?upd_length; reflexivity.
  destruct (nth_error (w_threads s) t) as [p|]; try discriminate.
  destruct p as [|x|rt x|rt x|c|c h|c h|c h|c|c h| |q]; cbn [wthread_step] in E; try discriminate;
    split_step E; injection E as <-; cbn [race wlog lose goto w_threads]; rewrite ?upd_length; reflexivity.
Qed.

Lemma SInv_init sz n : (1 <= sz)%nat -> SInv sz (winit sz n : wstate).
Proof.
  intros HS.
  assert (NI : forall t p, nth_error (w_threads (winit sz n : wstate)) t = Some p -> p = Idle).
  { cbn [winit w_threads]. intros t p H. apply nth_error_In, repeat_spec in H. exact H. }
  assert (NS : forall i, wslot (winit sz n : wstate) i = []).
  { intros i. unfold wslot. cbn [winit w_slots]. destruct (nth_in_or_default i (repeat ([] : list A) sz) []) as [H|H]; [|exact H].
    apply repeat_spec in H. exact H. }
  constructor.
  - intros i k x _ H. rewrite NS in H. destruct k; discriminate.
  - intros t p x H. apply NI in H. discriminate.
  - cbn [winit w_hist length]. intros p H. lia.
  - intros t p x H. apply NI in H. discriminate.
Qed.

Lemma SInv_reachable sz n sched s : (1 <= sz)%nat -> Z.of_nat sz < two32 -> (n <= sz)%nat ->
  wrun bld (winit sz n) sched = Some s -> Z.of_nat (length (wstarted sched)) < two32 -> Wok sz s /\ SInv sz s.
Proof.
  intros HS HSB HN E HB. pose proof (whist_started bld sz n sched s E HB) as HB'.
  destruct (wrun_inv bld (fun s => (length (w_threads s) <= sz)%nat /\ SInv sz s) sz HS HSB) with
    (sched := sched) (s := winit sz n : wstate) (s' := s) as (W & _ & SI); auto using Wok_init.
  - intros s0 a s1 W [L SI] Es W1. split; [rewrite (wthreads_len _ _ _ Es); exact L|]. eapply SInv_step; eauto.
  - split; [cbn; rewrite repeat_length; exact HN|apply SInv_init; exact HS].
Qed.
End Weak5.
