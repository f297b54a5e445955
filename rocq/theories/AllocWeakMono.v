(** * Relaxed memory: regions in which every call grows (or every call shrinks) the memory in use. *)
From Coq Require Import List ZArith Lia Bool Arith.
From Verif Require Import Machine Ring RingSeq RingConc Alloc AllocSpec AllocProofs AllocConc AllocConcSpec AllocConcProofs AllocConcProofs2
  RingWeak RingWeakSpec RingWeakProofs RingWeakProofs2 RingWeakProofs3 RingWeakProofs4 RingWeakProofs5 RingWeakPeek
  AllocWeak AllocWeakSpec AllocWeakProofs AllocWeakProofs2 AllocWeakProofs3 AllocWeakProofs4 AllocWeakProofs5 AllocWeakCalls AllocWeakMinMax AllocWeakMinMax2 AllocWeakMinMax3.
Import ListNotations.
Open Scope Z_scope.

Section Dir.
Variable dir : Z.   (* 1 or -1 *)
Definition signed (s : kst) : Prop := Forall (fun p => 0 <= dir * pend1 FCur p) (k_threads s).
(** what has been added to the usage so far *)
Definition done_cur (s : kst) : Z := total delta (k_started s) - pend FCur (k_threads s).
Definition appended (s s' : kst) : Prop := k_msgs s' FCur = k_msgs s FCur \/ exists m, k_msgs s' FCur = k_msgs s FCur ++ [m].

Lemma mono_step b n s a s' : KC n s -> kstep b s a = Some s' -> (forall op, In op (kcalls [a]) -> 0 <= dir * delta op) ->
  signed s -> signed s' /\ 0 <= dir * (done_cur s' - done_cur s) /\ appended s s'.
Proof.
  intros (HW & HP & HC) E OPS SG. unfold kstep in E. destruct (kact b s a) as [s1|] eqn:E1; [|discriminate]. injection E as <-.
  enough (signed s1 /\ 0 <= dir * (done_cur s1 - done_cur s) /\ appended s s1) as GOAL by exact GOAL.
  assert (SAME : forall t p p' s1, nth_error (k_threads s) t = Some p -> k_msgs s1 FCur = k_msgs s FCur -> k_started s1 = k_started s ->
            k_threads s1 = upd t p' (k_threads s) -> pend1 FCur p' = pend1 FCur p ->
            signed s1 /\ 0 <= dir * (done_cur s1 - done_cur s) /\ appended s s1).
  { intros t p p' s2 Ht E2 E3 E4 E5. split; [|split].
    - unfold signed. rewrite E4. apply Forall_upd; [exact SG|]. cbn. rewrite E5. exact (Forall_nth _ _ _ _ SG Ht).
    - unfold done_cur. rewrite E4, E3, (pend_upd FCur _ t p) by exact Ht. rewrite E5. lia.
    - left. exact E2. }
  assert (STAY : forall s1, k_msgs s1 = k_msgs s -> k_started s1 = k_started s -> k_threads s1 = k_threads s ->
            signed s1 /\ 0 <= dir * (done_cur s1 - done_cur s) /\ appended s s1).
  { intros s2 E2 E3 E4. unfold signed, done_cur, appended. rewrite E2, E3, E4. split; [exact SG|]. split; [lia|left; reflexivity]. }
  destruct a as [t op|t fails picks|t|t k]; cbn [kact] in E1.
  - destruct (nth_error (k_threads s) t) as [p|] eqn:Et; [|discriminate]. destruct p; try discriminate.
    destruct (kcan_start s t op); [|discriminate]. injection E1 as <-. specialize (OPS op (or_introl eq_refl)).
    assert (P1 : pend1 FCur (first_apc op) = delta op) by (rewrite pend1_first by discriminate; reflexivity).
    split; [|split].
    + unfold signed. kfld. apply Forall_upd; [exact SG|]. cbn. rewrite P1. exact OPS.
    + unfold done_cur. kfld. rewrite (pend_upd FCur _ t AIdle) by exact Et. rewrite P1. rewrite total_snoc. cbn [pend1]. lia.
    + left. reflexivity.
  - destruct (nth_error (k_threads s) t) as [p|] eqn:Et; [|discriminate].
    apply kstep_shapes in E1. pose proof (Forall_nth _ _ _ _ HP Et) as Hp. pose proof (Forall_nth _ _ _ _ SG Et) as Hs. cbn in Hs.
    inversion E1; subst; try (eapply SAME; [exact Et|reflexivity|reflexivity|reflexivity|reflexivity]);
      try (eapply SAME; [exact Et|apply written_other; discriminate|reflexivity|reflexivity|reflexivity]);
      try (apply STAY; reflexivity).
    + apply cur_last_tl in Hp. destruct Hp as (W & F1 & F2 & F3). cbn [pend1] in Hs.
      match goal with C : can_write _ _ _ _ |- _ => pose proof (counter_end _ _ _ _ _ HW C F1 F2) as EK end.
      destruct (field_eq_dec f FCur) as [->|Hne].
      * specialize (F3 eq_refl). subst l. cbn [after_adds].
        assert (Q : sum_for FCur [(FCur, n0)] = n0) by (unfold sum_for, sum; cbn [map fst snd fold_right]; destruct (field_eq_dec FCur FCur); [lia|congruence]).
        rewrite Q in Hs. split; [|split].
        -- unfold signed. kfld. apply Forall_upd; [exact SG|]. cbn. lia.
        -- unfold done_cur. kfld. rewrite (pend_upd FCur _ t (AAdds [(FCur, n0)])) by exact Et. cbn [pend1]. rewrite Q. lia.
        -- right. eexists. unfold appended. change (k_msgs (kput (written s t FCur k (wrap64 (v + n0)) true) t ALoadCur) FCur) with (k_msgs (written s t FCur k (wrap64 (v + n0)) true) FCur). apply written_end. exact EK.
      * eapply SAME; [exact Et|apply written_other; congruence|reflexivity|reflexivity|].
        rewrite pend1_after. cbn [pend1]. unfold sum_for, sum. cbn [map fst snd fold_right]. destruct (field_eq_dec f FCur); [congruence|lia].
    + match goal with L : load_kind _ _ _ |- _ => rename L into LK end. eapply SAME; [exact Et|reflexivity|reflexivity|reflexivity|]. apply (load_kind_pend _ _ _ LK FCur v).
    + match goal with L : ring_op _ _ _ |- _ => rename L into RO end. eapply SAME; [exact Et|reflexivity|reflexivity|reflexivity|]. rewrite (ring_op_pend _ _ _ RO). reflexivity.
    + match goal with L : ring_op _ _ _ |- _ => rename L into RO end. match goal with L : ring_ret _ _ _ _ _ |- _ => rename L into RR end.
      destruct (ring_ret_msgs _ _ _ _ _ RR) as (M1 & M2 & p' & M3 & M4 & M5).
      eapply (SAME t p p'); [exact Et|rewrite M1; reflexivity|exact M2|exact M3|]. rewrite (ring_op_pend _ _ _ RO). apply M4.
  - destruct (nth_error (k_threads s) t) as [[]|]; try discriminate. destruct (wstep b (k_ring s) (Send t)); [|discriminate].
    injection E1 as <-. apply STAY; reflexivity.
  - destruct (nth_error (k_threads s) t) as [[]|]; try discriminate. destruct (nth_error (k_sent s) k); [|discriminate].
    destruct (wstep b (k_ring s) (Recv t k)); [|discriminate]. injection E1 as <-. apply STAY; reflexivity.
Qed.

Lemma wrap_shift x y : wrap64 (x + y) = wrap64 (wrap64 x + y).
Proof. unfold wrap64. rewrite Zplus_mod_idemp_l. reflexivity. Qed.

(** the values of the usage since [s0] move in one direction *)
Lemma mono_run b n s0 : dir = 1 \/ dir = -1 -> KC n s0 -> k_idle s0 -> forall sched s, krun b s0 sched = Some s ->
  (forall op, In op (kcalls sched) -> 0 <= dir * delta op) ->
  0 <= kvalue s0 FCur < two64 -> 0 <= kvalue s0 FCur + total delta (kcalls sched) < two64 ->
  KC n s /\ signed s /\ 0 <= dir * (done_cur s - done_cur s0) /\
  kvalue s FCur = kvalue s0 FCur + (done_cur s - done_cur s0) /\
  (length (kvalues s0 FCur) <= length (kvalues s FCur))%nat /\
  forall v, In v (skipn (length (kvalues s0 FCur) - 1) (kvalues s FCur)) ->
    0 <= dir * (v - kvalue s0 FCur) /\ 0 <= dir * (kvalue s FCur - v).
Proof.
  intros D K0 I0. induction sched as [|a sched IH] using rev_ind; intros s R OPS V0 VT.
  - cbn [krun] in R. injection R as <-. split; [exact K0|]. split.
    { unfold signed, k_idle in *. revert I0. apply Forall_impl. intros p ->. cbn. lia. }
    split; [lia|]. split; [lia|]. split; [lia|]. intros v I.
    assert (EQ : v = kvalue s0 FCur).
    { unfold kvalue, kvalues in *. rewrite map_length in I. destruct K0 as (HW & _). destruct (W_msgs _ _ HW FCur) as (m & Hm & _).
      destruct (k_msgs s0 FCur) as [|x l] using rev_ind; [discriminate|]. rewrite app_length in I. cbn [length] in I.
      replace (length l + 1 - 1)%nat with (length l) in I by lia. rewrite map_app, skipn_app, map_length, Nat.sub_diag, skipn_all2 in I by (rewrite map_length; lia).
      cbn in I. destruct I as [<-|[]]. rewrite last_last. reflexivity. }
    subst v. lia.
  - rewrite krun_app in R. destruct (krun b s0 sched) as [s1|] eqn:R1; [|discriminate]. cbn [krun] in R.
    destruct (kstep b s1 a) as [s2|] eqn:E; [|discriminate]. injection R as <-.
    assert (SGN : forall l, (forall op, In op l -> 0 <= dir * delta op) -> 0 <= dir * total delta l).
    { induction l as [|op l IHl]; intros H; [cbn; lia|]. unfold total, sum in *. cbn [map fold_right]. pose proof (H op (or_introl eq_refl)). specialize (IHl (fun o I => H o (or_intror I))). lia. }
    assert (TT : total delta (kcalls (sched ++ [a])) = total delta (kcalls sched) + total delta (kcalls [a])).
    { rewrite kcalls_app, total_app. reflexivity. }
    assert (O1 : forall op, In op (kcalls sched) -> 0 <= dir * delta op) by (intros op I; apply OPS; rewrite kcalls_app; apply in_or_app; auto).
    assert (O2 : forall op, In op (kcalls [a]) -> 0 <= dir * delta op) by (intros op I; apply OPS; rewrite kcalls_app; apply in_or_app; auto).
    pose proof (SGN _ O1) as S1. pose proof (SGN _ O2) as S2.
    destruct (IH s1 eq_refl O1 V0) as (K1 & G1 & D1 & KV1 & LE & VS); [destruct D as [-> | ->]; lia|].
    destruct (mono_step b n s1 a s2 K1 E O2 G1) as (G2 & D2 & AP). pose proof (KC_step b n s1 a s2 K1 E) as K2.
    assert (ST : k_started s2 = k_started s0 ++ kcalls (sched ++ [a])).
    { apply (kstarted_run b (sched ++ [a]) s0 s2). rewrite krun_app, R1. cbn [krun]. rewrite E. reflexivity. }
    assert (PS : 0 <= dir * pend FCur (k_threads s2)).
    { unfold signed in G2. unfold pend, sum. clear - G2. induction (k_threads s2) as [|p l IHl]; cbn [map fold_right]; [lia|]. inversion G2; subst. specialize (IHl H2). lia. }
    assert (P0 : pend FCur (k_threads s0) = 0) by (apply kpend_idle; exact I0).
    assert (DD : done_cur s2 - done_cur s0 = total delta (kcalls (sched ++ [a])) - pend FCur (k_threads s2)).
    { unfold done_cur. rewrite ST, P0, total_app. lia. }
    assert (KV2 : kvalue s2 FCur = kvalue s0 FCur + (done_cur s2 - done_cur s0)).
    { destruct K2 as (_ & _ & C2). destruct K0 as (_ & _ & C0). rewrite (C2 FCur) by discriminate.
      change (total (contrib FCur) (k_started s2) - pend FCur (k_threads s2)) with (done_cur s2).
      assert (W0 : kvalue s0 FCur = wrap64 (done_cur s0)) by (rewrite (C0 FCur) by discriminate; reflexivity).
      replace (done_cur s2) with (done_cur s0 + (done_cur s2 - done_cur s0)) at 1 by lia. rewrite wrap_shift, <- W0.
      unfold wrap64. apply Z.mod_small. rewrite DD in *. destruct D as [-> | ->]; lia. }
    split; [exact K2|]. split; [exact G2|]. split; [lia|]. split; [exact KV2|].
    destruct AP as [AP|[m AP]].
    + unfold kvalues in *. rewrite AP. split; [exact LE|]. intros v I. destruct (VS v I) as [A B]. lia.
    + assert (LM : kvalue s2 FCur = f_val m) by (unfold kvalue; rewrite AP, last_last; reflexivity).
      unfold kvalues in *. rewrite AP, map_app. split; [rewrite app_length; lia|]. intros v I.
      rewrite skipn_app in I. apply in_app_or in I. destruct I as [I|I].
      * destruct (VS v I) as [A B]. lia.
      * assert (IM : In v [f_val m]) by (cbn [map] in I; rewrite <- (firstn_skipn (length (map f_val (k_msgs s0 FCur)) - 1 - length (map f_val (k_msgs s1 FCur))) [f_val m]); apply in_or_app; right; exact I). cbn in IM. destruct IM as [<-|[]]. rewrite <- LM. lia.
Qed.
End Dir.

(** ** A region: after save_point, up to the return of delta_statistics *)
Section Region.
Variables (b : build) (sz n : nat) (sched : list kaction).
Hypothesis HS : (1 <= sz)%nat.
Hypothesis HSB : Z.of_nat sz < two32.
Hypothesis HN : (n <= sz)%nat.
Hypothesis HF : fits (kcalls sched).
Variables (si se k di de : nat) (ds : list Z).
Hypothesis SO : save_over b sz n sched si se k.
Hypothesis DO : delta_over b sz n sched di de k ds.
Hypothesis SD : khb sched se di.
Hypothesis CL : forall i t op, (i < de)%nat -> nth_error sched i = Some (KStart t op) -> i = si \/ i = di \/
  exists e, call_over b sz n sched i e /\ (khb sched e si \/ (se < i)%nat /\ op <> OSave /\ khb sched se i /\ khb sched e di).

Lemma save_point_exact s0 s1 : kat b sz n sched (S se) = Some s0 -> kat b sz n sched de = Some s1 ->
  exists c snap, nth_error (k_sps s1) k = Some (c, snap) /\ skipn 9 snap = [kvalue s0 FCur; kvalue s0 FCur; kvalue s0 FCur].
Proof.
  intros H0 H1. pose proof (bounds b sz n sched HS HN si se k di de ds SO DO SD CL) as (B1 & B2 & B3 & B4). pose proof SO as ((t & Hs) & _).
  destruct (save_done b sz n sched HS HSB HN HF si se k di de ds SO DO SD CL t Hs s0 H0) as (_ & V1 & V2 & _ & (c & snap & Hc & _ & SK)).
  destruct (F_sps _ _ _ (kat_fwd b sz n sched (S se) de s0 s1 ltac:(lia) H0 H1)) as (l & El).
  exists c, snap. split; [rewrite El, nth_error_app1; [exact Hc|apply nth_error_Some; congruence]|]. rewrite SK, V1, V2. reflexivity.
Qed.

Lemma region_pend s1 : kat b sz n sched de = Some s1 -> pend FCur (k_threads s1) = 0.
Proof.
  intros H1. pose proof (bounds b sz n sched HS HN si se k di de ds SO DO SD CL) as (B1 & B2 & B3 & B4).
  pose proof DO as ((w & Hd) & COD & (sx & s2 & Hs1 & Hs2 & _)).
  destruct (delta_end b sz n sched HS HSB HN HF di de k ds s2 DO Hs2) as (u & sd & Hd' & Hsd & LK & _). rewrite Hd in Hd'. injection Hd' as <-.
  destruct (delta_path b sz n sched HS HSB HN HF di de w k sd Hd COD Hsd LK de B3 ltac:(lia) s1 H1) as (p & Ep & PC).
  assert (Z0 : forall v q, nth_error (k_threads s1) v = Some q -> pend1 FCur q = 0).
  { intros v q Hq. destruct (Nat.eq_dec v w) as [->|N].
    - rewrite Ep in Hq. injection Hq as <-. destruct p; try reflexivity. destruct PC.
    - rewrite (others_idle_delta b sz n sched HS HN si se k di de ds SO DO SD CL w v de s1 Hd ltac:(lia) H1
                (lt_n b sz n sched v de s1 q H1 Hq) (or_introl N)) in Hq. injection Hq as <-. reflexivity. }
  unfold pend, sum. clear - Z0. induction (k_threads s1) as [|p l IH]; [reflexivity|]. cbn [map fold_right].
  rewrite (Z0 0%nat p eq_refl), IH; [reflexivity|]. intros v q Hq. exact (Z0 (S v) q Hq).
Qed.

Lemma region_mono dir s0 s1 : dir = 1 \/ dir = -1 -> kat b sz n sched (S se) = Some s0 -> kat b sz n sched de = Some s1 ->
  (forall op, In op (kcalls (skipn (S se) (firstn de sched))) -> 0 <= dir * delta op) ->
  0 <= kvalue s0 FCur + total delta (kcalls (skipn (S se) (firstn de sched))) < two64 ->
  kvalue s1 FCur = kvalue s0 FCur + total delta (kcalls (skipn (S se) (firstn de sched))) /\
  forall v, In v (skipn (length (kvalues s0 FCur) - 1) (kvalues s1 FCur)) -> 0 <= dir * (v - kvalue s0 FCur) /\ 0 <= dir * (kvalue s1 FCur - v).
Proof.
  intros D H0 H1 OPS TOT. pose proof (bounds b sz n sched HS HN si se k di de ds SO DO SD CL) as (B1 & B2 & B3 & B4). pose proof SO as ((t & Hs) & _).
  destruct (save_done b sz n sched HS HSB HN HF si se k di de ds SO DO SD CL t Hs s0 H0) as (_ & _ & _ & IDL & _).
  pose proof (krun_inv b (KC n) (fun s a s' => KC_step b n s a s') _ _ _ (KC_init sz n) H0) as K0.
  assert (I0 : k_idle s0).
  { unfold k_idle. apply Forall_forall. intros p Hp. apply In_nth_error in Hp. destruct Hp as (u & Hu).
    rewrite (IDL u (lt_n b sz n sched u (S se) s0 p H0 Hu)) in Hu. congruence. }
  set (reg := skipn (S se) (firstn de sched)) in *.
  assert (R : krun b s0 reg = Some s1).
  { assert (E : firstn de sched = firstn (S se) sched ++ reg).
    { unfold reg. rewrite <- (firstn_skipn (S se) (firstn de sched)) at 1. rewrite firstn_firstn. replace (Nat.min (S se) de) with (S se) by lia. reflexivity. }
    unfold kat in H0, H1. rewrite E, krun_app, H0 in H1. exact H1. }
  assert (V0 : 0 <= kvalue s0 FCur < two64).
  { pose proof (cur_range_at b sz n sched HS HSB HN HF (S se) s0 H0) as CR. unfold cur_range in CR. rewrite Forall_forall in CR.
    unfold kvalue. destruct (k_msgs s0 FCur) as [|m l] using rev_ind; [cbn; unfold two64; lia|]. rewrite last_last. apply CR. apply in_or_app. right. left. reflexivity. }
  destruct (mono_run dir b n s0 D K0 I0 reg s1 R OPS V0 TOT) as (_ & _ & _ & KV & _ & VS).
  split; [|exact VS]. rewrite KV. unfold done_cur. rewrite (kstarted_run b reg s0 s1 R), total_app, (region_pend s1 H1), (kpend_idle FCur s0 I0). lia.
Qed.
End Region.
