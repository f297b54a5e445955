(** * The ring buffer under weak memory, when nobody dequeues (as in the metrics allocator):
      consumers stay where they were created, and peek_all never underflows. *)
From Coq Require Import List ZArith Lia Bool Arith Permutation.
From Verif Require Import Machine Ring RingSeq RingConc RingWeak RingWeakSpec RingWeakProofs RingWeakProofs2 RingWeakProofs3
  RingWeakProofs4 RingWeakProofs5 RingWeakProofs6.
Import ListNotations.
Open Scope Z_scope.

Section Peek.
Context {A : Type}.
Variable bld : build.
Notation wstate := (wstate A).
Notation waction := (waction A).
Notation pc := (pc A).

Definition peeking (p : pc) : Prop :=
  match p with DeqLoadHead _ | DeqLoadTail _ _ | DeqCas _ _ | DeqCheck _ _ => False | _ => True end.
(** whoever knows a consumer knows the publication its head was read from *)
Definition hknows (r : wstate) (V : view) : Prop :=
  forall c m, (1 <= seen V (Head c))%nat -> nth_error (w_heads r) c = Some [m] -> m_val m + 1 <= Z.of_nat (seen V Pub).
Record RK (r : wstate) : Prop := {
  RK_pcs : forall t p, nth_error (w_threads r) t = Some p -> peeking p;
  RK_heads : forall c hs, nth_error (w_heads r) c = Some hs -> exists m, hs = [m];
  RK_views : Forall (hknows r) (w_views r);
  RK_sent : Forall (hknows r) (w_sent r);
  RK_peek : forall t c h, nth_error (w_threads r) t = Some (PeekLoadTail c h) ->
    exists m, nth_error (w_heads r) c = Some [m] /\ h = m_val m /\ (1 <= seen (view_of r t) (Head c))%nat
}.
Lemma RK_init sz n : RK (winit sz n : wstate).
Proof.
  constructor; cbn [winit w_threads w_heads w_views w_sent].
  - intros t p H. apply nth_error_In, repeat_spec in H. subst. exact I.
  - intros [|c]; discriminate.
  - apply Forall_forall. intros V _ c m _ H. cbn in H. destruct c; discriminate.
  - constructor.
  - intros t c h H. apply nth_error_In, repeat_spec in H. discriminate.
Qed.

Lemma hknows_mono r r' V V' : hknows r V -> w_heads r' = w_heads r -> (forall c, seen V' (Head c) = seen V (Head c)) ->
  (seen V Pub <= seen V' Pub)%nat -> hknows r' V'.
Proof. intros H E1 E2 L c m H1 H2. rewrite E2 in H1. rewrite E1 in H2. specialize (H c m H1 H2). lia. Qed.
Lemma hknows_view r t : RK r -> hknows r (view_of r t).
Proof.
  intros H. unfold view_of. destruct (nth_in_or_default t (w_views r) []) as [E|E].
  - pose proof (RK_views r H) as F. rewrite Forall_forall in F. auto.
  - rewrite E. intros c m L. cbn in L. lia.
Qed.
Lemma hknows_heads r r' V : w_heads r' = w_heads r -> hknows r V -> hknows r' V.
Proof. intros E H c m. rewrite E. apply H. Qed.

(** thread [t] moves; nothing else changes but messages *)
Lemma RK_move r r' t p' v' : RK r -> w_heads r' = w_heads r -> w_sent r' = w_sent r ->
  w_threads r' = upd t p' (w_threads r) -> w_views r' = upd t v' (w_views r) -> length (w_views r) = length (w_threads r) ->
  peeking p' -> hknows r v' ->
  (forall c h, p' = PeekLoadTail c h -> exists m, nth_error (w_heads r) c = Some [m] /\ h = m_val m /\ (1 <= seen v' (Head c))%nat) -> RK r'.
Proof.
  intros [K1 K2 K3 K4 K5] E1 E2 E3 E4 L P HV HP. constructor.
  - intros u p H. rewrite E3, nth_error_upd in H. destruct (Nat.eqb t u); [|eauto]. destruct (Nat.ltb t _); [|discriminate]. injection H as <-. exact P.
  - rewrite E1. exact K2.
  - rewrite E4. eapply Forall_impl; [intros V; apply hknows_heads; exact E1|]. apply Forall_upd; assumption.
  - rewrite E2. eapply Forall_impl; [intros V; apply hknows_heads; exact E1|]. exact K4.
  - intros u c h H. rewrite E3, nth_error_upd in H. rewrite E1. unfold view_of. rewrite E4, view_upd, L.
    destruct (Nat.eqb t u); [|eauto]. destruct (Nat.ltb t _); [|discriminate]. injection H as ->. apply HP. reflexivity.
Qed.

Lemma hknows_cons r l k V : (forall c, l <> Head c) -> hknows r V -> hknows r ((l, k) :: V).
Proof.
  intros N H. eapply hknows_mono; [exact H|reflexivity| |].
  - intros c. rewrite seen_cons. destruct (loc_eqb l (Head c)) eqn:E; [|reflexivity]. apply loc_eqb_eq in E. elim (N c E).
  - rewrite seen_cons. destruct (loc_eqb l Pub); lia.
Qed.
Lemma hknows_head r c k V : (1 <= seen V (Head c))%nat -> hknows r V -> hknows r ((Head c, k) :: V).
Proof.
  intros L H c' m H1 H2. rewrite seen_cons in *. cbn [loc_eqb] in *. apply (H c' m); [|exact H2].
  destruct (Nat.eqb_spec c c') as [<-|]; [exact L|exact H1].
Qed.
Lemma hknows_app r V W : hknows r V -> hknows r W -> hknows r (V ++ W).
Proof.
  intros H1 H2 c m L E. rewrite seen_app in *.
  destruct (Nat.max_spec (seen V (Head c)) (seen W (Head c))) as [[_ Q]|[_ Q]]; rewrite Q in L; [specialize (H2 c m L E)|specialize (H1 c m L E)]; lia.
Qed.

(** a thread inside peek_all has a reference to the consumer *)
Definition PK (r : wstate) : Prop := forall t c, nth_error (w_threads r) t = Some (PeekLoadHead c) -> (1 <= seen (view_of r t) (Head c))%nat.

Lemma PK_step (r : wstate) a r' : length (w_views r) = length (w_threads r) -> PK r -> wstep bld r a = Some r' -> PK r'.
Proof.
  intros L H E. pose proof (step_views bld r a r' E L) as [V _].
  assert (OLD : forall t c, nth_error (w_threads r) t = Some (PeekLoadHead c) -> (1 <= seen (view_of r' t) (Head c))%nat).
  { intros t c Ht. specialize (H t c Ht). specialize (V t (Head c)). lia. }
  destruct a as [t op|t fails picks|t|t k]; cbn [wstep] in E.
  - destruct (nth_error (w_threads r) t) as [[]|] eqn:Ht; try discriminate. destruct (wop_ok r t op) eqn:Hok; [|discriminate]. injection E as <-.
    intros u c Hu. cbn [goto w_threads] in Hu. rewrite nth_error_upd in Hu. destruct (Nat.eqb_spec t u) as [<-|]; [|apply OLD; exact Hu].
    destruct (Nat.ltb t _); [|discriminate]. injection Hu as Hu. destruct op; try discriminate. injection Hu as ->. cbn [wop_ok] in Hok.
    apply Nat.leb_le in Hok. specialize (V t (Head c)). lia.
  - destruct (nth_error (w_threads r) t) as [p|] eqn:Ht; try discriminate.
    assert (exists p', w_threads r' = upd t p' (w_threads r) /\ forall c, p' <> PeekLoadHead c) as (p' & E2 & N).
    { destruct p as [|x|rt x|rt x|c|c h|c h|c h|c|c h| |q]; cbn [wthread_step] in E; try discriminate;
        split_step E; injection E as <-; eexists; (split; [reflexivity|intros; discriminate]). }
    intros u c Hu. rewrite E2, nth_error_upd in Hu. destruct (Nat.eqb_spec t u) as [<-|]; [|apply OLD; exact Hu].
    destruct (Nat.ltb t _); [|discriminate]. injection Hu as Hu. elim (N c Hu).
  - split_step E. injection E as <-. exact H.
  - split_step E. injection E as <-. intros u c Hu. cbn [goto w_threads] in Hu. rewrite nth_error_upd in Hu.
    destruct (Nat.eqb_spec t u) as [<-|]; [|apply OLD; exact Hu]. destruct (Nat.ltb t _); discriminate.
Qed.

Lemma RK_step sz (r : wstate) a r' : Wok sz r -> PK r -> RK r -> wstep bld r a = Some r' ->
  (forall t c, a <> WStart t (CDequeue c)) -> RK r'.
Proof.
  intros (HK & cs & HI & HR) HPK H E ND. pose proof (R_views sz r cs HR) as L.
  destruct a as [t op|t fails picks|t|t k]; cbn [wstep] in E.
  - destruct (nth_error (w_threads r) t) as [[]|] eqn:Ht; try discriminate. destruct (wop_ok r t op) eqn:Hok; [|discriminate]. injection E as <-.
    eapply (RK_move r); [exact H|reflexivity..|exact L| |apply hknows_view; exact H|].
    + destruct op as [x|c|c|]; try exact I. elim (ND t c eq_refl).
    + intros c h Q. destruct op; discriminate.
  - destruct (nth_error (w_threads r) t) as [p|] eqn:Ht; try discriminate. pose proof (RK_pcs r H t p Ht) as Hp.
    assert (HV : hknows r (view_of r t)) by (apply hknows_view; exact H).
    destruct p as [|x|rt x|rt x|c|c h|c h|c h|c|c h| |q]; cbn [wthread_step] in E; try discriminate; try contradiction Hp.
    + split_step E; injection E as <-. eapply (RK_move r); [exact H|reflexivity..|exact L|exact I| |discriminate]. apply hknows_cons; [discriminate|exact HV].
    + split_step E; injection E as <-. eapply (RK_move r); [exact H|reflexivity..|exact L|exact I| |discriminate]. apply hknows_cons; [discriminate|exact HV].
    + split_step E; injection E as <-; (eapply (RK_move r); [exact H|reflexivity..|exact L|exact I| |discriminate]); try exact HV; apply hknows_cons; try discriminate; exact HV.
    + (* PeekLoadHead *)
      pose proof (HPK t c Ht) as KH.
      split_step E; injection E as <-. destruct (RK_heads r H c _ Q) as (m0 & ->).
      match goal with Q : read_at _ _ ?i = Some ?x |- _ => assert (x = m0) as ->; [unfold read_at in Q; destruct (_ <=? _)%nat in Q; [|discriminate]; destruct i as [|[|]]; cbn in Q; congruence|] end.
      eapply (RK_move r); [exact H|reflexivity..|exact L|exact I|apply hknows_head; assumption|].
      intros c' h' [= <- <-]. exists m0. split; [exact Q|]. split; [reflexivity|]. rewrite seen_cons, loc_eqb_refl. lia.
    + split_step E; injection E as <-; (eapply (RK_move r); [exact H|reflexivity..|exact L|exact I| |discriminate]); apply hknows_cons; try discriminate; exact HV.
    + (* consumer *)
      split_step E; injection E as <-. match goal with Q : read_at _ _ _ = Some _ |- _ => destruct (read_val _ _ _ _ _ _ (R_pub sz r cs HR) Q) as (V1 & V2 & _) end.
      assert (OLD : forall V, knows (length (w_heads r)) V -> hknows r V -> forall c m0, (1 <= seen V (Head c))%nat ->
                nth_error (w_heads r ++ [[Msg (m_val m) []]]) c = Some [m0] -> m_val m0 + 1 <= Z.of_nat (seen V Pub)).
      { intros V KV HVV c m0 L1 E1. rewrite nth_error_app1 in E1 by (apply KV; exact L1). eapply HVV; eassumption. }
      constructor; cbn [wlog goto w_threads w_heads w_views w_sent].
      * intros u p' Hu. rewrite nth_error_upd in Hu. destruct (Nat.eqb t u); [|eapply RK_pcs; eassumption]. destruct (Nat.ltb t _); [|discriminate]. injection Hu as <-. exact I.
      * intros c hs Hc. destruct (Nat.lt_ge_cases c (length (w_heads r))).
        -- rewrite nth_error_app1 in Hc by assumption. eapply RK_heads; eassumption.
        -- rewrite nth_error_app2 in Hc by assumption. destruct (c - length (w_heads r))%nat as [|[|]]; try discriminate. injection Hc as <-. eauto.
      * apply Forall_upd.
        -- apply Forall_forall. intros V HIn c m0 L1 E1. cbn [wlog goto w_heads] in E1. eapply OLD; [| |exact L1|exact E1].
           ++ pose proof (K_views r HK) as F. rewrite Forall_forall in F. auto.
           ++ pose proof (RK_views r H) as F. rewrite Forall_forall in F. auto.
        -- intros c m0 L1 E1. cbn [wlog goto w_heads] in E1. rewrite !seen_cons in *. cbn [loc_eqb] in *.
           destruct (Nat.eqb_spec (length (w_heads r)) c) as [<-|].
           ++ rewrite nth_error_app2, Nat.sub_diag in E1 by lia. cbn in E1. injection E1 as <-. cbn [m_val]. lia.
           ++ specialize (OLD (view_of r t) (K_view r t HK) HV c m0 L1 E1). lia.
      * apply Forall_forall. intros V HIn c m0 L1 E1. cbn [wlog goto w_heads] in E1. eapply OLD; [| |exact L1|exact E1].
           ++ pose proof (K_sent r HK) as F. rewrite Forall_forall in F. auto.
           ++ pose proof (RK_sent r H) as F. rewrite Forall_forall in F. auto.
      * intros u c h Hu. rewrite nth_error_upd in Hu. unfold view_of. cbn [wlog goto w_views]. rewrite view_upd, L.
        destruct (Nat.eqb_spec t u) as [<-|]; [destruct (Nat.ltb t _); discriminate|].
        destruct (RK_peek r H u c h Hu) as (m0 & Em & Eh & Lh). exists m0. split; [|split; assumption].
        rewrite nth_error_app1; [exact Em|apply nth_error_Some; congruence].
  - split_step E. injection E as <-. destruct H as [K1 K2 K3 K4 K5]. constructor; cbn [w_threads w_heads w_views w_sent]; auto.
    apply Forall_app. split; [exact K4|]. constructor; [|constructor]. apply (hknows_view r t). constructor; assumption.
  - split_step E. injection E as <-. eapply (RK_move r); [exact H|reflexivity..|exact L|exact I| |discriminate].
    apply hknows_app; [|apply hknows_view; exact H]. pose proof (RK_sent r H) as F. rewrite Forall_forall in F. eapply F, nth_error_In; eassumption.
Qed.

Lemma slots_read (s : wstate) v js : forall i0 l, read_slots s v i0 js = Some l -> forall i o, nth_error l i = Some o ->
  exists j, read_slot s v (i0 + i) j = Some o.
Proof.
  induction js as [|j js IH]; intros i0 l H i o Hi; cbn [read_slots] in H.
  - destruct (Nat.eqb i0 _); [|discriminate]. injection H as <-. destruct i; discriminate.
  - destruct (read_slot s v i0 j) as [o1|] eqn:E1; [|discriminate]. destruct (read_slots s v (S i0) js) as [l1|] eqn:E2; [|discriminate]. injection H as <-.
    destruct i as [|i]; cbn [nth_error] in Hi.
    + injection Hi as <-. rewrite Nat.add_0_r. eauto.
    + destruct (IH (S i0) l1 E2 i o Hi) as (j' & Hj'). exists j'. replace (i0 + S i)%nat with (S i0 + i)%nat by lia. exact Hj'.
Qed.

(** the last step of peek_all: it answers; an uninitialised element only together with a data race *)
Lemma peek_step sz (r : wstate) t c h f picks r' : (1 <= sz)%nat -> Z.of_nat sz < two32 -> (length (w_threads r) <= sz)%nat ->
  Wok sz r -> SInv sz r -> RK r ->
  nth_error (w_threads r) t = Some (PeekLoadTail c h) -> wstep bld r (WStep t f picks) = Some r' ->
  exists e tl, w_events r' = w_events r ++ [e] /\ nth_error (w_threads r') t = Some Idle /\
    h <= tl /\ (exists k m, read_at (w_pub r) (seen (view_of r t) Pub) k = Some m /\ tl = m_val m) /\
    ((e = EvPeekOverflow c h tl /\ Z.of_nat sz < tl - h) \/
     exists rs l, e = EvPeeked c h tl rs l /\ tl - h <= Z.of_nat sz /\ length l = Z.to_nat (tl - h) /\
       (forall i o, nth_error l i = Some o -> exists j, read_slot r (view_of r t) ((Z.to_nat h + i) mod sz) j = Some o) /\
       (In None l -> w_races r' <> [])).
Proof.
  intros HS HSB HN (HK & cs & HI & HR) SI H Ht E. cbn [wstep] in E. rewrite Ht in E. cbn [wthread_step] in E.
  destruct (RK_peek r H t c h Ht) as (m0 & Em0 & Eh & Lh). pose proof (hknows_view r t H c m0 Lh Em0) as KP.
  assert (LT : (t < length (w_threads r))%nat) by (apply nth_error_Some; congruence).
  destruct picks as [|k js]; [discriminate|].
  destruct (read_at (w_pub r) (seen (view_of r t) Pub) k) as [m|] eqn:Er; [|discriminate].
  destruct (read_slots r (view_of r t) 0 js) as [contents|] eqn:Es; [|discriminate].
  destruct (newest (w_res r)) as [rs|]; [|discriminate].
  destruct (read_val _ _ _ _ _ _ (R_pub sz r cs HR) Er) as (V1 & V2 & V3).
  pose proof (I_pub sz cs HI) as HP. pose proof (I_res sz cs HI) as HRs. pose proof (I_bound sz cs HI) as HBd.
  assert (PT : 0 <= h /\ h <= m_val m /\ m_val m <= published cs).
  { pose proof (R_thread sz r cs t _ HR Ht eq_refl) as Ht'. pose proof (I_pcs sz cs HI t _ Ht') as (st & cur & Hc & Hh).
    destruct (I_cpos sz cs c st cur HI Hc) as (B1 & _). lia. }
  destruct PT as (P0 & P1 & P2).
  destruct (read_slots_len _ _ _ _ _ Es) as [L1 L2]. rewrite (R_slots sz r cs HR) in L2. cbn [Nat.add] in L2.
  destruct (peek_all_spec bld (Ring (m_val rs) (m_val m) contents []) (Z.to_nat h) (Z.to_nat (m_val m - h))) as (s1 & s2 & E1 & E2);
    cbn [slots published_tail]; try lia.
  cbn [slots] in E1, E2. rewrite Z2Nat.id in E1 by lia. unfold peek_event in E. rewrite E1 in E. cbn [bind] in E. rewrite L1, L2 in *.
  destruct (Nat.ltb_spec sz (Z.to_nat (m_val m - h))) as [Q|Q]; cbn [published_tail reserved_tail] in E; injection E as <-.
  - exists (EvPeekOverflow c h (m_val m)), (m_val m). cbn [race wlog goto w_events w_threads]. rewrite nth_error_upd_eq by exact LT.
    repeat split; auto. { exists k, m. auto. } left. split; [reflexivity|lia].
  - exists (EvPeeked c h (m_val m) (m_val rs) (s1 ++ s2)), (m_val m). cbn [race wlog goto w_events w_threads]. rewrite nth_error_upd_eq by exact LT.
    repeat split; auto. { exists k, m. auto. } right. exists (m_val rs), (s1 ++ s2). split; [reflexivity|]. split; [lia|].
    specialize (E2 Q).
    assert (ELT : forall i o, nth_error (s1 ++ s2) i = Some o -> (i < Z.to_nat (m_val m - h))%nat /\ exists j, read_slot r (view_of r t) ((Z.to_nat h + i) mod sz) j = Some o).
    { intros i o Hi. rewrite E2 in Hi. rewrite nth_error_map in Hi.
      destruct (nth_error (seq (Z.to_nat h) (Z.to_nat (m_val m - h))) i) as [q|] eqn:Eq; [|discriminate]. cbn [option_map] in Hi. injection Hi as <-.
      assert (Li : (i < Z.to_nat (m_val m - h))%nat) by (rewrite <- (seq_length (Z.to_nat (m_val m - h)) (Z.to_nat h)); apply nth_error_Some; congruence).
      split; [exact Li|]. assert (q = Z.to_nat h + i)%nat as ->. { rewrite (nth_error_nth' _ 0%nat) in Eq by (rewrite seq_length; exact Li). rewrite seq_nth in Eq by exact Li. congruence. }
      assert (B : ((Z.to_nat h + i) mod sz < sz)%nat) by (apply Nat.mod_upper_bound; lia).
      destruct (nth_error contents ((Z.to_nat h + i) mod sz)) as [o|] eqn:Eo; [|apply nth_error_None in Eo; lia].
      apply (slots_read _ _ _ _ _ Es _ _ Eo). }
    split. { rewrite E2, map_length, seq_length. reflexivity. }
    split. { intros i o Hi. apply ELT. exact Hi. }
    intros HIn. apply In_nth_error in HIn. destruct HIn as (i & Hi). destruct (ELT i None Hi) as (Li & j & Hj).
    set (sl := ((Z.to_nat h + i) mod sz)%nat) in *.
    assert (SN : seen (view_of r t) (Slot sl) = 0%nat).
    { unfold read_slot in Hj. destruct (nth_error (w_slots r) sl); [|discriminate]. destruct (Nat.leb_spec (seen (view_of r t) (Slot sl)) j); [|discriminate].
      destruct j as [|j]; [lia|]. destruct (nth_error l j); discriminate. }
    assert (WR : (0 < length (wslot r sl))%nat).
    { assert (LP : (Z.to_nat h + i < length (w_hist r))%nat). { unfold nhist in HRs. rewrite (R_hist sz r cs HR) in HRs. lia. }
      pose proof (S_c sz r SI (Z.to_nat h + i)%nat LP) as SC.
      assert (forall t0 x, nth_error (w_threads r) t0 <> Some (EnqWrite (Z.of_nat (Z.to_nat h + i)) x)) as NE.
      { intros t0 x Q0. pose proof (R_thread sz r cs t0 _ HR Q0 eq_refl) as Q1.
        assert (IN : In (Z.of_nat (Z.to_nat h + i)) (inflights cs)) by (eapply in_inflights; [exact Q1|left; reflexivity]).
        pose proof (inflight_range sz cs _ HI IN). lia. }
      specialize (SC NE). exact (Nat.le_lt_trans _ _ _ (Nat.le_0_l _) SC). }
    cbn [race wlog goto w_races]. intros Q0. apply app_eq_nil in Q0. destruct Q0 as [_ Q0]. apply map_eq_nil in Q0.
    assert (IN : In sl (unknown r (view_of r t) (map (slot_of r) (zseq h (Z.to_nat (m_val m - h)))))).
    { unfold unknown. apply filter_In. split.
      - apply in_map_iff. exists (Z.of_nat (Z.to_nat h + i)). split.
        + apply (slot_of_nat sz). apply (R_slots sz r cs HR).
        + eapply nth_error_In with (n := i). rewrite zseq_nth, (proj2 (Nat.ltb_lt _ _)) by exact Li. f_equal. lia.
      - apply Nat.ltb_lt. rewrite SN. exact WR. }
    rewrite Q0 in IN. destruct IN.
Qed.
End Peek.
