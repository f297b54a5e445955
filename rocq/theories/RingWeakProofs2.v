(** * Every step under relaxed memory keeps the counters' invariant. *)
From Coq Require Import List ZArith Lia Bool Arith Permutation.
From Coq Require Import ZifyBool ZifyNat ZifyN.
From Verif Require Import Machine Ring RingSpec RingSeq RingConc RingConc2 RingConc3 RingWeak RingWeakSpec RingWeakProofs.
Import ListNotations.
Open Scope Z_scope.

Section Weak2.
Context {A : Type}.
Variable bld : build.
Notation wstate := (wstate A).
Notation cstate := (cstate A).
Notation pc := (pc A).

(** a new consumer that starts at any published position *)
Lemma Inv_consumer sz (s : cstate) t h : Inv sz s -> nth_error (c_threads s) t = Some ConsLoad -> 0 <= h <= published s ->
  length (c_starts s) = length (c_heads s) ->
  Inv sz (CState (c_ring s) (c_heads s ++ [h]) (upd t Idle (c_threads s)) (c_hist s) (c_starts s ++ [h]) (c_claims s)
                 (c_events s ++ [EvConsumer (length (c_heads s)) h])).
Proof.
  intros HI Ht Hh LEN. destruct HI as [H1 H2 H3 H4 H5 H6 H7 H8 H9].
  constructor; unfold reserved, published, nhist, inflights, returned, claimed in *;
    cbn [c_ring c_heads c_threads c_hist c_starts c_claims c_events]; auto.
  - rewrite (flat_map_upd_same inflight t ConsLoad); auto.
  - intros c. specialize (H6 c). rewrite !RingSeq.nth_error_app, LEN.
    destruct (Nat.ltb_spec c (length (c_heads s))) as [L|L]; [exact H6|].
    rewrite (proj2 (nth_error_None (c_starts s) _)) in H6 by lia.
    rewrite (proj2 (nth_error_None (c_heads s) _)) in H6 by lia.
    destruct (c - length (c_heads s))%nat as [|k]; cbn [nth_error].
    + rewrite Z.sub_diag. cbn [Z.to_nat zseq]. repeat split; auto; lia.
    + destruct k; exact H6.
  - eapply (pcs_upd s); [exact Ht| |exact H7|exact I].
    split; [unfold published; cbn; lia|]. split; [exists []; cbn; rewrite app_nil_r; reflexivity|].
    intros c st cur [M1 M2]. exists cur. unfold cpos. cbn [c_starts c_heads].
    assert (c < length (c_starts s))%nat by (apply nth_error_Some; congruence).
    split; [split; rewrite nth_error_app1; auto; lia|lia].
  - intros c. rewrite flat_map_app. cbn [flat_map ret1 app]. rewrite app_nil_r.
    rewrite (flat_map_upd_same (checking c) t ConsLoad); auto.
  - rewrite flat_map_app. cbn [flat_map enq1 app]. rewrite app_nil_r. exact H9.
Qed.

Lemma Inv_lens sz (s : cstate) : Inv sz s -> length (c_starts s) = length (c_heads s).
Proof.
  intros HI. pose proof (I_heads sz s HI) as H6.
  pose proof (H6 (length (c_starts s))) as K. pose proof (H6 (length (c_heads s))) as K'.
  rewrite (proj2 (nth_error_None (c_starts s) _)) in K by lia.
  rewrite (proj2 (nth_error_None (c_heads s) _)) in K' by lia.
  destruct (nth_error (c_heads s) (length (c_starts s))) eqn:Q; [contradiction|].
  destruct (nth_error (c_starts s) (length (c_heads s))) eqn:Q'; [contradiction|].
  apply nth_error_None in Q, Q'. lia.
Qed.

Lemma R_head sz s (cs : cstate) c hs : Rel sz s cs -> nth_error (w_heads s) c = Some hs ->
  exists st cur, cpos cs c st cur /\ map m_val hs = zseq st (S (Z.to_nat (cur - st))).
Proof.
  intros HR H. pose proof (R_heads sz s cs HR c) as P. rewrite H in P. unfold cpos.
  destruct (nth_error (c_starts cs) c) as [st|], (nth_error (c_heads cs) c) as [cur|]; try contradiction.
  exists st, cur. auto.
Qed.

Lemma R_head_inv sz s (cs : cstate) c st cur : Rel sz s cs -> cpos cs c st cur ->
  exists hs, nth_error (w_heads s) c = Some hs /\ map m_val hs = zseq st (S (Z.to_nat (cur - st))).
Proof.
  intros HR [H1 H2]. pose proof (R_heads sz s cs HR c) as P. rewrite H1, H2 in P.
  destruct (nth_error (w_heads s) c) as [hs|]; [|contradiction]. exists hs. auto.
Qed.

Lemma R_heads_len sz s (cs : cstate) : Rel sz s cs -> length (w_heads s) = length (c_heads cs).
Proof.
  intros HR. pose proof (R_heads sz s cs HR) as H.
  pose proof (H (length (w_heads s))) as K. pose proof (H (length (c_heads cs))) as K'.
  rewrite (proj2 (nth_error_None (w_heads s) _)) in K by lia.
  rewrite (proj2 (nth_error_None (c_heads cs) _)) in K' by lia.
  destruct (nth_error (c_heads cs) (length (w_heads s))) eqn:Q;
    [destruct (nth_error (c_starts cs) (length (w_heads s))); contradiction|].
  destruct (nth_error (w_heads s) (length (c_heads cs))) eqn:Q';
    [destruct (nth_error (c_starts cs) (length (c_heads cs))); contradiction|].
  apply nth_error_None in Q, Q'. lia.
Qed.

(** peek_all on any contents: an answer, or (debug) the subtraction underflows *)
Lemma peek_event_any (r : ring A) c h : (1 <= length (slots r))%nat ->
  match peek_event bld r c h with
  | Val e => (forall c', ret1 c' e = []) /\ enq1 e = [] /\ cons1 e = []
  | Panic q => q = POverflow /\ bld = Debug
  | Spin => False
  end.
Proof.
  intros HL. unfold peek_event, peek_all, size.
  assert (HM : forall p, (slot_index r p < length (slots r))%nat).
  { intros p. unfold slot_index, size. pose proof (Z.mod_pos_bound p (Z.of_nat (length (slots r))) ltac:(lia)). lia. }
  pose proof (HM h) as M1. pose proof (HM (published_tail r)) as M2.
  destruct (_ =? _); [cbn; auto|].
  unfold u32_sub, checked. destruct (_ && _); cbn [bind].
  - destruct (_ >? _); [cbn; auto|]. unfold slice.
    destruct (Nat.ltb_spec (slot_index r h) (slot_index r (published_tail r))).
    + rewrite (proj2 (Nat.leb_le _ _)) by lia. rewrite (proj2 (Nat.leb_le _ _)) by lia. cbn; auto.
    + rewrite !(proj2 (Nat.leb_le _ _)) by lia. cbn; auto.
  - destruct bld; cbn [bind]; [auto|]. destruct (_ >? _); [cbn; auto|]. unfold slice.
    destruct (Nat.ltb_spec (slot_index r h) (slot_index r (published_tail r))).
    + rewrite (proj2 (Nat.leb_le _ _)) by lia. rewrite (proj2 (Nat.leb_le _ _)) by lia. cbn; auto.
    + rewrite !(proj2 (Nat.leb_le _ _)) by lia. cbn; auto.
Qed.

Lemma read_slots_len (s : wstate) v js : forall i l, read_slots s v i js = Some l -> length l = length js /\ (i + length js = length (w_slots s))%nat.
Proof.
  induction js as [|j js IH]; intros i l E; cbn [read_slots] in E.
  - destruct (Nat.eqb_spec i (length (w_slots s))); [|discriminate]. injection E as <-. cbn. lia.
  - destruct (read_slot s v i j); [|discriminate]. destruct (read_slots s v (S i) js) as [l'|] eqn:Q; [|discriminate].
    injection E as <-. destruct (IH _ _ Q). cbn [length]. lia.
Qed.

Lemma checked_panic m z q : checked bld m z = Panic q -> q = POverflow.
Proof. unfold checked. destruct (_ && _); [discriminate|]. destruct bld; [|discriminate]. congruence. Qed.

Lemma W_step sz s (cs : cstate) a s' : (1 <= sz)%nat -> Z.of_nat sz < two32 -> Inv sz cs -> Rel sz s cs -> Known s ->
  wstep bld s a = Some s' -> Z.of_nat (length (w_hist s')) < two32 ->
  exists cs', Inv sz cs' /\ Rel sz s' cs'.
Proof.
  intros HS HSB HI HR HK E HB'.
  pose proof (I_len sz cs HI) as HL. pose proof (I_bound sz cs HI) as HB. pose proof (I_pub sz cs HI) as HP.
  pose proof (I_res sz cs HI) as HRs. unfold nhist in HRs, HB. rewrite (R_hist sz s cs HR) in HRs, HB.
  destruct a as [t op|t fails picks|t|t k]; cbn [wstep] in E.
  - (* WStart *)
    destruct (nth_error (w_threads s) t) as [[]|] eqn:Ht; try discriminate.
    destruct (wop_ok s t op) eqn:Hok; try discriminate. injection E as <-.
    pose proof (R_thread sz s cs t Idle HR Ht eq_refl) as Ht'.
    exists (CState (c_ring cs) (c_heads cs) (upd t (first_pc op) (c_threads cs)) (c_hist cs) (c_starts cs) (c_claims cs)
                    (c_events cs ++ [])). split.
    + rewrite app_nil_r. apply (Inv_step bld sz cs (Start t op)); auto.
      * cbn [cstep]. rewrite Ht'.
        assert (C : cop_ok cs op = true).
        { destruct op as [x|c|c|]; cbn [cop_ok wop_ok] in *; auto; apply Nat.leb_le in Hok;
            apply (K_view s t HK) in Hok; rewrite (R_heads_len sz s cs HR) in Hok; apply Nat.ltb_lt; exact Hok. }
        rewrite C. reflexivity.
      * unfold nhist. cbn [c_hist]. rewrite (R_hist sz s cs HR). exact HB.
    + eapply Rel_move; [exact HR|exact Ht|..]; try reflexivity.
      * destruct op; reflexivity.
      * cbn [goto w_views]. apply upd_length.
      * cbn [goto w_events]. rewrite app_nil_r. reflexivity.
  - destruct (nth_error (w_threads s) t) as [p|] eqn:Ht; try discriminate.
    destruct (panicked p) eqn:Np; [destruct p; try discriminate|].
    pose proof (R_thread sz s cs t p HR Ht Np) as Ht'.
    pose proof (I_pcs sz cs HI t p Ht') as Hp.
    (* quiet moves *)
    assert (QM : forall p' v, inflight p = inflight p' -> pc_ok cs p' -> (forall c, checking c p' = checking c p) ->
                 exists cs', Inv sz cs' /\ Rel sz (goto s t p' v) cs').
    { intros p' v Q1 Q2 Q3.
      exists (CState (c_ring cs) (c_heads cs) (upd t p' (c_threads cs)) (c_hist cs) (c_starts cs) (c_claims cs)
                    (c_events cs ++ [])). split.
      - eapply Inv_quiet; eauto.
      - eapply Rel_move; [exact HR|exact Ht|..]; try reflexivity; auto.
        + destruct p'; try reflexivity. cbn in Q2. contradiction.
        + cbn [goto w_views]. apply upd_length.
        + cbn [goto w_events]. rewrite app_nil_r. reflexivity. }
    assert (QL : forall e v is_ s1, s1 = race (wlog (goto s t Idle v) e) t is_ \/ s1 = wlog (goto s t Idle v) e ->
                 inflight p = [] -> (forall c, ret1 c e = checking c p) -> enq1 e = [] -> cons1 e = [] ->
                 exists cs', Inv sz cs' /\ Rel sz s1 cs').
    { intros e v is_ s1 Es Q1 Q2 Q3 Q4.
      exists (CState (c_ring cs) (c_heads cs) (upd t Idle (c_threads cs)) (c_hist cs) (c_starts cs) (c_claims cs)
                    (c_events cs ++ [e])). split.
      - eapply (Inv_log sz cs t p e); eauto.
      - eapply Rel_move; [exact HR|exact Ht|..]; try (destruct Es; subst s1; reflexivity); try reflexivity; auto.
        + destruct Es; subst s1; cbn [race wlog goto w_views]; apply upd_length.
        + cbn [flat_map]. rewrite Q4. reflexivity. }
    destruct p as [|x|rt x|rt x|c|c h|c h|c h|c|c h| |q]; cbn [wthread_step] in E; try discriminate; cbn [pc_ok] in Hp.
    + (* EnqReserve *)
      destruct (newest_ex _ _ _ (R_res sz s cs HR)) as (m & Em & Vm). rewrite Em in E. injection E as <-.
      cbn [goto w_hist] in HB'. rewrite app_length in HB'. cbn [length] in HB'.
      assert (EC : cstep bld cs (Step t false) =
        Some (set_pc (push_hist (set_ring cs (Ring (wrap32 (reserved cs + 1)) (published cs)
                                               (slots (c_ring cs)) (overwritten (c_ring cs)))) x)
                   t (EnqWrite (reserved cs) x))).
      { cbn [cstep]. rewrite Ht'. reflexivity. }
      eexists. split.
      { eapply (Inv_step bld sz cs (Step t false)); [exact HS|exact HSB|exact HI|exact EC|].
        unfold nhist. cbn [set_pc push_hist set_ring c_hist]. rewrite app_length, (R_hist sz s cs HR). cbn [length]. lia. }
      assert (RW : m_val m = reserved cs) by lia.
      assert (WW : wrap32 (m_val m + 1) = m_val m + 1).
      { unfold wrap32. rewrite Z.mod_small; [reflexivity|]. rewrite two32_val in *. lia. }
      rewrite RW in *. clear EC QM QL. destruct HR as [H1 H2 H3 H4 H5 H6 H7 H8 H9 H10].
      constructor; unfold published, wlost in *; cbn [goto set_pc push_hist set_ring w_res w_pub w_heads w_slots w_threads w_views w_hist w_lost w_events
         c_ring c_heads c_threads c_hist c_starts c_claims c_events published_tail]; auto.
      * rewrite WW, app_length. cbn [length]. rewrite Nat.add_1_r. apply vals_snoc; [exact H1|lia].
      * rewrite H4. reflexivity.
      * apply Forall2_upd; [exact H7|reflexivity].
      * intros c. eapply perm_upd2; eauto.
      * rewrite !upd_length. exact H9.
    + (* EnqWrite *)
      injection E as <-.
      assert (EC : cstep bld cs (Step t false) = Some (set_pc (set_ring cs (store (c_ring cs) rt x)) t (EnqPublish rt x))).
      { cbn [cstep]. rewrite Ht'. reflexivity. }
      eexists. split.
      { eapply (Inv_step bld sz cs (Step t false)); [exact HS|exact HSB|exact HI|exact EC|].
        unfold nhist. cbn [set_pc set_ring c_hist]. rewrite (R_hist sz s cs HR). lia. }
      clear EC QM QL. destruct HR as [H1 H2 H3 H4 H5 H6 H7 H8 H9 H10].
      constructor; unfold published, wlost in *; cbn [race goto set_pc set_ring store w_res w_pub w_heads w_slots w_threads w_views w_hist w_lost w_events
         c_ring c_heads c_threads c_hist c_starts c_claims c_events published_tail]; auto.
      * rewrite upd_length. exact H6.
      * apply Forall2_upd; [exact H7|reflexivity].
      * intros c. eapply perm_upd2; eauto.
      * rewrite !upd_length. exact H9.
    + (* EnqPublish *)
      assert (IN : In rt (inflights cs)) by (eapply in_inflights; [exact Ht'|left; reflexivity]).
      pose proof (inflight_range sz cs rt HI IN) as RR.
      assert (AD : u32_add bld rt 1 = Val (rt + 1)) by (apply checked_in; rewrite two32_val in *; lia).
      rewrite AD in E.
      destruct (newest_ex _ _ _ (R_pub sz s cs HR)) as (m & Em & Vm). rewrite Em in E. rewrite Z2Nat.id in Vm by lia.
      destruct (negb fails && (m_val m =? rt)) eqn:C.
      * apply andb_true_iff in C. destruct C as [_ C]. apply Z.eqb_eq in C. injection E as <-.
        assert (EC : cstep bld cs (Step t false) =
          Some (log (set_pc (set_ring cs (Ring (reserved cs) (rt + 1) (slots (c_ring cs)) (overwritten (c_ring cs)))) t Idle)
                      (EvEnqueued rt x))).
        { cbn [cstep]. rewrite Ht'. cbn [thread_step]. rewrite AD. cbn [negb andb].
          replace (published_tail (c_ring cs) =? rt) with true; [reflexivity|].
          symmetry. apply Z.eqb_eq. unfold published in *. lia. }
        eexists. split.
        { eapply (Inv_step bld sz cs (Step t false)); [exact HS|exact HSB|exact HI|exact EC|].
          unfold nhist. cbn [log set_pc set_ring c_hist]. rewrite (R_hist sz s cs HR). lia. }
        clear EC QM QL. destruct HR as [H1 H2 H3 H4 H5 H6 H7 H8 H9 H10].
        constructor; unfold published, wlost in *; cbn [wlog goto log set_pc set_ring w_res w_pub w_heads w_slots w_threads w_views w_hist w_lost w_events
           c_ring c_heads c_threads c_hist c_starts c_claims c_events published_tail]; auto.
        -- replace (Z.to_nat (rt + 1)) with (S (Z.to_nat (published_tail (c_ring cs)))) by lia.
           apply vals_snoc; [exact H2|lia].
        -- rewrite H5. reflexivity.
        -- apply Forall2_upd; [exact H7|reflexivity].
        -- intros c. eapply perm_upd2; eauto.
        -- rewrite !upd_length. exact H9.
        -- rewrite flat_map_app. cbn [flat_map cons1 app]. rewrite app_nil_r. exact H10.
      * destruct picks as [|k [|]]; try discriminate.
        destruct (read_at (w_pub s) (seen (view_of s t) Pub) k) as [m'|] eqn:Q; try discriminate.
        destruct (read_val _ _ _ _ _ _ (R_pub sz s cs HR) Q) as (V1 & V2 & _).
        destruct (Z.gtb_spec (m_val m') rt); [lia|]. injection E as <-.
        apply QM; auto.
    + (* DeqLoadHead *)
      destruct (nth_error (w_heads s) c) as [hs|] eqn:Qh; try discriminate.
      destruct picks as [|k [|]]; try discriminate.
      destruct (read_at hs (seen (view_of s t) (Head c)) k) as [m|] eqn:Q; try discriminate. injection E as <-.
      destruct (R_head sz s cs c hs HR Qh) as (st & cur & Hc & Hv). destruct (I_cpos sz cs c st cur HI Hc) as (K1 & K2 & _).
      destruct (read_val _ _ _ _ _ _ Hv Q) as (V1 & V2 & _).
      apply QM; auto. cbn [pc_ok]. exists st, cur. split; [exact Hc|lia].
    + (* DeqLoadTail *)
      destruct Hp as (st & cur & Hc & Hh).
      destruct picks as [|k [|]]; try discriminate.
      destruct (read_at (w_pub s) (seen (view_of s t) Pub) k) as [m|] eqn:Q; try discriminate.
      destruct (read_val _ _ _ _ _ _ (R_pub sz s cs HR) Q) as (V1 & V2 & _).
      destruct (h >? m_val m) eqn:G.
      { injection E as <-. apply QM; auto. cbn [pc_ok]. eauto. }
      destruct (Z.eqb_spec h (m_val m)) as [G'|G'].
      { injection E as <-. eapply (QL _ _ []); [right; reflexivity|reflexivity..]. }
      injection E as <-. apply QM; auto. cbn [pc_ok]. exists st, cur.
      split; [exact Hc|]. split; [exact Hh|]. lia.
    + (* DeqCas *)
      destruct Hp as (st & cur & Hc & Hh & Hpub).
      destruct (R_head_inv sz s cs c st cur HR Hc) as (hs & Qh & Hv). rewrite Qh in E.
      destruct (I_cpos sz cs c st cur HI Hc) as (K1 & K2 & K3).
      assert (AD : u32_add bld h 1 = Val (h + 1)) by (apply checked_in; rewrite two32_val in *; lia).
      rewrite AD in E. destruct (newest_ex _ _ _ Hv) as (m & Em & Vm). rewrite Em in E.
      destruct (negb fails && (m_val m =? h)) eqn:C.
      * apply andb_true_iff in C. destruct C as [_ C]. apply Z.eqb_eq in C. injection E as <-.
        assert (CH : cur = h) by lia. subst cur.
        assert (EC : cstep bld cs (Step t false) = Some (set_pc (claim cs c h (h + 1)) t (DeqCheck c h))).
        { cbn [cstep]. rewrite Ht'. cbn [thread_step]. destruct Hc as [Hc1 Hc2]. rewrite Hc2, AD, Z.eqb_refl. reflexivity. }
        eexists. split.
        { eapply (Inv_step bld sz cs (Step t false)); [exact HS|exact HSB|exact HI|exact EC|].
          unfold nhist. cbn [claim set_pc c_hist]. rewrite (R_hist sz s cs HR). lia. }
        clear EC QM QL. destruct HR as [H1 H2 H3 H4 H5 H6 H7 H8 H9 H10].
        constructor; unfold published, wlost in *; cbn [goto claim set_pc w_res w_pub w_heads w_slots w_threads w_views w_hist w_lost w_events
           c_ring c_heads c_threads c_hist c_starts c_claims c_events]; auto.
        -- intros c'. specialize (H3 c'). destruct Hc as [Hc1 Hc2]. destruct (Nat.eq_dec c c') as [<-|N].
           ++ rewrite (nth_error_upd_same _ _ hs) by exact Qh. rewrite (nth_error_upd_same _ _ h) by exact Hc2.
              rewrite Hc1. replace (Z.to_nat (h + 1 - st)) with (S (Z.to_nat (h - st))) by lia.
              apply vals_snoc; [exact Hv|lia].
           ++ rewrite !nth_error_upd_neq by exact N. exact H3.
        -- apply Forall2_upd; [exact H7|reflexivity].
        -- intros c'. eapply perm_upd2; eauto.
        -- rewrite !upd_length. exact H9.
      * destruct picks as [|k [|]]; try discriminate.
        destruct (read_at hs (seen (view_of s t) (Head c)) k) as [m'|] eqn:Q; try discriminate. injection E as <-.
        destruct (read_val _ _ _ _ _ _ Hv Q) as (V1 & V2 & _).
        apply QM; auto. cbn [pc_ok]. exists st, cur. split; [exact Hc|lia].
    + (* DeqCheck *)
      destruct picks as [|k [|j [|]]]; try discriminate.
      destruct (read_at (w_res s) (seen (view_of s t) Res) k) as [m|] eqn:Q; try discriminate.
      destruct (u32_sub bld (m_val m) h) as [d|q|] eqn:D; try discriminate.
      * destruct (d >? wrap32 (wsize s)).
        { injection E as <-. eapply (QL _ _ []); [right; reflexivity|reflexivity..]. }
        destruct (read_slot s (view_of s t) (slot_of s h) j) as [o|]; try discriminate. injection E as <-.
        eapply QL; [left; reflexivity|reflexivity..].
      * injection E as <-. apply checked_panic in D. subst q. exists cs. split; [exact HI|].
        clear QM QL. destruct HR as [H1 H2 H3 H4 H5 H6 H7 H8 H9 H10].
        constructor; unfold published, wlost in *; cbn [lose goto w_res w_pub w_heads w_slots w_threads w_views w_hist w_lost w_events]; auto.
        -- rewrite <- (upd_self t (DeqCheck c h) (c_threads cs)) by exact Ht'.
           apply Forall2_upd; [exact H7|]. cbn [tm]. split; [reflexivity|]. right. eauto.
        -- intros c'. rewrite H8. pose proof (flat_map_upd (checking c') t (DeqCheck c h) (Panicked POverflow) (w_threads s) Ht) as P.
           cbn [checking] in P. rewrite app_nil_r in P. rewrite <- P, flat_map_app, <- app_assoc. apply Permutation_app_head.
           cbn [flat_map fst snd]. rewrite app_nil_r. apply Permutation_app_comm.
        -- rewrite !upd_length. exact H9.
    + (* PeekLoadHead *)
      destruct (nth_error (w_heads s) c) as [hs|] eqn:Qh; try discriminate.
      destruct picks as [|k [|]]; try discriminate.
      destruct (read_at hs (seen (view_of s t) (Head c)) k) as [m|] eqn:Q; try discriminate. injection E as <-.
      destruct (R_head sz s cs c hs HR Qh) as (st & cur & Hc & Hv). destruct (I_cpos sz cs c st cur HI Hc) as (K1 & K2 & _).
      destruct (read_val _ _ _ _ _ _ Hv Q) as (V1 & V2 & _).
      apply QM; auto. cbn [pc_ok]. exists st, cur. split; [exact Hc|lia].
    + (* PeekLoadTail *)
      destruct picks as [|k js]; try discriminate.
      destruct (read_at (w_pub s) (seen (view_of s t) Pub) k) as [m|] eqn:Q; try discriminate.
      destruct (read_slots s (view_of s t) 0 js) as [contents|] eqn:Qs; try discriminate.
      destruct (newest (w_res s)) as [r|]; try discriminate.
      destruct (read_slots_len _ _ _ _ _ Qs) as [L1 L2].
      pose proof (peek_event_any (Ring (m_val r) (m_val m) contents []) c h) as PE. cbn [slots] in PE.
      rewrite (R_slots sz s cs HR) in L2. specialize (PE ltac:(lia)).
      destruct (peek_event bld (Ring (m_val r) (m_val m) contents []) c h) as [e|q|]; try discriminate.
      * destruct PE as (P1 & P2 & P3). injection E as <-. eapply QL; [left; reflexivity|reflexivity|exact P1|exact P2|exact P3].
      * destruct PE as [-> _]. injection E as <-.
        exists (CState (c_ring cs) (c_heads cs) (upd t Idle (c_threads cs)) (c_hist cs) (c_starts cs) (c_claims cs)
                    (c_events cs ++ [])). split; [eapply Inv_quiet; eauto; cbn [pc_ok]; auto|].
        clear QM QL. rewrite app_nil_r. destruct HR as [H1 H2 H3 H4 H5 H6 H7 H8 H9 H10].
        constructor; unfold published, wlost in *; cbn [goto w_res w_pub w_heads w_slots w_threads w_views w_hist w_lost w_events
           c_ring c_heads c_threads c_hist c_starts c_claims c_events]; auto.
        -- apply Forall2_upd; [exact H7|]. cbn [tm]. auto.
        -- intros c'. rewrite (flat_map_upd_same (checking c') t _ Idle _ Ht') by reflexivity.
           rewrite (flat_map_upd_same (checking c') t _ (Panicked POverflow) _ Ht) by reflexivity. apply H8.
        -- rewrite !upd_length. exact H9.
    + (* ConsLoad *)
      destruct picks as [|k [|]]; try discriminate.
      destruct (read_at (w_pub s) (seen (view_of s t) Pub) k) as [m|] eqn:Q; try discriminate.
      destruct (read_val _ _ _ _ _ _ (R_pub sz s cs HR) Q) as (V1 & V2 & _). injection E as <-.
      pose proof (Inv_lens sz cs HI) as LEN. pose proof (R_heads_len sz s cs HR) as LH.
      eexists. split; [apply (Inv_consumer sz cs t (m_val m) HI Ht'); [lia|exact LEN]|].
      clear QM QL. destruct HR as [H1 H2 H3 H4 H5 H6 H7 H8 H9 H10].
      constructor; unfold published, wlost in *; cbn [wlog goto w_res w_pub w_heads w_slots w_threads w_views w_hist w_lost w_events
           c_ring c_heads c_threads c_hist c_starts c_claims c_events]; auto.
      * intros c. specialize (H3 c). rewrite !RingSeq.nth_error_app, LEN, LH.
        destruct (Nat.ltb_spec c (length (c_heads cs))) as [L|L]; [exact H3|].
        destruct (c - length (c_heads cs))%nat as [|i]; cbn [nth_error].
        -- rewrite Z.sub_diag. reflexivity.
        -- destruct i; exact I.
      * rewrite H5, LH. reflexivity.
      * apply Forall2_upd; [exact H7|reflexivity].
      * intros c. eapply perm_upd2; eauto.
      * rewrite !upd_length. exact H9.
      * rewrite flat_map_app. cbn [flat_map cons1 app]. rewrite app_length, H10, seq_app. cbn [length seq Nat.add].
        assert (CA : forall (l1 : list nat) (m1 : list Z) a b, length l1 = length m1 ->
                     combine (l1 ++ [a]) (m1 ++ [b]) = combine l1 m1 ++ [(a, b)]).
        { induction l1 as [|u l1 IH]; intros [|v m1] a b0 Hl; cbn in Hl; try discriminate; auto.
          cbn [app combine]. rewrite IH by lia. reflexivity. }
        rewrite CA by (rewrite seq_length; reflexivity). rewrite LH, LEN. reflexivity.
  - (* Send *)
    destruct (nth_error (w_threads s) t) as [[]|] eqn:Ht; try discriminate. injection E as <-.
    exists cs. split; [exact HI|]. destruct HR. constructor; auto.
  - (* Recv *)
    destruct (nth_error (w_threads s) t) as [[]|] eqn:Ht; try discriminate.
    destruct (nth_error (w_sent s) k) as [v|]; try discriminate. injection E as <-.
    exists cs. split; [exact HI|]. destruct HR as [H1 H2 H3 H4 H5 H6 H7 H8 H9 H10].
    constructor; cbn [goto w_res w_pub w_heads w_slots w_threads w_views w_hist w_lost w_events]; auto.
    + rewrite upd_self by exact Ht. exact H7.
    + rewrite upd_self by exact Ht. exact H8.
    + rewrite !upd_length. exact H9.
Qed.
End Weak2.
