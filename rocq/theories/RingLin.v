(** * Proof of C108: a forward simulation of the interleaved ring buffer by the
    atomic one. *)
From Coq Require Import List ZArith Arith Lia Bool Permutation.
From Verif Require Import Machine Ring RingSpec RingSeq RingConc RingConc2 RingConc3 RingLinSpec.
Import ListNotations.
Open Scope Z_scope.

Section Sim.
Context {A : Type}.
Variable bld : build.
Notation cstate := (cstate A).
Notation pc := (pc A).

Definition matches (sz : nat) (s : cstate) (p : pc) (st : status A) : Prop :=
  match p with
  | Idle => st = Out
  | EnqReserve x | EnqWrite _ x | EnqPublish _ x => st = Pending (Enqueue x)
  | DeqLoadHead c | DeqLoadTail c _ | DeqCas c _ => st = Pending (Dequeue c)
  | DeqCheck c h => exists before x,
      st = Done before (Dequeue c)
             (if (sz <? length (s_hist before) - Z.to_nat h)%nat then ROverflow else RElement (Some x)) /\
      nth_error (s_heads before) c = Some (Z.to_nat h) /\
      nth_error (c_hist s) (Z.to_nat h) = Some x /\
      Z.of_nat (length (s_hist before)) <= published s
  | PeekLoadHead c => st = Pending (PeekAll c)
  | PeekLoadTail c h => st = Pending (PeekAll c) /\ nth_error (c_heads s) c = Some h
  | ConsLoad => st = Pending NewConsumer
  | Panicked _ => False
  end.

Record Sim (sz : nat) (s : cstate) (a : sstate A) (sts : list (status A)) : Prop := {
  S_hist : s_hist a = firstn (Z.to_nat (published s)) (c_hist s);
  S_heads : map Z.of_nat (s_heads a) = c_heads s;
  S_len : length sts = length (c_threads s);
  S_pcs : forall t p st, nth_error (c_threads s) t = Some p -> nth_error sts t = Some st -> matches sz s p st
}.

Lemma matches_grow sz s s' p st :
  (exists l, c_hist s' = c_hist s ++ l) -> published s <= published s' ->
  (forall c h, p = PeekLoadTail c h -> nth_error (c_heads s) c = Some h -> nth_error (c_heads s') c = Some h) ->
  matches sz s p st -> matches sz s' p st.
Proof.
  intros [l Hl] Hp Hh. destruct p; cbn [matches]; auto.
  - intros (before & x & H1 & H2 & H3 & H4). exists before, x. repeat split; auto; [|lia].
    rewrite Hl, nth_error_app1; [exact H3|]. apply nth_error_Some. congruence.
  - intros [H1 H2]. split; auto.
Qed.

Lemma Sim_upd sz s s' a a' sts t p p' st' :
  Sim sz s a sts -> nth_error (c_threads s) t = Some p ->
  c_threads s' = upd t p' (c_threads s) ->
  (exists l, c_hist s' = c_hist s ++ l) -> published s <= published s' ->
  (forall t' c h, t' <> t -> nth_error (c_threads s) t' = Some (PeekLoadTail c h) ->
     nth_error (c_heads s) c = Some h -> nth_error (c_heads s') c = Some h) ->
  s_hist a' = firstn (Z.to_nat (published s')) (c_hist s') ->
  map Z.of_nat (s_heads a') = c_heads s' ->
  matches sz s' p' st' ->
  Sim sz s' a' (upd t st' sts).
Proof.
  intros HS Ht ET Hl Hp Hpk EH EHd HM. constructor; auto.
  - rewrite ET, !upd_length. apply (S_len _ _ _ _ HS).
  - intros t' q st Hq Hst. rewrite ET in Hq.
    destruct (Nat.eq_dec t t') as [<-|N].
    + rewrite (nth_error_upd_same _ _ _ _ Ht) in Hq. injection Hq as <-.
      assert (L : exists y, nth_error sts t = Some y).
      { destruct (nth_error sts t) eqn:E; [eauto|]. apply nth_error_None in E.
        rewrite (S_len _ _ _ _ HS) in E. apply nth_error_None in E. congruence. }
      destruct L as [y Ly]. rewrite (nth_error_upd_same _ _ _ _ Ly) in Hst. injection Hst as <-. exact HM.
    + rewrite nth_error_upd_neq in Hq by auto. rewrite nth_error_upd_neq in Hst by auto.
      apply (matches_grow sz s); auto; [|eapply S_pcs; eauto].
      intros c h -> Hc. eapply Hpk; eauto.
Qed.

Lemma status_at sz s a sts t p : Sim sz s a sts -> nth_error (c_threads s) t = Some p ->
  exists st, nth_error sts t = Some st /\ matches sz s p st.
Proof.
  intros HS Ht. destruct (nth_error sts t) as [st|] eqn:E.
  - exists st. split; [reflexivity|]. eapply S_pcs; eauto.
  - apply nth_error_None in E. rewrite (S_len _ _ _ _ HS) in E. apply nth_error_None in E. congruence.
Qed.

(** a call the atomic machine has not answered is in progress in the history *)
Lemma explained_progress sz early n (h : list (hev A)) a sts t st : explained sz early n h a sts ->
  nth_error sts t = Some st ->
  match st with
  | Out => True
  | Pending op | Done _ op _ => in_progress h t op
  end.
Proof.
  intros HE. revert t st. induction HE as [|h a sts t op HE IH Ht|h a sts t op s' out HE IH Ht Es
     |h a sts t before op out HE IH Ht|h a sts t before c x k Ee HE IH Ht Hk Hl]; intros t' st H.
  - apply nth_error_In, repeat_spec in H. subst st. exact I.
  - destruct (Nat.eq_dec t t') as [<-|N].
    + rewrite (nth_error_upd_same _ _ _ _ Ht) in H. injection H as <-. exists h, []. split; [reflexivity|]. intros out [].
    + rewrite nth_error_upd_neq in H by exact N. specialize (IH t' st H).
      destruct st as [|op'|b op' out']; auto; destruct IH as (h1 & h2 & E & Hn); exists h1, (h2 ++ [HCall t op]);
        (split; [rewrite E, <- app_assoc; reflexivity|]; intros o Hi; apply in_app_or in Hi as [Hi|[Hi|[]]]; [eapply Hn; eauto|discriminate]).
  - destruct (Nat.eq_dec t t') as [<-|N].
    + rewrite (nth_error_upd_same _ _ _ _ Ht) in H. injection H as <-. exact (IH t (Pending op) Ht).
    + rewrite nth_error_upd_neq in H by exact N. exact (IH t' st H).
  - destruct (Nat.eq_dec t t') as [<-|N].
    + rewrite (nth_error_upd_same _ _ _ _ Ht) in H. injection H as <-. exact I.
    + rewrite nth_error_upd_neq in H by exact N. specialize (IH t' st H).
      destruct st as [|op'|b op' out']; auto; destruct IH as (h1 & h2 & E & Hn); exists h1, (h2 ++ [HRet t out]);
        (split; [rewrite E, <- app_assoc; reflexivity|]; intros o Hi; apply in_app_or in Hi as [Hi|[Hi|[]]]; [eapply Hn; eauto|congruence]).
  - destruct (Nat.eq_dec t t') as [<-|N].
    + rewrite (nth_error_upd_same _ _ _ _ Ht) in H. injection H as <-. exact I.
    + rewrite nth_error_upd_neq in H by exact N. specialize (IH t' st H).
      destruct st as [|op'|b op' out']; auto; destruct IH as (h1 & h2 & E & Hn); exists h1, (h2 ++ [HRet t ROverflow]);
        (split; [rewrite E, <- app_assoc; reflexivity|]; intros o Hi; apply in_app_or in Hi as [Hi|[Hi|[]]]; [eapply Hn; eauto|congruence]).
Qed.

Lemma pending_enqueues sz s a sts : Sim sz s a sts ->
  (length (inflights s) <= length (filter enqueue_pending sts))%nat.
Proof.
  intros HS. unfold inflights. pose proof (S_len _ _ _ _ HS) as HL. pose proof (S_pcs _ _ _ _ HS) as HP.
  clear HS. revert sts HL HP. generalize (c_threads s). intros ps. induction ps as [|p ps IH]; intros [|st sts] HL HP;
    cbn [flat_map length filter] in *; try lia.
  assert (R : (length (flat_map inflight ps) <= length (filter enqueue_pending sts))%nat).
  { apply IH; [lia|]. intros t q st' H1 H2. apply (HP (S t) q st'); assumption. }
  pose proof (HP 0%nat p st eq_refl eq_refl) as M. rewrite app_length.
  destruct p; cbn [inflight length matches] in *; try (destruct (enqueue_pending st); cbn [length]; lia);
    subst st; cbn [enqueue_pending length]; lia.
Qed.

(** the history events of one step *)
Definition step_history (s s' : cstate) (a : action A) : list (hev A) :=
  match a with
  | Start t op => [HCall t (call_of op)]
  | Step t _ => map (fun e => HRet t (answer_of e)) (skipn (length (c_events s)) (c_events s'))
  end.

Lemma skipn_app_exact {X} (l l' : list X) : skipn (length l) (l ++ l') = l'.
Proof. rewrite skipn_app, skipn_all, Nat.sub_diag. reflexivity. Qed.

Lemma history_snoc sched : forall s s1 s2 a, crun bld s sched = Some s1 -> cstep bld s1 a = Some s2 ->
  history bld s (sched ++ [a]) = history bld s sched ++ step_history s1 s2 a.
Proof.
  induction sched as [|b rest IH]; intros s s1 s2 a E1 E2; cbn [crun app history] in *.
  - injection E1 as ->. rewrite E2, app_nil_r. reflexivity.
  - destruct (cstep bld s b) as [s'|]; [|discriminate]. rewrite (IH s' s1 s2 a E1 E2), app_assoc. reflexivity.
Qed.

Lemma undisturbed_prefix (h h' : list (hev A)) : peeks_undisturbed (h ++ h') -> peeks_undisturbed h.
Proof. intros H h1 h2 E. apply (H h1 (h2 ++ h')). rewrite E, app_assoc. reflexivity. Qed.

Lemma heads_at sz s a sts c h : Sim sz s a sts -> nth_error (c_heads s) c = Some h ->
  nth_error (s_heads a) c = Some (Z.to_nat h).
Proof.
  intros HS H. rewrite <- (S_heads _ _ _ _ HS), nth_error_map in H.
  destruct (nth_error (s_heads a) c) as [k|]; [|discriminate]. injection H as <-. rewrite Nat2Z.id. reflexivity.
Qed.

Lemma hist_len sz s a sts : Inv sz s -> Sim sz s a sts -> Z.of_nat (length (s_hist a)) = published s.
Proof.
  intros HI HS. rewrite (S_hist _ _ _ _ HS), firstn_length.
  pose proof (I_pub _ _ HI). pose proof (I_res _ _ HI). unfold nhist in *. lia.
Qed.

Lemma sim_step sz n s a s' h ab sts : (1 <= sz)%nat -> Z.of_nat sz < two32 -> Inv sz s -> SlotInv sz s ->
  cstep bld s a = Some s' -> Inv sz s' ->
  explained sz true n h ab sts -> Sim sz s ab sts -> peeks_undisturbed h ->
  exists ab' sts', explained sz true n (h ++ step_history s s' a) ab' sts' /\ Sim sz s' ab' sts'.
Proof.
  intros HS HSB HI HSl E HI' HE Sm HU.
  pose proof (I_bound _ _ HI') as HB'.
  pose proof (hist_mono bld s a s' E) as GH. pose proof (pub_mono bld sz s a s' HI E HB') as GP.
  destruct a as [t op|t sp]; cbn [cstep] in E.
  { destruct (nth_error (c_threads s) t) as [p|] eqn:Ht; [|discriminate]. destruct p; try discriminate.
    destruct (cop_ok s op); [|discriminate]. injection E as <-.
    destruct (status_at _ _ _ _ _ _ Sm Ht) as (st & Hst & M). cbn [matches] in M. subst st.
    exists ab, (upd t (Pending (call_of op)) sts). split; [apply ex_call; assumption|].
    eapply Sim_upd; eauto; try reflexivity.
    - apply (S_hist _ _ _ _ Sm).
    - apply (S_heads _ _ _ _ Sm).
    - destruct op; reflexivity. }
  destruct (nth_error (c_threads s) t) as [p|] eqn:Ht; [|discriminate].
  destruct (status_at _ _ _ _ _ _ Sm Ht) as (st & Hst & M).
  pose proof (I_pcs _ _ HI t p Ht) as Hp.
  pose proof (hist_len _ _ _ _ HI Sm) as HLen.
  (* steps that return nothing and change neither lists nor counters the specification sees *)
  assert (QUIET : forall p', c_threads s' = upd t p' (c_threads s) -> c_events s' = c_events s ->
            c_heads s' = c_heads s -> published s' = published s -> matches sz s' p' st ->
            exists ab' sts', explained sz true n (h ++ step_history s s' (Step t sp)) ab' sts' /\ Sim sz s' ab' sts').
  { intros p' E1 E2 E3 E4 M'. exists ab, (upd t st sts). split.
    - cbn [step_history]. rewrite E2, skipn_all. cbn [map]. rewrite app_nil_r, upd_self by assumption. exact HE.
    - eapply Sim_upd; eauto.
      + intros t' c0 h0 _ _ Hc. rewrite E3. exact Hc.
      + rewrite E4. destruct GH as [l ->]. rewrite (S_hist _ _ _ _ Sm).
        rewrite firstn_app.
        replace (Z.to_nat (published s) - length (c_hist s))%nat with 0%nat.
        2:{ pose proof (I_pub _ _ HI). pose proof (I_res _ _ HI). unfold nhist in *. lia. }
        cbn [firstn]. rewrite app_nil_r. reflexivity.
      + rewrite E3. apply (S_heads _ _ _ _ Sm). }
  destruct p as [|x|rt x|rt x|c|c hd|c hd|c hd|c|c hd| |q]; cbn [thread_step] in E; try discriminate.
  - (* EnqReserve *)
    injection E as <-. eapply QUIET; try reflexivity. exact M.
  - (* EnqWrite *)
    injection E as <-. eapply QUIET; try reflexivity. exact M.
  - (* EnqPublish *)
    cbn [matches] in M. subst st. cbn [pc_ok] in Hp. destruct Hp as [Hx Hrt].
    destruct (u32_add bld rt 1) as [nxt|q|] eqn:Ea; try discriminate.
    2:{ injection E as <-. exfalso. pose proof (I_pcs _ _ HI' t (Panicked q)) as C.
        apply C. cbn [set_pc c_threads]. eapply nth_error_upd_same; eauto. }
    destruct (negb sp && (published_tail (c_ring s) =? rt)) eqn:Eb.
    + injection E as <-. apply andb_true_iff in Eb as [_ Eb]. apply Z.eqb_eq in Eb.
      assert (En : nxt = rt + 1).
      { unfold u32_add in Ea. rewrite checked_in in Ea; [injection Ea as <-; reflexivity|].
        pose proof (I_res _ _ HI) as R. pose proof (I_bound _ _ HI) as B. unfold reserved, nhist in *.
        assert ((Z.to_nat rt < length (c_hist s))%nat) by (apply nth_error_Some; congruence). lia. }
      exists (SState (s_hist ab ++ [x]) (s_heads ab)), (upd t Out (upd t (Done ab (Enqueue x) REnqueued) sts)).
      split.
      * cbn [step_history log set_pc set_ring c_events]. rewrite skipn_app_exact. cbn [map answer_of].
        eapply ex_return; [|eapply nth_error_upd_same; eauto]. eapply ex_instant; eauto.
      * assert (W : upd t Out (upd t (Done ab (Enqueue x) REnqueued) sts) = upd t Out sts).
        { clear. revert t. induction sts as [|y sts IH]; intros [|t]; cbn; auto. f_equal. apply IH. }
        rewrite W. eapply Sim_upd; eauto; try reflexivity.
        -- unfold published. cbn [log set_pc set_ring c_ring published_tail c_hist s_hist].
           rewrite (S_hist _ _ _ _ Sm). unfold published. rewrite Eb, En.
           replace (Z.to_nat (rt + 1)) with (S (Z.to_nat rt)) by lia.
           clear -Hx. revert Hx. generalize (Z.to_nat rt) (c_hist s). intros k l. revert k.
           induction l as [|y l IH]; intros [|k] H; cbn [nth_error] in H; try discriminate.
           ++ injection H as ->. reflexivity.
           ++ cbn [firstn app]. f_equal. apply IH. exact H.
        -- apply (S_heads _ _ _ _ Sm).
    + destruct (published_tail (c_ring s) >? rt).
      * injection E as <-. exfalso. pose proof (I_pcs _ _ HI' t (Panicked PBugLoop)) as C.
        apply C. cbn [set_pc c_threads]. eapply nth_error_upd_same; eauto.
      * injection E as <-. apply (QUIET (EnqPublish rt x)); try reflexivity.
        symmetry. apply upd_self. exact Ht.
  - (* DeqLoadHead *)
    destruct (nth_error (c_heads s) c) as [h0|] eqn:Eh; [|discriminate]. injection E as <-.
    eapply QUIET; try reflexivity. exact M.
  - (* DeqLoadTail *)
    cbn [matches] in M. subst st.
    destruct (hd >? published_tail (c_ring s)); [injection E as <-; eapply QUIET; reflexivity|].
    destruct (Z.eqb_spec hd (published_tail (c_ring s))) as [Eq|NE].
    + injection E as <-. cbn [pc_ok] in Hp. destruct Hp as (st0 & cur & Hc & Hh).
      destruct (I_cpos sz s c st0 cur HI Hc) as (K1 & K2 & _). destruct Hc as [_ Hc].
      assert (cur = published s) by (unfold published in *; lia). subst cur.
      pose proof (heads_at _ _ _ _ _ _ Sm Hc) as Hk.
      exists ab, (upd t Out (upd t (Done ab (Dequeue c) RNothing) sts)). split.
      * cbn [step_history log set_pc set_ring c_events]. rewrite skipn_app_exact. cbn [map answer_of].
        eapply ex_return; [|eapply nth_error_upd_same; eauto]. eapply ex_instant; eauto.
        cbn [sstep]. rewrite Hk. unfold pending. rewrite skipn_all2 by lia. reflexivity.
      * assert (W : upd t Out (upd t (Done ab (Dequeue c) RNothing) sts) = upd t Out sts).
        { clear. revert t. induction sts as [|y sts IH]; intros [|t]; cbn; auto. f_equal. apply IH. }
        rewrite W. eapply Sim_upd; eauto; try reflexivity.
        -- apply (S_hist _ _ _ _ Sm).
        -- apply (S_heads _ _ _ _ Sm).
    + injection E as <-. eapply QUIET; reflexivity.
  - (* DeqCas *)
    cbn [matches] in M. subst st.
    destruct (nth_error (c_heads s) c) as [cur|] eqn:Eh; [|discriminate].
    destruct (u32_add bld hd 1) as [nxt|q|] eqn:Ea; try discriminate.
    2:{ injection E as <-. exfalso. pose proof (I_pcs _ _ HI' t (Panicked q)) as C.
        apply C. cbn [set_pc c_threads]. eapply nth_error_upd_same; eauto. }
    destruct (negb sp && (cur =? hd)) eqn:Eb.
    2:{ injection E as <-. eapply QUIET; reflexivity. }
    injection E as <-. apply andb_true_iff in Eb as [_ Eb]. apply Z.eqb_eq in Eb. subst cur.
    cbn [pc_ok] in Hp. destruct Hp as (st0 & cur & Hc & Hh & Hpub).
    destruct (I_cpos sz s c st0 cur HI Hc) as (K1 & K2 & _). destruct Hc as [Hc1 Hc]. rewrite Hc in Eh. injection Eh as ->.
    pose proof (heads_at _ _ _ _ _ _ Sm Hc) as Hk.
    pose proof (I_pub _ _ HI) as IP. pose proof (I_res _ _ HI) as IR. pose proof (I_bound _ _ HI) as IB.
    assert (En : nxt = hd + 1).
    { unfold u32_add in Ea. rewrite checked_in in Ea; [injection Ea as <-; reflexivity|]. unfold nhist in *. lia. }
    destruct (nth_error (c_hist s) (Z.to_nat hd)) as [x|] eqn:Ex.
    2:{ apply nth_error_None in Ex. unfold nhist in *. lia. }
    assert (Pn : exists rest, pending ab (Z.to_nat hd) = x :: rest /\ length (x :: rest) = (length (s_hist ab) - Z.to_nat hd)%nat).
    { unfold pending. rewrite <- (skipn_length (Z.to_nat hd) (s_hist ab)).
      assert (N0 : nth_error (skipn (Z.to_nat hd) (s_hist ab)) 0 = Some x).
      { rewrite nth_error_skipn, Nat.add_0_r, (S_hist _ _ _ _ Sm), nth_error_firstn.
        rewrite (proj2 (Nat.ltb_lt _ _)) by lia. exact Ex. }
      destruct (skipn (Z.to_nat hd) (s_hist ab)) as [|y rest]; [discriminate|]. injection N0 as ->. exists rest. split; reflexivity. }
    destruct Pn as (rest & Pn & Pl).
    set (out := if (sz <? length (s_hist ab) - Z.to_nat hd)%nat then ROverflow else RElement (Some x)).
    exists (SState (s_hist ab) (upd c (S (Z.to_nat hd)) (s_heads ab))), (upd t (Done ab (Dequeue c) out) sts). split.
    + cbn [step_history set_pc claim c_events]. rewrite skipn_all. cbn [map]. rewrite app_nil_r.
      eapply ex_instant; eauto. cbn [sstep]. rewrite Hk, Pn, Pl. reflexivity.
    + eapply Sim_upd; eauto; try reflexivity.
      * intros t' c0 h0 Nt Ht' Hc0. cbn [set_pc claim c_heads].
        destruct (Nat.eq_dec c c0) as [<-|Nc]; [|rewrite nth_error_upd_neq by exact Nc; exact Hc0].
        exfalso. destruct (status_at _ _ _ _ _ _ Sm Ht') as (st' & Hst' & [-> _]).
        apply (HU h [] (eq_sym (app_nil_r h)) t' c t (Dequeue c)).
        -- exact (explained_progress _ _ _ _ _ _ _ _ HE Hst').
        -- exact (explained_progress _ _ _ _ _ _ _ _ HE Hst).
        -- reflexivity.
      * apply (S_hist _ _ _ _ Sm).
      * cbn [set_pc claim c_heads s_heads]. rewrite map_upd, (S_heads _ _ _ _ Sm). f_equal. lia.
      * cbn [matches]. exists ab, x. repeat split; auto. unfold published in *. cbn [set_pc claim c_ring]. lia.
  - (* DeqCheck *)
    cbn [matches] in M. destruct M as (before & x & -> & Hk & Hx & Hb).
    cbn [pc_ok] in Hp. destruct Hp as (st0 & cur & Hc & Hh).
    destruct (I_cpos sz s c st0 cur HI Hc) as (K1 & K2 & _).
    pose proof (I_pub _ _ HI) as IP. pose proof (I_res _ _ HI) as IR. pose proof (I_bound _ _ HI) as IB.
    pose proof (I_len _ _ HI) as IL.
    unfold u32_sub in E. rewrite checked_in in E by (unfold published, reserved, nhist in *; lia).
    unfold wrap32, size in E. rewrite IL, Z.mod_small in E by lia.
    destruct (Z.gtb_spec (reserved_tail (c_ring s) - hd) (Z.of_nat sz)) as [G|G].
    + injection E as <-.
      exists ab, (upd t Out sts). split.
      * cbn [step_history log set_pc set_ring c_events]. rewrite skipn_app_exact. cbn [map answer_of].
        destruct (Nat.ltb_spec sz (length (s_hist before) - Z.to_nat hd)) as [L|L].
        -- eapply ex_return; eauto.
        -- eapply ex_early; eauto.
           pose proof (pending_enqueues _ _ _ _ Sm) as PE.
           pose proof (Permutation_length (I_perm _ _ HI)) as PL. rewrite zseq_length in PL.
           unfold reserved, published in *. lia.
      * eapply Sim_upd; eauto; try reflexivity.
        -- apply (S_hist _ _ _ _ Sm).
        -- apply (S_heads _ _ _ _ Sm).
    + destruct (nth_error (slots (c_ring s)) (slot_index (c_ring s) hd)) as [o|] eqn:N.
      2:{ injection E as <-. exfalso. pose proof (I_pcs _ _ HI' t (Panicked PIndex)) as C.
          apply C. cbn [set_pc c_threads]. eapply nth_error_upd_same; eauto. }
      injection E as <-.
      assert (Eo : o = Some x).
      { assert (Eh : hd = Z.of_nat (Z.to_nat hd)) by lia.
        rewrite Eh, slot_index_nat, IL in N.
        rewrite (slot_published sz s _ x HS HI HSl) in N
          by (try assumption; unfold reserved, published, nhist in *; lia). congruence. }
      subst o.
      exists ab, (upd t Out sts). split.
      * cbn [step_history log set_pc set_ring c_events]. rewrite skipn_app_exact. cbn [map answer_of].
        destruct (Nat.ltb_spec sz (length (s_hist before) - Z.to_nat hd)) as [L|L].
        -- exfalso. unfold reserved, published, nhist in *. lia.
        -- eapply ex_return; eauto.
      * eapply Sim_upd; eauto; try reflexivity.
        -- apply (S_hist _ _ _ _ Sm).
        -- apply (S_heads _ _ _ _ Sm).
  - (* PeekLoadHead *)
    destruct (nth_error (c_heads s) c) as [h0|] eqn:Eh; [|discriminate]. injection E as <-.
    eapply QUIET; try reflexivity. split; [exact M|exact Eh].
  - (* PeekLoadTail *)
    cbn [matches] in M. destruct M as [-> Hc].
    cbn [pc_ok] in Hp. destruct Hp as (st0 & cur & Hcp & Hh).
    destruct (I_cpos sz s c st0 cur HI Hcp) as (K1 & K2 & _).
    destruct (peek_event bld (c_ring s) c hd) as [e|q|] eqn:Ee; [| |discriminate].
    2:{ injection E as <-. exfalso. pose proof (I_pcs _ _ HI' t (Panicked q)) as C.
        apply C. cbn [set_pc c_threads]. eapply nth_error_upd_same; eauto. }
    injection E as <-.
    pose proof (peek_ev_ok bld sz s c hd st0 cur e HS HSB HI HSl Hcp Hh Ee) as OK.
    pose proof (heads_at _ _ _ _ _ _ Sm Hc) as Hk.
    pose proof (I_pub _ _ HI) as IP. pose proof (I_res _ _ HI) as IR. pose proof (I_bound _ _ HI) as IB.
    assert (RP : reserved s = published s).
    { pose proof (Permutation_length (I_perm _ _ HI)) as PL. rewrite zseq_length in PL.
      destruct (inflights s) as [|rt l] eqn:EI; [cbn in PL; lia|]. exfalso.
      assert (IN : In rt (inflights s)) by (rewrite EI; left; reflexivity).
      apply in_flat_map_nth in IN. destruct IN as (t' & p' & Ht' & Hr).
      destruct (status_at _ _ _ _ _ _ Sm Ht') as (st' & Hst' & M').
      assert (exists y, st' = Pending (Enqueue y)) as [y ->].
      { destruct p'; cbn [inflight] in Hr; try contradiction; cbn [matches] in M'; eauto. }
      apply (HU h [] (eq_sym (app_nil_r h)) t c t' (Enqueue y)).
      -- exact (explained_progress _ _ _ _ _ _ _ _ HE Hst).
      -- exact (explained_progress _ _ _ _ _ _ _ _ HE Hst').
      -- exact I. }
    assert (SP : sstep sz ab (PeekAll c) = (ab, answer_of e)).
    { cbn [sstep]. rewrite Hk. f_equal. unfold peek_event in Ee.
      destruct (peek_all bld (c_ring s) hd) as [[[s1 s2]|]| |]; cbn [bind] in Ee; try discriminate; injection Ee as <-;
        cbn [ev_ok answer_of] in *.
      - destruct OK as (O1 & O2 & O3 & O4 & O5). fold (published s) (reserved s) in *. rewrite O5 by lia.
        unfold pending.
        rewrite skipn_length, (proj2 (Nat.ltb_ge _ _)) by lia. do 2 f_equal.
        rewrite (S_hist _ _ _ _ Sm). rewrite skipn_firstn_comm. f_equal. lia.
      - destruct OK as (O1 & O2 & O3). fold (published s) in *. unfold pending.
        rewrite skipn_length, (proj2 (Nat.ltb_lt _ _)) by lia. reflexivity. }
    exists ab, (upd t Out (upd t (Done ab (PeekAll c) (answer_of e)) sts)). split.
    + cbn [step_history log set_pc set_ring c_events]. rewrite skipn_app_exact. cbn [map].
      eapply ex_return; [|eapply nth_error_upd_same; eauto]. eapply ex_instant; eauto.
    + assert (W : upd t Out (upd t (Done ab (PeekAll c) (answer_of e)) sts) = upd t Out sts).
      { generalize (Done ab (PeekAll c) (answer_of e)). clear. intros z. revert t.
        induction sts as [|y sts IH]; intros [|t]; cbn; auto. f_equal. apply IH. }
      rewrite W. eapply Sim_upd; eauto; try reflexivity.
      * apply (S_hist _ _ _ _ Sm).
      * apply (S_heads _ _ _ _ Sm).
  - (* ConsLoad *)
    injection E as <-. cbn [matches] in M. subst st.
    exists (SState (s_hist ab) (s_heads ab ++ [length (s_hist ab)])), (upd t Out (upd t (Done ab NewConsumer (RConsumer (length (s_heads ab)))) sts)).
    split.
    + cbn [step_history log set_pc add_consumer c_events]. rewrite skipn_app_exact. cbn [map answer_of].
      rewrite <- (S_heads _ _ _ _ Sm), map_length.
      eapply ex_return; [|eapply nth_error_upd_same; eauto]. eapply ex_instant; eauto.
    + assert (W : upd t Out (upd t (Done ab NewConsumer (RConsumer (length (s_heads ab)))) sts) = upd t Out sts).
      { clear. revert t. induction sts as [|y sts IH]; intros [|t]; cbn; auto. f_equal. apply IH. }
      rewrite W. eapply Sim_upd; eauto; try reflexivity.
      * intros t' c0 h0 _ _ Hc0. cbn [set_pc add_consumer c_heads]. rewrite nth_error_app1; [exact Hc0|].
        apply nth_error_Some. congruence.
      * apply (S_hist _ _ _ _ Sm).
      * cbn [set_pc add_consumer c_heads s_heads]. rewrite map_app, (S_heads _ _ _ _ Sm). cbn [map]. f_equal. f_equal.
        exact HLen.
Qed.

Lemma sim_run sz n sched : (1 <= sz)%nat -> Z.of_nat sz < two32 -> (n <= sz)%nat -> forall s,
  crun bld (cinit sz n) sched = Some s -> Z.of_nat (length (started sched)) < two32 ->
  peeks_undisturbed (history bld (cinit sz n) sched) ->
  exists ab sts, explained sz true n (history bld (cinit sz n) sched) ab sts /\ Sim sz s ab sts.
Proof.
  intros HS HSB Hn. induction sched as [|a sched IH] using rev_ind; intros s E HB HU.
  - cbn [crun] in E. injection E as <-. exists sinit, (repeat Out n). split; [apply ex_start|].
    constructor; try reflexivity.
    + cbn. rewrite !repeat_length. reflexivity.
    + intros t p st Hp Hst. apply nth_error_In, repeat_spec in Hp, Hst. subst. reflexivity.
  - pose proof E as E'. apply crun_app in E as (s1 & E1 & E2). cbn [crun] in E2.
    destruct (cstep bld s1 a) as [s2|] eqn:Es; [|discriminate]. injection E2 as ->.
    rewrite (history_snoc _ _ _ _ _ E1 Es) in *.
    assert (HB1 : Z.of_nat (length (started sched)) < two32).
    { unfold started in *. rewrite flat_map_app, app_length in HB. lia. }
    destruct (IH s1 E1 HB1 (undisturbed_prefix _ _ HU)) as (ab & sts & HE & Sm).
    destruct (Inv2_reachable bld sz n sched s1 HS HSB Hn E1 (nhist_started bld sz n sched s1 E1 HB1)) as (HI & _ & HSl & _).
    destruct (Inv2_reachable bld sz n _ s HS HSB Hn E' (nhist_started bld sz n _ s E' HB)) as (HI' & _).
    exact (sim_step sz n s1 a s _ ab sts HS HSB HI HSl Es HI' HE Sm (undisturbed_prefix _ _ HU)).
Qed.

Lemma explained_strict sz n h (ab : sstate A) sts : explained sz true n h ab sts -> (forall t, ~ In (HRet t ROverflow) h) ->
  explained sz false n h ab sts.
Proof.
  intros HE. induction HE as [|h a sts t op HE IH Ht|h a sts t op s' out HE IH Ht Es
     |h a sts t before op out HE IH Ht|h a sts t before c x k Ee HE IH Ht Hk Hl]; intros HN.
  - constructor.
  - apply ex_call; auto. apply IH. intros t' Hi. apply (HN t'). apply in_or_app. auto.
  - eapply ex_instant; eauto.
  - eapply ex_return; eauto. apply IH. intros t' Hi. apply (HN t'). apply in_or_app. auto.
  - exfalso. apply (HN t). apply in_or_app. right. left. reflexivity.
Qed.
End Sim.

(** ** All explanations of a concrete history, computed (to refute linearizability) *)
Section Search.
Context {A : Type}.
Variable out_eqb : rout A -> rout A -> bool.
Hypothesis out_eqb_refl : forall o, out_eqb o o = true.
Variables sz n : nat.
Definition conf : Type := sstate A * list (status A).

Definition instants (x : conf) : list conf :=
  flat_map (fun t => match nth_error (snd x) t with
                     | Some (Pending op) => let (s', out) := sstep sz (fst x) op in [(s', upd t (Done (fst x) op out) (snd x))]
                     | _ => []
                     end) (seq 0 n).
Fixpoint instants_n (k : nat) (l : list conf) : list conf :=
  match k with 0%nat => l | S k' => flat_map instants (instants_n k' l) end.
Definition close (l : list conf) : list conf := flat_map (fun k => instants_n k l) (seq 0 (S n)).
Definition observe (e : hev A) (x : conf) : list conf :=
  match e with
  | HCall t op => match nth_error (snd x) t with Some Out => [(fst x, upd t (Pending op) (snd x))] | _ => [] end
  | HRet t out => match nth_error (snd x) t with
                  | Some (Done _ _ out') => if out_eqb out out' then [(fst x, upd t Out (snd x))] else []
                  | _ => []
                  end
  end.
Definition explanations (h : list (hev A)) : list conf :=
  fold_left (fun l e => close (flat_map (observe e) l)) h (close [(sinit, repeat Out n)]).

Definition is_pending (st : status A) : bool := match st with Pending _ => true | _ => false end.
Definition npending (x : conf) : nat := length (filter is_pending (snd x)).

Lemma filter_length_le {X} (f : X -> bool) l : (length (filter f l) <= length l)%nat.
Proof. induction l as [|x l IH]; cbn [filter length]; [lia|]. destruct (f x); cbn [length]; lia. Qed.

Lemma npending_upd l t op b o : nth_error l t = Some (Pending op) ->
  S (length (filter is_pending (upd t (Done b op o) l))) = length (filter is_pending l).
Proof.
  revert t. induction l as [|y l IH]; intros [|t] H; cbn [nth_error] in H; try discriminate.
  - injection H as ->. reflexivity.
  - cbn [upd filter]. destruct (is_pending y); cbn [length]; rewrite (IH t H); reflexivity.
Qed.

Lemma instants_spec x y : In y (instants x) -> S (npending y) = npending x /\ length (snd y) = length (snd x).
Proof.
  unfold instants. rewrite in_flat_map. intros (t & _ & H).
  destruct (nth_error (snd x) t) as [[|op|]|] eqn:Ht; try contradiction.
  destruct (sstep sz (fst x) op) as [s' out]. destruct H as [<-|[]]. cbn [snd npending]. split.
  - apply npending_upd. exact Ht.
  - apply upd_length.
Qed.

Lemma instants_n_spec k l : (forall x, In x l -> length (snd x) = n) ->
  forall y, In y (instants_n k l) -> (npending y + k <= n)%nat /\ length (snd y) = n.
Proof.
  intros Hl. induction k as [|k IH]; cbn [instants_n]; intros y Hy.
  - specialize (Hl y Hy). split; [|exact Hl]. unfold npending.
    pose proof (filter_length_le is_pending (snd y)). lia.
  - apply in_flat_map in Hy as (x & Hx & Hy). destruct (IH x Hx) as [H1 H2].
    destruct (instants_spec x y Hy) as [H3 H4]. split; lia.
Qed.

Lemma close_instants l x y : (forall x, In x l -> length (snd x) = n) -> In x (close l) -> In y (instants x) -> In y (close l).
Proof.
  intros Hl Hx Hy. apply in_flat_map in Hx as (k & _ & Hx).
  assert (Hy' : In y (instants_n (S k) l)) by (apply in_flat_map; eauto).
  destruct (instants_n_spec (S k) l Hl y Hy') as [H1 _].
  apply in_flat_map. exists (S k). split; [apply in_seq; lia|exact Hy'].
Qed.

Lemma in_close l x : In x l -> In x (close l).
Proof. intros H. apply in_flat_map. exists 0%nat. split; [apply in_seq; lia|exact H]. Qed.

Lemma close_len l : (forall x, In x l -> length (snd x) = n) -> forall x, In x (close l) -> length (snd x) = n.
Proof. intros Hl x Hx. apply in_flat_map in Hx as (k & _ & Hx). apply (instants_n_spec k l Hl x Hx). Qed.

Lemma explanations_shape h : exists l, explanations h = close l /\ forall x, In x l -> length (snd x) = n.
Proof.
  induction h as [|e h IH] using rev_ind.
  - eexists. split; [reflexivity|]. intros x [<-|[]]. apply repeat_length.
  - destruct IH as (l & E & Hl). unfold explanations in *. rewrite fold_left_app, E. cbn [fold_left].
    eexists. split; [reflexivity|]. intros y Hy. apply in_flat_map in Hy as (x & Hx & Hy).
    pose proof (close_len l Hl x Hx) as L. destruct e as [t op|t out]; cbn [observe] in Hy.
    + destruct (nth_error (snd x) t) as [[]|]; try contradiction. destruct Hy as [<-|[]]. cbn [snd]. rewrite upd_length. exact L.
    + destruct (nth_error (snd x) t) as [[]|]; try contradiction. destruct (out_eqb _ _); try contradiction.
      destruct Hy as [<-|[]]. cbn [snd]. rewrite upd_length. exact L.
Qed.

Lemma explanations_complete h s sts : explained sz false n h s sts -> In (s, sts) (explanations h).
Proof.
  intros HE. induction HE as [|h a sts t op HE IH Ht|h a sts t op s' out HE IH Ht Es
     |h a sts t before op out HE IH Ht|h a sts t before c x k Ee HE IH Ht Hk Hl].
  - apply in_close. left. reflexivity.
  - unfold explanations. rewrite fold_left_app. cbn [fold_left]. apply in_close, in_flat_map.
    eexists. split; [exact IH|]. cbn [observe snd fst]. rewrite Ht. left. reflexivity.
  - destruct (explanations_shape h) as (l & E & Hl). rewrite E in *. eapply close_instants; eauto.
    apply in_flat_map. exists t. split.
    + apply in_seq. pose proof (close_len l Hl _ IH) as L. cbn [snd] in L.
      assert ((t < length sts)%nat) by (apply nth_error_Some; congruence). lia.
    + cbn [snd fst]. rewrite Ht, Es. left. reflexivity.
  - unfold explanations. rewrite fold_left_app. cbn [fold_left]. apply in_close, in_flat_map.
    eexists. split; [exact IH|]. cbn [observe snd fst]. rewrite Ht, out_eqb_refl. left. reflexivity.
  - discriminate.
Qed.

Lemma not_linearizable h : explanations h = [] -> ~ linearizable sz n h.
Proof. intros E (s & sts & HE). apply explanations_complete in HE. rewrite E in HE. exact HE. Qed.
End Search.

(** ** Checking that no peek_all is disturbed in a concrete history *)
Section Check.
Context {A : Type}.
Definition running_step (l : list (nat * rop A)) (e : hev A) : list (nat * rop A) :=
  match e with
  | HCall t op => (t, op) :: l
  | HRet t _ => filter (fun q => negb (Nat.eqb (fst q) t)) l
  end.
Definition running (h : list (hev A)) : list (nat * rop A) := fold_left running_step h [].
Definition disturbsb (c : nat) (op : rop A) : bool :=
  match op with Enqueue _ => true | Dequeue c' => Nat.eqb c' c | _ => false end.
Definition calm (l : list (nat * rop A)) : bool :=
  forallb (fun q => match snd q with PeekAll c => forallb (fun q' => negb (disturbsb c (snd q'))) l | _ => true end) l.
Fixpoint calm_all (l : list (nat * rop A)) (h : list (hev A)) : bool :=
  calm l && match h with [] => true | e :: h' => calm_all (running_step l e) h' end.

Lemma running_keeps t op h : (forall out, ~ In (HRet t out) h) -> forall l, In (t, op) l -> In (t, op) (fold_left running_step h l).
Proof.
  induction h as [|e h IH]; intros HN l Hl; [exact Hl|]. cbn [fold_left]. apply IH.
  - intros out Hi. apply (HN out). right. exact Hi.
  - destruct e as [t' op'|t' out]; cbn [running_step]; [right; exact Hl|].
    apply filter_In. split; [exact Hl|]. cbn [fst]. destruct (Nat.eqb_spec t t') as [->|]; [|reflexivity].
    exfalso. apply (HN out). left. reflexivity.
Qed.

Lemma in_progress_running h t (op : rop A) : in_progress h t op -> In (t, op) (running h).
Proof.
  intros (h1 & h2 & -> & HN). unfold running. rewrite fold_left_app. cbn [fold_left].
  apply running_keeps; [exact HN|]. left. reflexivity.
Qed.

Lemma calm_all_spec h1 : forall l h2, calm_all l (h1 ++ h2) = true -> calm (fold_left running_step h1 l) = true.
Proof.
  induction h1 as [|e h1 IH]; intros l h2 H; cbn [app fold_left] in *.
  - destruct h2; apply andb_true_iff in H as [H _]; exact H.
  - cbn [calm_all] in H. apply andb_true_iff in H as [_ H]. eapply IH. exact H.
Qed.

Lemma calm_undisturbed h : calm_all [] h = true -> peeks_undisturbed h.
Proof.
  intros H h1 h2 -> t c t' op' Hp Hd D. apply calm_all_spec in H. fold (running h1) in H.
  apply in_progress_running in Hp, Hd. unfold calm in H. rewrite forallb_forall in H. specialize (H _ Hp). cbn [snd] in H.
  rewrite forallb_forall in H. specialize (H _ Hd). cbn [snd] in H.
  destruct op'; cbn [disturbs disturbsb] in *; try contradiction; [discriminate|]. subst. rewrite Nat.eqb_refl in H. discriminate.
Qed.
End Check.
