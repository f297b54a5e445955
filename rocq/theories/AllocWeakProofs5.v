(** * Relaxed memory: references to save points carry what was known when they were made; panics. *)
From Coq Require Import List ZArith Lia Bool Arith.
From Verif Require Import Machine Ring RingSeq RingConc Alloc AllocSpec AllocProofs AllocConc AllocConcSpec AllocConcProofs AllocConcProofs2
  RingWeak RingWeakSpec RingWeakProofs RingWeakProofs2 RingWeakProofs3 RingWeakProofs4 RingWeakProofs5 RingWeakPeek
  AllocWeak AllocWeakSpec AllocWeakProofs AllocWeakProofs2 AllocWeakProofs3 AllocWeakProofs4.
Import ListNotations.
Open Scope Z_scope.

(** the counters of the snapshot [acc] are values of messages [V] knows *)
Definition ksnap (s : kst) (V : kview) (acc : list Z) : Prop :=
  forall i f v, nth_error counter_fields i = Some f -> nth_error acc i = Some v ->
  exists p m, nth_error (k_msgs s f) p = Some m /\ f_val m = v /\ (p <= kv V f)%nat.
Definition hk (RV : view) (c : Z) : Prop := exists c', c = Z.of_nat c' /\ (1 <= seen RV (Head c'))%nat.
Definition vok (s : kst) (V : kview) (RV : view) : Prop :=
  forall k, In k (refs V) -> exists sp, nth_error (k_sps s) k = Some sp /\ length (snd sp) = 12%nat /\ ksnap s V (snd sp) /\ hk RV (fst sp).
Definition pcq (s : kst) (V : kview) (RV : view) (p : apc) : Prop :=
  match p with
  | SLoadCur1 c | SStoreMin c _ | SLoadCur2 c | SStoreMax c _ => hk RV c
  | SSnap c todo acc => hk RV c /\ (exists l, snapshot_fields = l ++ todo /\ length l = length acc) /\ ksnap s V acc
  | DPeek k | DMin k _ _ | DMax k _ _ => In k (refs V)
  | DLoads k _ _ todo acc => In k (refs V) /\ exists l, counter_fields = l ++ todo /\ length l = length acc
  | _ => True
  end.
Record KT (n : nat) (s : kst) : Prop := {
  T_views : forall u, (u < n)%nat -> vok s (kview_of s u) (view_of (k_ring s) u);
  T_sent : forall j V RV, nth_error (k_sent s) j = Some V -> nth_error (w_sent (k_ring s)) j = Some RV -> vok s V RV;
  T_pcs : forall t p, nth_error (k_threads s) t = Some p -> pcq s (kview_of s t) (view_of (k_ring s) t) p
}.

Record moved (s s' : kst) (V V' : kview) (RV RV' : view) : Prop := {
  M_msgs : forall f, cnt f -> exists l, k_msgs s' f = k_msgs s f ++ l;
  M_sps : exists l, k_sps s' = k_sps s ++ l;
  M_kv : forall f, cnt f -> (kv V f <= kv V' f)%nat;
  M_refs : incl (refs V) (refs V');
  M_ring : vle RV RV'
}.
Lemma ksnap_moved s s' V V' RV RV' acc : moved s s' V V' RV RV' -> ksnap s V acc -> ksnap s' V' acc.
Proof.
  intros [M1 M2 M3 M4 M5] H i f v Hf Hv. destruct (H i f v Hf Hv) as (p & m & E & Em & L). pose proof (counter_cnt f (nth_error_In _ _ Hf)) as C.
  exists p, m. split; [|split; [exact Em|specialize (M3 f C); lia]]. destruct (M1 f C) as (l & ->). rewrite nth_error_app1; [exact E|apply nth_error_Some; congruence].
Qed.
Lemma hk_moved RV RV' c : vle RV RV' -> hk RV c -> hk RV' c.
Proof. intros M (c' & E & L). exists c'. split; [exact E|]. specialize (M (Head c')). lia. Qed.
Lemma sp_moved s s' V V' RV RV' k : moved s s' V V' RV RV' ->
  (exists sp, nth_error (k_sps s) k = Some sp /\ length (snd sp) = 12%nat /\ ksnap s V (snd sp) /\ hk RV (fst sp)) ->
  exists sp, nth_error (k_sps s') k = Some sp /\ length (snd sp) = 12%nat /\ ksnap s' V' (snd sp) /\ hk RV' (fst sp).
Proof.
  intros M (sp & E & L & KS & K). exists sp. split; [destruct (M_sps _ _ _ _ _ _ M) as (l & ->); rewrite nth_error_app1; [exact E|apply nth_error_Some; congruence]|].
  split; [exact L|]. split; [eapply ksnap_moved; eassumption|eapply hk_moved; [apply M|exact K]].
Qed.
Lemma pcq_moved s s' V V' RV RV' p : moved s s' V V' RV RV' -> pcq s V RV p -> pcq s' V' RV' p.
Proof.
  intros M. pose proof (M_refs _ _ _ _ _ _ M) as MR. pose proof (hk_moved RV RV') as HM. specialize (fun c => HM c (M_ring _ _ _ _ _ _ M)).
  destruct p; cbn [pcq]; auto.
  - intros (H1 & H2 & H3). split; [auto|]. split; [auto|]. eapply ksnap_moved; eassumption.
  - intros (H1 & H2). split; [apply MR; exact H1|exact H2].
Qed.

(** a step in which thread [t] moves to [p'], with no new reference *)
Lemma KT_move n s s' t p' : KT n s ->
  (forall u, (u < n)%nat -> moved s s' (kview_of s u) (kview_of s' u) (view_of (k_ring s) u) (view_of (k_ring s') u)) ->
  (forall u, (u < n)%nat -> refs (kview_of s' u) = refs (kview_of s u)) ->
  (forall j V RV, nth_error (k_sent s') j = Some V -> nth_error (w_sent (k_ring s')) j = Some RV ->
     exists V0, nth_error (k_sent s) j = Some V0 /\ nth_error (w_sent (k_ring s)) j = Some RV /\ moved s s' V0 V RV RV /\ refs V = refs V0) ->
  k_threads s' = upd t p' (k_threads s) -> length (k_threads s) = n ->
  ((t < n)%nat -> pcq s' (kview_of s' t) (view_of (k_ring s') t) p') -> KT n s'.
Proof.
  intros [T1 T2 T3] MV RF SN TH LN PQ. constructor.
  - intros u Hu k Hk. rewrite (RF u Hu) in Hk. eapply sp_moved; [apply MV; exact Hu|]. apply T1; assumption.
  - intros j V RV HV HR k Hk. destruct (SN j V RV HV HR) as (V0 & E1 & E2 & M & R). rewrite R in Hk. eapply sp_moved; [exact M|]. eapply T2; eassumption.
  - intros u p Hp. assert (Hu : (u < n)%nat). { rewrite <- LN, <- (upd_length t p' (k_threads s)), <- TH. apply nth_error_Some. congruence. }
    rewrite TH, nth_error_upd in Hp. destruct (Nat.eqb_spec t u) as [<-|].
    + destruct (Nat.ltb t _); [|discriminate]. injection Hp as <-. apply PQ. exact Hu.
    + eapply pcq_moved; [apply MV; exact Hu|]. apply T3. exact Hp.
Qed.

Lemma moved_of b n s a s' u : KWf n s -> kstep b s a = Some s' -> (u < n)%nat ->
  moved s s' (kview_of s u) (kview_of s' u) (view_of (k_ring s) u) (view_of (k_ring s') u).
Proof.
  intros HW E Hu. pose proof (step_fwd _ _ _ _ _ HW E) as [F1 F2 F3 F4]. destruct (step_grows _ _ _ _ _ HW E) as [G1 G2].
  destruct (G1 u Hu) as (K1 & K2 & K3). constructor; auto.
Qed.
Lemma load_pcq s t f k v p next : load_kind p f next -> can_load s t f k v -> (t < length (k_views s))%nat ->
  pcq s (kview_of s t) (view_of (k_ring s) t) p ->
  pcq (loaded s t f k) (kview_of (loaded s t f k) t) (view_of (k_ring s) t) (next v).
Proof.
  intros LK CL LT H. unfold loaded. rewrite view_put, Nat.eqb_refl by exact LT. inversion LK; subst; cbn [pcq] in *; auto.
  - destruct H as (H1 & (l & El & Ll) & H3). split; [exact H1|]. split.
    + exists (l ++ [f]). rewrite <- app_assoc. split; [exact El|]. rewrite !app_length, Ll. reflexivity.
    + intros i g w Hg Hw. cbn [kv kv_set kput_view k_msgs]. destruct CL as [(m & Em & Ev) CL].
      destruct (Nat.lt_ge_cases i (length acc)) as [L|L].
      * rewrite nth_error_app1 in Hw by exact L. destruct (H3 i g w Hg Hw) as (p & m' & E & Em' & Lp). exists p, m'. split; [exact E|]. split; [exact Em'|].
        destruct (field_eq_dec g f) as [->|]; lia.
      * rewrite nth_error_app2 in Hw by exact L. destruct (i - length acc)%nat as [|[|]] eqn:Ei; try discriminate. injection Hw as <-.
        assert (g = f) as ->.
        { assert (nth_error snapshot_fields i = Some f) as Q. { rewrite El, nth_error_app2 by lia. replace (i - length l)%nat with 0%nat by lia. reflexivity. }
          unfold snapshot_fields in Q. rewrite nth_error_app1 in Q by (apply nth_error_Some; congruence). congruence. }
        exists k, m. destruct (field_eq_dec f f); [|congruence]. auto.
  - split; [exact H|]. exists []. split; reflexivity.
Qed.

(** ** Panics come with data races only *)
Definition KP (s : kst) : Prop := forall t q, nth_error (k_threads s) t = Some (APanicked q) -> w_races (k_ring s) <> [].

Lemma races_mono b (r : wstate (Z * Z)) a r' : wstep b r a = Some r' -> w_races r <> [] -> w_races r' <> [].
Proof.
  intros E H.
  destruct a as [t op|t fails picks|t|t k]; cbn [wstep] in E.
  1,3,4: split_step E; injection E as <-; exact H.
  destruct (nth_error (w_threads r) t) as [p|]; try discriminate.
  destruct p as [|x|rt x|rt x|c|c h|c h|c h|c|c h| |q]; cbn [wthread_step] in E; try discriminate;
    split_step E; injection E as <-; cbn [race wlog lose goto w_races]; try exact H; intros QQ; apply app_eq_nil in QQ; destruct QQ; contradiction.
Qed.
Lemma fold_panic l : forall mn mx q, fold_minmax l mn mx = Panic q -> In None l.
Proof.
  induction l as [|[[x y]|] l IH]; intros mn mx q H; cbn [fold_minmax] in H; [discriminate| |left; reflexivity]. right. eapply IH; exact H.
Qed.

Definition KS (sz n : nat) (s : kst) : Prop := KN n s /\ RG sz n s /\ KT n s /\ KP s.
Lemma KS_init sz n : (1 <= sz)%nat -> KS sz n (kinit sz n).
Proof.
  intros H. split; [apply KN_init|]. split; [apply RG_init; exact H|]. split.
  - constructor.
    + intros u Hu k Hk. unfold kview_of in Hk. cbn [kinit k_views] in Hk. rewrite nth_repeat in Hk. destruct Hk.
    + intros j V RV HV. destruct j; discriminate.
    + intros t p Hp. apply nth_error_In, repeat_spec in Hp. subst. exact I.
  - intros t q Hp. apply nth_error_In, repeat_spec in Hp. discriminate.
Qed.

Lemma KS_step b sz n s a s' : (1 <= sz)%nat -> Z.of_nat sz < two32 -> (n <= sz)%nat -> fits (k_started s') ->
  KS sz n s -> kstep b s a = Some s' -> KS sz n s'.
Proof.
  intros HS HSB HN HF (KNs & RGs & KTs & KPs) E. pose proof (N_wf _ _ KNs) as HW.
  pose proof (KN_step b n s a s' HF KNs E) as KN'. pose proof (RG_step b sz n s a s' HS HSB HN HF HW RGs E) as RG'.
  split; [exact KN'|]. split; [exact RG'|].
  pose proof (fun u => moved_of b n s a s' u HW E) as MV. pose proof (step_fwd _ _ _ _ _ HW E) as FW.
  pose proof (W_len _ _ HW) as LN. pose proof (W_lenv _ _ HW) as LV. pose proof (W_lenr _ _ HW) as LR. pose proof (W_lenrv _ _ HW) as LRV.
  assert (SN : w_sent (k_ring s') = w_sent (k_ring s) -> length (k_sent s') = length (k_sent s) ->
     forall j V RV, nth_error (k_sent s') j = Some V -> nth_error (w_sent (k_ring s')) j = Some RV ->
     exists V0, nth_error (k_sent s) j = Some V0 /\ nth_error (w_sent (k_ring s)) j = Some RV /\ moved s s' V0 V RV RV /\ refs V = refs V0).
  { intros Q1 Q2 j V RV HV HR. rewrite Q1 in HR. destruct (nth_error (k_sent s) j) as [V0|] eqn:E0.
    - destruct FW as [F1 F2 F3 F4]. destruct (F3 j V0 E0) as (V' & E1 & R1 & K1). rewrite HV in E1. injection E1 as <-.
      exists V0. split; [reflexivity|]. split; [exact HR|]. split; [|exact R1]. constructor; auto.
      + intros f Hf. rewrite K1 by exact Hf. lia.
      + rewrite R1. apply incl_refl.
      + apply vle_refl.
    - apply nth_error_None in E0. assert (j < length (k_sent s'))%nat by (apply nth_error_Some; congruence). lia. }
  assert (NP : forall t p', k_threads s' = upd t p' (k_threads s) -> w_races (k_ring s') = w_races (k_ring s) \/ (w_races (k_ring s) <> [] -> w_races (k_ring s') <> []) ->
            (forall q, p' = APanicked q -> w_races (k_ring s') <> []) -> KP s').
  { intros t p' T R P u q Hu. rewrite T, nth_error_upd in Hu. destruct (Nat.eqb t u).
    - destruct (Nat.ltb t _); [|discriminate]. injection Hu as Hu. apply (P q Hu).
    - pose proof (KPs u q Hu) as K. destruct R as [->|R]; auto. }
  pose proof (ksent_step b s a s' E) as LSENT.
  unfold kstep in E. destruct (kact b s a) as [s1|] eqn:E1; [|discriminate]. injection E as <-.
  destruct a as [t op|t fails picks|t|t k]; cbn [kact kis_send] in *.
  - destruct (nth_error (k_threads s) t) as [p|] eqn:Et; [|discriminate]. destruct p; try discriminate.
    destruct (kcan_start s t op) eqn:Ec; [|discriminate]. injection E1 as <-.
    split; [|eapply NP; [reflexivity|left; reflexivity|]; intros q Q; destruct op; cbn [first_apc] in Q; try discriminate; unfold after_adds in Q; destruct (adds_of _); discriminate].
    eapply (KT_move n s _ t (first_apc op)); [exact KTs|exact MV|reflexivity|apply SN; [reflexivity|lia]|reflexivity|exact LN|].
    intros Ht. destruct op; cbn [first_apc pcq]; try exact I; try (unfold after_adds; destruct (adds_of _); exact I).
    cbn [kcan_start] in Ec. destruct (in_dec Nat.eq_dec k (refs (kview_of s t))); [assumption|discriminate].
  - destruct (nth_error (k_threads s) t) as [p|] eqn:Et; [|discriminate].
    assert (Ht : (t < n)%nat) by (rewrite <- LN; apply nth_error_Some; congruence).
    pose proof (T_pcs _ _ KTs t p Et) as PQ.
    assert (PQ' : pcq (ktick s1) (kview_of (ktick s1) t) (view_of (k_ring (ktick s1)) t) p) by (eapply pcq_moved; [apply MV; exact Ht|exact PQ]).
    apply kstep_shapes in E1.
    (* a plain move *)
    assert (PLAIN : forall p', k_threads s1 = upd t p' (k_threads s) -> w_sent (k_ring s1) = w_sent (k_ring s) ->
       (forall u, (u < n)%nat -> refs (kview_of s1 u) = refs (kview_of s u)) ->
       pcq s1 (kview_of s1 t) (view_of (k_ring s1) t) p' -> KT n (ktick s1)).
    { intros p' T1 T2 T3 T4. eapply (KT_move n s _ t p'); [exact KTs|exact MV|exact T3|apply SN; [exact T2|lia]|exact T1|exact LN|]. intros _. exact T4. }
    assert (REFS : forall f k v rmw u, (u < n)%nat -> refs (kview_of (written s t f k v rmw) u) = refs (kview_of s u)).
    { intros f k v rmw u Hu. rewrite view_written by lia. destruct (Nat.eqb_spec t u) as [<-|]; reflexivity. }
    assert (REFL : forall f k u, refs (kview_of (loaded s t f k) u) = refs (kview_of s u)).
    { intros f k u. unfold loaded. rewrite view_put by lia. destruct (Nat.eqb_spec t u) as [<-|]; reflexivity. }
    assert (RW : forall r fails0 picks0, wstep b (k_ring s) (WStep t fails0 picks0) = Some r -> w_sent r = w_sent (k_ring s)).
    { intros r f0 p0 Er. rewrite (step_sent _ _ _ _ Er). apply app_nil_r. }
    assert (LALL := conj LN (conj LV (conj LR LRV))). clear LN LV LR LRV.
    inversion E1; subst; destruct LALL as (LN & LV & LR & LRV);
      try (split; [eapply PLAIN; [reflexivity|reflexivity|intros; first [reflexivity|apply REFS; assumption|apply REFL]|exact I]|
                   eapply NP; [reflexivity|left; reflexivity|discriminate]]);
      try (split; [eapply PLAIN; [reflexivity|reflexivity|intros; first [reflexivity|apply REFS; assumption|apply REFL]|exact PQ']|
                   eapply NP; [reflexivity|left; reflexivity|discriminate]]).
    + split; [eapply PLAIN; [reflexivity|reflexivity|intros; apply REFS; assumption|destruct l; exact I]|].
      eapply NP; [reflexivity|left; reflexivity|]. intros q Q. destruct l; discriminate.
    + (* load *)
      match goal with L : load_kind _ _ _ |- _ => rename L into LK end. match goal with L : can_load _ _ _ _ _ |- _ => rename L into CL end.
      split.
      * eapply PLAIN; [reflexivity|reflexivity|intros; apply REFL|]. apply (load_pcq s t f k v p next LK CL); [lia|exact PQ].
      * eapply NP; [reflexivity|left; reflexivity|]. intros q Q. destruct LK; discriminate.
    + (* store max: the snapshot starts *)
      split; [|eapply NP; [reflexivity|left; reflexivity|discriminate]].
      eapply PLAIN; [reflexivity|reflexivity|intros; apply REFS; assumption|]. cbn [pcq] in *. split; [exact PQ'|]. split; [exists []; split; reflexivity|].
      intros i f v0 _ Hv. destruct i; discriminate.
    + (* the save point is returned *)
      split; [|eapply NP; [reflexivity|left; reflexivity|discriminate]]. destruct PQ as (Q1 & (l & El & Ll) & Q3). rewrite app_nil_r in El. subst l.
      assert (VW : forall u, kview_of (ktick (kput (kput_sp s t (c, acc)) t AIdle)) u = if Nat.eqb t u then KView (kv (kview_of s t)) (length (k_sps s) :: refs (kview_of s t)) else kview_of s u).
      { intros u. change (kview_of (ktick (kput (kput_sp s t (c, acc)) t AIdle)) u) with (kview_of (kput_sp s t (c, acc)) u). apply view_sp. lia. }
      constructor.
      * intros u Hu k Hk. rewrite VW in Hk. pose proof (MV u Hu) as M.
        assert (In k (refs (kview_of s u)) \/ (u = t /\ k = length (k_sps s))) as [OLD|[-> ->]].
        { destruct (Nat.eqb_spec t u) as [<-|]; [|auto]. cbn [refs] in Hk. destruct Hk as [<-|Hk]; auto. }
        -- eapply sp_moved; [exact M|]. apply (T_views _ _ KTs); assumption.
        -- exists (c, acc). kfld. rewrite nth_error_app2, Nat.sub_diag by lia. split; [reflexivity|]. cbn [snd fst].
           split; [rewrite <- Ll; reflexivity|]. split; [|exact Q1]. eapply ksnap_moved; [exact M|exact Q3].
      * intros j V RV HV HR k Hk. destruct (SN eq_refl ltac:(lia) j V RV HV HR) as (V0 & Z1 & Z2 & M & R). rewrite R in Hk. eapply sp_moved; [exact M|]. eapply (T_sent _ _ KTs); eassumption.
      * intros u p Hp. kfld. rewrite nth_error_upd in Hp. destruct (Nat.eqb_spec t u) as [<-|].
        -- destruct (Nat.ltb t _); [|discriminate]. injection Hp as <-. exact I.
        -- eapply pcq_moved; [apply MV; rewrite <- LN; apply nth_error_Some; congruence|]. apply (T_pcs _ _ KTs). exact Hp.
    + (* ring start *)
      match goal with L : wstep _ _ _ = Some _ |- _ => rename L into Er end.
      assert (TS : upd t p (k_threads s) = k_threads s) by (apply upd_same; exact Et).
      split; [eapply (PLAIN p); [symmetry; exact TS| |reflexivity|exact PQ']|].
      * kfld. rewrite (step_sent _ _ _ _ Er). apply app_nil_r.
      * eapply (NP t p); [symmetry; exact TS|right; intros K; eapply races_mono; [exact Er|exact K]|].
        intros q ->. match goal with L : ring_op _ _ _ |- _ => inversion L end.
    + match goal with L : wstep _ _ _ = Some _ |- _ => rename L into Er end.
      assert (TS : upd t p (k_threads s) = k_threads s) by (apply upd_same; exact Et).
      split; [eapply (PLAIN p); [symmetry; exact TS| |reflexivity|exact PQ']|].
      * eapply RW; exact Er.
      * eapply (NP t p); [symmetry; exact TS|right; intros K; eapply races_mono; [exact Er|exact K]|].
        intros q9 ->. match goal with L : ring_op _ _ _ |- _ => inversion L end.
    + (* ring panic: impossible *)
      exfalso. match goal with L : wstep _ _ _ = Some _ |- _ => rename L into Er end. match goal with L : ring_op _ _ _ |- _ => rename L into RO end.
      match goal with L : nth_error (w_threads (k_ring s)) t = Some q |- _ => rename L into RI end.
      destruct RGs as [G1 G2 G3 G4 G5 G6]. pose proof (G5 _ _ _ Et RI) as PO.
      assert (HB : Z.of_nat (length (w_hist (k_ring s))) < two32).
      { destruct G1 as (_ & cs & HI & HR). pose proof (I_bound sz cs HI) as B. unfold nhist in B. rewrite (R_hist sz _ cs HR) in B. exact B. }
      destruct (panic_step b sz _ t q fails0 picks0 r e HS HSB G1 HB RI Er ltac:(assumption)) as (_ & P1 & P2).
      inversion RO; subst; cbn [pair_ok] in PO.
      * destruct PO as [->|[->|(rt & [->| ->])]]; try congruence; discriminate.
      * destruct PO as [->| ->]; congruence.
      * destruct PO as [->|(sp0 & Es & [->|(h & ->)])]; try congruence.
        -- destruct (wpc_step b _ _ _ _ _ _ RI Er I ltac:(lia)) as (q2 & T2 & (h & ->) & _).
           match goal with L : nth_error (w_threads r) t = Some (Panicked e) |- _ => rewrite T2, nth_error_upd, Nat.eqb_refl in L; destruct (Nat.ltb t _); discriminate end.
        -- destruct (peek_step b sz (k_ring s) t _ h fails0 picks0 r HS HSB ltac:(lia) G1 G2 G4 RI Er) as (e0 & tl & _ & ID & _).
           match goal with L : nth_error (w_threads r) t = Some (Panicked e) |- _ => rewrite ID in L; discriminate end.
    + (* ring ret *)
      match goal with L : wstep _ _ _ = Some _ |- _ => rename L into Er end. match goal with L : ring_op _ _ _ |- _ => rename L into RO end.
      match goal with L : nth_error (w_threads (k_ring s)) t = Some q |- _ => rename L into RI end. match goal with L : ring_ret _ _ _ _ _ |- _ => rename L into RR end.
      destruct (ring_ret_same _ _ _ _ _ RR) as (_ & M2 & M3 & M4 & M5 & _).
      assert (VE : forall u, kview_of s1 u = kview_of s u) by (intros u; unfold kview_of; rewrite M2; reflexivity).
      destruct RGs as [G1 G2 G3 G4 G5 G6]. pose proof (G5 _ _ _ Et RI) as PO. pose proof (RK_pcs _ G4 _ _ RI) as PKQ.
      assert (WS : w_sent (k_ring s1) = w_sent (k_ring s)) by (rewrite M4; eapply RW; exact Er).
      assert (RM : w_races (k_ring s) <> [] -> w_races (k_ring (ktick s1)) <> []).
      { intros K. change (k_ring (ktick s1)) with (k_ring s1). rewrite M4. eapply races_mono; [exact Er|exact K]. }
      assert (VR : view_of (k_ring s1) t = view_of r t) by (rewrite M4; reflexivity).
      inversion RR; subst.
      * split; [eapply PLAIN; [reflexivity|exact WS|intros; apply f_equal, VE|exact I]|]. eapply NP; [reflexivity|right; exact RM|discriminate].
      * (* consumer *)
        split; [|eapply NP; [reflexivity|right; exact RM|discriminate]].
        eapply PLAIN; [reflexivity|exact WS|intros; apply f_equal, VE|]. cbn [pcq]. rewrite VR.
        inversion RO; subst. cbn [pair_ok] in PO. destruct PO as [->| ->]; [congruence|].
        destruct (wpc_step b _ _ _ _ _ _ RI Er I ltac:(lia)) as (q2 & T2 & _ & _ & h0 & EV & SE).
        match goal with L : nth_error (w_events r) _ = Some _ |- _ => rename L into LE end.
        rewrite EV, app_length in LE. cbn [length] in LE. rewrite nth_error_app2 in LE by lia.
        replace (length (w_events (k_ring s)) + 1 - 1 - length (w_events (k_ring s)))%nat with 0%nat in LE by lia. injection LE as <- <-.
        exists (length (w_heads (k_ring s))). split; [reflexivity|exact SE].
      * split; [eapply PLAIN; [reflexivity|exact WS|intros; apply f_equal, VE|exact I]|]. eapply NP; [reflexivity|right; exact RM|discriminate].
      * split; [|eapply NP; [reflexivity|right; exact RM|discriminate]].
        eapply PLAIN; [reflexivity|exact WS|intros; apply f_equal, VE|]. exact PQ'.
      * (* an uninitialised slot *)
        split; [eapply PLAIN; [reflexivity|exact WS|intros; apply f_equal, VE|exact I]|].
        eapply NP; [reflexivity|right; exact RM|]. intros q1 _. change (w_races r <> []).
        inversion RO; subst. cbn [pair_ok] in PO.
        match goal with L : nth_error (w_events r) _ = Some _ |- _ => rename L into LE end.
        match goal with L : fold_minmax _ _ _ = Panic _ |- _ => rename L into FP end.
        destruct PO as [->|(sp0 & Es & [->|(h0 & ->)])]; try congruence.
        -- destruct (wpc_step b _ _ _ _ _ _ RI Er I ltac:(lia)) as (q2 & T2 & (h0 & ->) & _).
           match goal with L : nth_error (w_threads r) t = Some Idle |- _ => rewrite T2, nth_error_upd, Nat.eqb_refl in L; destruct (Nat.ltb t _); discriminate end.
        -- destruct (peek_step b sz (k_ring s) t _ h0 fails0 picks0 r HS HSB ltac:(lia) G1 G2 G4 RI Er) as (e0 & tl0 & EV & _ & _ & _ & OV).
           rewrite EV, app_length in LE. cbn [length] in LE. rewrite nth_error_app2 in LE by lia.
           replace (length (w_events (k_ring s)) + 1 - 1 - length (w_events (k_ring s)))%nat with 0%nat in LE by lia. injection LE as LE. subst e0.
           destruct OV as [[OV _]|(rs0 & l0 & OV & _ & _ & _ & OR)]; [discriminate|]. injection OV as Z1 Z2 Z3 Z4 Z5. rewrite Z5 in FP. apply OR. eapply fold_panic; exact FP.
    + (* delta's next load *)
      destruct PQ as (Q1 & l & El & Ll).
      split; [|eapply NP; [reflexivity|left; reflexivity|discriminate]].
      eapply PLAIN; [reflexivity|reflexivity|intros; apply REFL|]. cbn [pcq]. split.
      * change (In k (refs (kview_of (loaded s t f i) t))). rewrite REFL. exact Q1.
      * exists (l ++ [f]). rewrite <- app_assoc. split; [exact El|]. rewrite !app_length, Ll. reflexivity.
    + (* delta's subtraction underflows: impossible *)
      exfalso. match goal with L : can_load _ _ _ _ _ |- _ => rename L into CL end. match goal with L : usize_sub _ _ _ = Panic _ |- _ => rename L into US end.
      match goal with L : nth_error (k_sps s) _ = Some _ |- _ => rename L into ES end.
      destruct PQ as (Q1 & l & El & Ll). destruct (T_views _ _ KTs t Ht k Q1) as (sp & E0 & L12 & SNP & _). rewrite ES in E0. injection E0 as <-.
      assert (Hf : nth_error counter_fields (length acc) = Some f). { rewrite El, nth_error_app2, Ll, Nat.sub_diag by lia. reflexivity. }
      pose proof (nth_error_In _ _ Hf) as Hin.
      assert (LA : (length acc < 9)%nat) by (change 9%nat with (length counter_fields); apply nth_error_Some; congruence).
      destruct (nth_error (snd x) (length acc)) as [v0|] eqn:Ev0; [|apply nth_error_None in Ev0; lia].
      destruct (SNP _ _ _ Hf Ev0) as (p & m & Em & Vm & Lp). destruct CL as [(m' & Em' & Vm') CL].
      pose proof (N_rise _ _ KNs f Hin p i m m' ltac:(lia) Em Em') as RS.
      assert (UB : f_val m' < two64).
      { destruct (nth_error (k_msgs s f) (length (k_msgs s f) - 1)) as [ml|] eqn:EL.
        - assert (i < length (k_msgs s f))%nat by (apply nth_error_Some; congruence).
          pose proof (N_rise _ _ KNs f Hin i (length (k_msgs s f) - 1)%nat m' ml ltac:(lia) Em' EL) as RS2. pose proof (nth_last_val _ _ _ EL) as VL.
          pose proof (N_val _ _ KNs f Hin) as NV.
          assert (0 <= pend f (k_threads s)).
          { pose proof (pend_ge f _ _ _ (N_pos _ _ KNs) Hin Et) as PG. cbn [pend1] in PG. exact PG. }
          destruct HF as (_ & HF & _). specialize (HF f Hin). kfld. lia.
        - apply nth_error_None in EL. assert (i < length (k_msgs s f))%nat by (apply nth_error_Some; congruence). lia. }
      unfold usize_sub, snap_at in US. erewrite (nth_error_nth (snd x)) in US by exact Ev0.
      rewrite checked_in in US by lia. discriminate.
  - destruct (nth_error (k_threads s) t) as [[]|] eqn:Et; try discriminate. destruct (wstep b (k_ring s) (Send t)) as [r|] eqn:Er; [|discriminate].
    assert (Ht : (t < n)%nat) by (rewrite <- LN; apply nth_error_Some; congruence).
    injection E1 as <-. pose proof (step_sent _ _ _ _ Er) as WS. cbn [wstep] in Er.
    destruct (nth_error (w_threads (k_ring s)) t) as [[]|] eqn:Eq; try discriminate. injection Er as <-. cbn [w_sent] in WS.
    split; [|intros u q Hu; apply (KPs u q Hu)].
    constructor.
    + intros u Hu k Hk. eapply sp_moved; [apply MV; exact Hu|]. apply (T_views _ _ KTs); assumption.
    + intros j V RV HV HR k Hk. kfld. cbn [w_sent] in HR. pose proof (W_lens _ _ HW) as LS.
      destruct (Nat.lt_ge_cases j (length (k_sent s))) as [L|L].
      * rewrite nth_error_app1 in HV by exact L. rewrite nth_error_app1 in HR by lia.
        exact (T_sent _ _ KTs j V RV HV HR k Hk).
      * rewrite nth_error_app2 in HV by exact L. rewrite nth_error_app2 in HR by lia. rewrite LS in HR.
        destruct (j - length (k_sent s))%nat as [|[|]]; try discriminate. injection HV as <-. injection HR as <-.
        exact (T_views _ _ KTs t Ht k Hk).
    + intros u p Hp. eapply pcq_moved; [apply MV; rewrite <- LN; apply nth_error_Some; kfld; congruence|]. apply (T_pcs _ _ KTs). exact Hp.
  - destruct (nth_error (k_threads s) t) as [[]|] eqn:Et; try discriminate. destruct (nth_error (k_sent s) k) as [v|] eqn:Ek; [|discriminate].
    assert (Ht : (t < n)%nat) by (rewrite <- LN; apply nth_error_Some; congruence).
    destruct (wstep b (k_ring s) (Recv t k)) as [r|] eqn:Er; [|discriminate]. injection E1 as <-. cbn [wstep] in Er.
    destruct (nth_error (w_threads (k_ring s)) t) as [[]|] eqn:Eq; try discriminate. destruct (nth_error (w_sent (k_ring s)) k) as [rv|] eqn:Erv; [|discriminate].
    injection Er as <-.
    assert (VW : forall u, kview_of (kput_view (kput_ring s (goto (k_ring s) t Idle (rv ++ view_of (k_ring s) t))) t (kv_join v (kview_of s t))) u =
       if Nat.eqb t u then kv_join v (kview_of s t) else kview_of s u).
    { intros u. change (kview_of (kput_view (kput_ring s (goto (k_ring s) t Idle (rv ++ view_of (k_ring s) t))) t (kv_join v (kview_of s t))) u) with (kview_of (kput_view s t (kv_join v (kview_of s t))) u). apply view_put. lia. }
    assert (VR : view_of (goto (k_ring s) t Idle (rv ++ view_of (k_ring s) t)) t = rv ++ view_of (k_ring s) t).
    { unfold view_of. cbn [goto w_views]. rewrite view_upd, Nat.eqb_refl. rewrite (proj2 (Nat.ltb_lt _ _)) by lia. reflexivity. }
    split; [|intros u q Hu; apply (KPs u q Hu)].
    constructor.
    + intros u Hu j Hj. change (kview_of (ktick ?x) u) with (kview_of x u) in Hj. rewrite VW in Hj.
      destruct (Nat.eqb_spec t u) as [<-|]; [|eapply sp_moved; [apply MV; exact Hu|]; apply (T_views _ _ KTs); assumption].
      cbn [kv_join refs] in Hj. apply in_app_or in Hj. destruct Hj as [Hj|Hj]; [|eapply sp_moved; [apply MV; exact Hu|]; apply (T_views _ _ KTs); assumption].
      eapply (sp_moved s _ v _ rv); [|exact (T_sent _ _ KTs k v rv Ek Erv j Hj)]. constructor.
      * intros f _. exists []. rewrite app_nil_r. reflexivity.
      * exists []. rewrite app_nil_r. reflexivity.
      * intros f _. change (kview_of (ktick ?x) t) with (kview_of x t). rewrite VW, Nat.eqb_refl. cbn [kv_join kv]. lia.
      * change (kview_of (ktick ?x) t) with (kview_of x t). rewrite VW, Nat.eqb_refl. cbn [kv_join refs]. apply incl_appl, incl_refl.
      * kfld. rewrite VR. apply vle_app_l.
    + intros j V RV HV HR i Hi. kfld. cbn [goto w_sent] in HR. exact (T_sent _ _ KTs j V RV HV HR i Hi).
    + intros u p Hp. eapply pcq_moved; [apply MV; rewrite <- LN; apply nth_error_Some; kfld; congruence|]. apply (T_pcs _ _ KTs). exact Hp.
Qed.

Lemma kstarted_prefix b s a s' : kstep b s a = Some s' -> fits (k_started s') -> fits (k_started s).
Proof. intros E H. rewrite (kstarted_step _ _ _ _ E) in H. eapply fits_prefix; exact H. Qed.
Lemma KS_run b sz n sched : (1 <= sz)%nat -> Z.of_nat sz < two32 -> (n <= sz)%nat -> forall s s', KS sz n s ->
  krun b s sched = Some s' -> fits (k_started s') -> KS sz n s'.
Proof.
  intros HS HSB HN. induction sched as [|a sched IH]; intros s s' H; cbn [krun].
  - intros [= <-] _. exact H.
  - destruct (kstep b s a) as [s1|] eqn:E; [|discriminate]. intros R HF. apply (IH s1 s'); [|exact R|exact HF].
    eapply KS_step; [exact HS|exact HSB|exact HN| |exact H|exact E]. rewrite (kstarted_run _ _ _ _ R) in HF. eapply fits_prefix; exact HF.
Qed.
Lemma KS_reach b sz n sched s : (1 <= sz)%nat -> Z.of_nat sz < two32 -> (n <= sz)%nat ->
  krun b (kinit sz n) sched = Some s -> fits (kcalls sched) -> KS sz n s.
Proof.
  intros HS HSB HN R HF. eapply KS_run; [exact HS|exact HSB|exact HN|apply KS_init; exact HS|exact R|].
  rewrite (kstarted_run _ _ _ _ R). exact HF.
Qed.
