(** * delta_statistics under concurrency: no panic, and exactness of a measured region. *)
From Coq Require Import List ZArith Lia Bool Arith.
From Verif Require Import Machine Ring RingSeq RingConc Alloc AllocSpec AllocProofs AllocConc AllocConcSpec AllocConcProofs.
Import ListNotations.
Open Scope Z_scope.

Lemma contrib_nonneg f op : In f counter_fields -> sizes_ok op -> 0 <= contrib f op.
Proof.
  intros Hf Hs. destruct op; cbn [sizes_ok] in Hs;
    repeat (destruct Hf as [<-|Hf]; [cbn; lia|]); destruct Hf.
Qed.

Lemma counter_not_minmax f : In f counter_fields -> f <> FMin /\ f <> FMax /\ f <> FCur.
Proof. intros H. repeat (destruct H as [<-|H]; [repeat split; discriminate|]). destruct H. Qed.

Lemma fits_prefix p q : fits (p ++ q) -> fits p.
Proof.
  intros (H1 & H2 & H3). apply Forall_app in H1. destruct H1 as [H1 H1']. split; [exact H1|]. split.
  - intros f Hf. specialize (H2 f Hf). rewrite total_app in H2.
    assert (0 <= total (contrib f) q); [|lia]. apply total_nonneg. intros op Ho. apply contrib_nonneg; [exact Hf|].
    rewrite Forall_forall in H1'. auto.
  - rewrite saves_app in H3. pose proof (saves_nonneg q). lia.
Qed.

(** ** Invariant *)
Definition pos_pc (p : apc) : Prop :=
  match p with AAdds l => forall f n, In (f, n) l -> In f counter_fields -> 0 <= n | _ => True end.
Definition enq_pend (p : apc) : Z := match p with SLoadMin | SLoadMax _ | SEnq _ _ => 1 | _ => 0 end.
Definition snap_ok (m : mem) (acc : list Z) : Prop :=
  forall i f v, nth_error counter_fields i = Some f -> nth_error acc i = Some v -> 0 <= v <= m f.
Definition pc_ok (hl : nat) (m : mem) (sps : list (Z * list Z)) (p : apc) : Prop :=
  match p with
  | SLoadCur1 h | SStoreMin h _ | SLoadCur2 h | SStoreMax h _ => exists k, h = Z.of_nat k /\ (k <= hl)%nat
  | SSnap h todo acc =>
      (exists k, h = Z.of_nat k /\ (k <= hl)%nat) /\
      (exists l, snapshot_fields = l ++ todo /\ length l = length acc) /\ snap_ok m acc
  | DPeek k | DMin k _ _ | DMax k _ _ => (k < length sps)%nat
  | DLoads k _ _ todo acc => (k < length sps)%nat /\ exists l, counter_fields = l ++ todo /\ length l = length acc
  | APanicked _ => False
  | _ => True
  end.
Definition sp_fine (hl : nat) (m : mem) (sp : Z * list Z) : Prop :=
  (exists k, fst sp = Z.of_nat k /\ (k <= hl)%nat) /\ length (snd sp) = 12%nat /\ snap_ok m (snd sp).

Definition dinv (sz : nat) (s : acst) : Prop :=
  exists hist,
  ring_inv sz hist (a_ring s) /\
  Z.of_nat (length hist) + sum (map enq_pend (a_threads s)) = saves (a_started s) /\
  (forall f, In f counter_fields -> 0 <= a_mem s f /\ a_mem s f + pend f (a_threads s) = total (contrib f) (a_started s)) /\
  Forall pos_pc (a_threads s) /\ Forall wf_pc (a_threads s) /\
  Forall (pc_ok (length hist) (a_mem s) (a_sps s)) (a_threads s) /\
  Forall (sp_fine (length hist) (a_mem s)) (a_sps s).

Lemma sum_for_nonneg f l : (forall g n, In (g, n) l -> In g counter_fields -> 0 <= n) -> In f counter_fields -> 0 <= sum_for f l.
Proof.
  intros H Hf. unfold sum_for, sum. induction l as [|[g n] l IH]; cbn [map fst snd fold_right]; [lia|].
  assert (0 <= fold_right Z.add 0 (map (fun p => if field_eq_dec (fst p) f then snd p else 0) l)).
  { apply IH. intros g' n' Hin. apply H. right. exact Hin. }
  destruct (field_eq_dec g f) as [->|]; [|lia]. pose proof (H f n (or_introl eq_refl) Hf). lia.
Qed.
Lemma pend1_nonneg f p : pos_pc p -> In f counter_fields -> 0 <= pend1 f p.
Proof. destruct p; cbn [pos_pc pend1]; try lia. intros H Hf. apply sum_for_nonneg; assumption. Qed.
Lemma pend_ge f ts t p : Forall pos_pc ts -> In f counter_fields -> nth_error ts t = Some p -> pend1 f p <= pend f ts.
Proof.
  intros HP Hf. revert t. unfold pend, sum. induction HP as [|q ts Hq HP IH]; intros [|t] E; cbn [nth_error] in E; try discriminate.
  - injection E as ->. cbn [map fold_right]. assert (0 <= fold_right Z.add 0 (map (pend1 f) ts)); [|lia].
    clear - HP Hf. induction HP; cbn [map fold_right]; [lia|]. pose proof (pend1_nonneg f x H Hf). lia.
  - cbn [map fold_right]. pose proof (pend1_nonneg f q Hq Hf). specialize (IH t E). lia.
Qed.
Lemma enq_ge ts t p : nth_error ts t = Some p -> enq_pend p <= sum (map enq_pend ts).
Proof.
  assert (forall l, 0 <= sum (map enq_pend l)) as HN.
  { intros l. unfold sum. induction l as [|q l IH]; cbn [map fold_right]; [lia|]. destruct q; cbn [enq_pend]; lia. }
  revert t. induction ts as [|q ts IH]; intros [|t] E; cbn [nth_error] in E; try discriminate; unfold sum in *; cbn [map fold_right].
  - injection E as ->. pose proof (HN ts). unfold sum in *. lia.
  - specialize (IH t E). destruct q; cbn [enq_pend]; lia.
Qed.

Lemma snap_ok_mono m m' acc : (forall f, In f counter_fields -> m f <= m' f) -> snap_ok m acc -> snap_ok m' acc.
Proof.
  intros H HS i f v E1 E2. specialize (HS i f v E1 E2). specialize (H f (nth_error_In _ _ E1)). lia.
Qed.
Lemma pc_ok_mono hl hl' m m' sps sps' p : (hl <= hl')%nat -> (length sps <= length sps')%nat ->
  (forall f, In f counter_fields -> m f <= m' f) -> pc_ok hl m sps p -> pc_ok hl' m' sps' p.
Proof.
  intros H1 H2 H3 H. destruct p; cbn [pc_ok] in *; auto; try lia; try (destruct H as (k0 & -> & Hk); exists k0; split; [reflexivity|lia]).
  - destruct H as ((k0 & -> & Hk) & HL & HS). split; [exists k0; split; [reflexivity|lia]|]. split; [exact HL|].
    eapply snap_ok_mono; eassumption.
  - destruct H as [H HL]. split; [lia|exact HL].
Qed.
Lemma sp_fine_mono hl hl' m m' sp : (hl <= hl')%nat -> (forall f, In f counter_fields -> m f <= m' f) ->
  sp_fine hl m sp -> sp_fine hl' m' sp.
Proof.
  intros H1 H2 ((k & E & Hk) & HL & HS). split; [exists k; split; [exact E|lia]|]. split; [exact HL|]. eapply snap_ok_mono; eassumption.
Qed.

Lemma dinv_init sz n : dinv sz (acinit sz n).
Proof.
  exists []. cbn [acinit a_ring a_threads a_started a_mem a_sps].
  assert (forall g : apc -> Z, g AIdle = 0 -> sum (map g (repeat AIdle n)) = 0) as HZ.
  { intros g Hg. unfold sum. induction n; cbn [repeat map fold_right]; [reflexivity|]. lia. }
  split; [apply ring_inv_init|]. split; [rewrite HZ; reflexivity|]. split.
  - intros f Hf. split; [lia|]. unfold pend. rewrite HZ; reflexivity.
  - repeat split; try (apply Forall_forall; intros p Hp; apply repeat_spec in Hp; subst; exact I). constructor.
Qed.

Lemma dinv_start b sz s t op s' : fits (a_started s ++ [op]) -> dinv sz s -> acstep b s (AStart t op) = Some s' -> dinv sz s'.
Proof.
  intros HF (hist & HR & HE & HC & HP & HW & HK & HS) E. cbn [acstep] in E.
  destruct (nth_error (a_threads s) t) as [p|] eqn:Et; [|discriminate]. destruct p; try discriminate.
  destruct (can_start s op) eqn:Ec; [|discriminate]. injection E as <-. exists hist. fld.
  assert (sizes_ok op) as Hop. { destruct HF as [HF _]. apply Forall_app in HF. destruct HF as [_ HF]. inversion HF; assumption. }
  split; [exact HR|]. split.
  { rewrite (sum_upd enq_pend _ t AIdle) by exact Et. rewrite saves_snoc. cbn [enq_pend].
    assert (enq_pend (first_apc op) = is_save op) as ->; [|lia].
    destruct op; cbn [first_apc is_save]; try reflexivity; destruct (adds_of _); reflexivity. }
  split.
  { intros f Hf. destruct (HC f Hf) as [H1 H2]. split; [exact H1|].
    rewrite (pend_upd f _ t AIdle) by exact Et. rewrite total_snoc. destruct (counter_not_minmax f Hf) as (N1 & N2 & _).
    rewrite pend1_first by assumption. cbn [pend1]. lia. }
  split.
  { apply Forall_upd; [exact HP|]. 
    assert (forall f n, In (f, n) (adds_of op) -> In f counter_fields -> 0 <= n) as HA.
    { intros f n Hin Hf. destruct (counter_not_minmax f Hf) as (_ & _ & N).
      destruct op as [a ok|a|a ok|o a ok| |k]; cbn [adds_of sizes_ok] in *;
        try (repeat (destruct Hin as [Hin|Hin]; [injection Hin as <- <-; try congruence; lia|]); destruct Hin; fail).
      destruct (a >? o); [|destruct (a <? o)]; cbn [app] in Hin;
        repeat (destruct Hin as [Hin|Hin]; [injection Hin as <- <-; try congruence; lia|]); destruct Hin. }
    destruct op; cbn [first_apc]; try exact I; unfold after_adds; destruct (adds_of _); cbn [pos_pc]; auto. }
  split; [apply Forall_upd; [exact HW|apply wf_first]|].
  split; [|exact HS]. apply Forall_upd; [exact HK|].
  destruct op; cbn [first_apc pc_ok]; try exact I; try (unfold after_adds; destruct (adds_of _); exact I).
  cbn [can_start] in Ec. apply Nat.ltb_lt in Ec. exact Ec.
Qed.

Lemma dinv_put sz s t p p' : dinv sz s -> nth_error (a_threads s) t = Some p ->
  enq_pend p' = enq_pend p -> (forall f, pend1 f p' = pend1 f p) -> pos_pc p' -> wf_pc p' ->
  (forall hl, ring_inv sz hl (a_ring s) -> pc_ok (length hl) (a_mem s) (a_sps s) p') -> dinv sz (put s t p').
Proof.
  intros (hist & HR & HE & HC & HP & HW & HK & HS) Et E1 E2 P W K. exists hist. fld.
  split; [exact HR|]. split; [rewrite (sum_upd enq_pend _ t p) by exact Et; lia|].
  split. { intros f Hf. rewrite (pend_upd f _ t p) by exact Et. rewrite E2. destruct (HC f Hf). split; lia. }
  split; [apply Forall_upd; assumption|]. split; [apply Forall_upd; assumption|]. split; [|exact HS].
  apply Forall_upd; [exact HK|]. apply K. exact HR.
Qed.

Lemma dinv_put_mem sz s t p p' m : dinv sz s -> nth_error (a_threads s) t = Some p ->
  enq_pend p' = enq_pend p -> (forall f, In f counter_fields -> m f = a_mem s f) ->
  (forall f, pend1 f p' = pend1 f p) -> pos_pc p' -> wf_pc p' ->
  (forall hl, ring_inv sz hl (a_ring s) -> pc_ok (length hl) (a_mem s) (a_sps s) p') -> dinv sz (put (put_mem s m) t p').
Proof.
  intros (hist & HR & HE & HC & HP & HW & HK & HS) Et E1 Em E2 P W K. exists hist. fld.
  assert (forall f, In f counter_fields -> a_mem s f <= m f) as Hle by (intros f Hf; rewrite (Em f Hf); lia).
  split; [exact HR|]. split; [rewrite (sum_upd enq_pend _ t p) by exact Et; lia|].
  split. { intros f Hf. rewrite (pend_upd f _ t p) by exact Et. rewrite E2, (Em f Hf). destruct (HC f Hf). split; lia. }
  split; [apply Forall_upd; assumption|]. split; [apply Forall_upd; assumption|]. split.
  - apply Forall_upd.
    + eapply Forall_impl; [|exact HK]. intros q. apply pc_ok_mono; auto.
    + eapply pc_ok_mono; [| | |apply K; exact HR]; auto.
  - eapply Forall_impl; [|exact HS]. intros q. apply sp_fine_mono; auto.
Qed.

Lemma ring_len_unique {X} sz (h1 h2 : list X) r : ring_inv sz h1 r -> ring_inv sz h2 r -> length h1 = length h2.
Proof. intros (H1 & _) (H2 & _). lia. Qed.

Lemma dinv_step b sz s a s' : (1 <= sz)%nat -> Z.of_nat sz < two32 ->
  fits (a_started s') -> dinv sz s -> acstep b s a = Some s' -> dinv sz s'.
Proof.
  intros Hsz HszB HF HD E. destruct a as [t op|t sp].
  { pose proof (started_step _ _ _ _ E) as Es. rewrite Es in HF. eapply dinv_start; eassumption. }
  pose proof (started_step _ _ _ _ E) as Es. cbn [calls flat_map] in Es. rewrite app_nil_r in Es. rewrite Es in HF.
  cbn [acstep] in E. destruct (nth_error (a_threads s) t) as [p|] eqn:Et; [|discriminate].
  pose proof HD as (hist & HR & HE & HC & HP & HW & HK & HS).
  apply step_shapes in E. pose proof (Forall_nth _ _ _ _ HK Et) as Hk. pose proof (Forall_nth _ _ _ _ HW Et) as Hw.
  pose proof (Forall_nth _ _ _ _ HP Et) as Hp.
  assert (forall (h : Z) h2, (exists k, h = Z.of_nat k /\ (k <= length hist)%nat) -> ring_inv sz h2 (a_ring s) ->
            exists k, h = Z.of_nat k /\ (k <= length h2)%nat) as HH.
  { intros h h2 H H2. rewrite (ring_len_unique _ _ _ _ H2 HR). exact H. }
  assert (Z.of_nat (length hist) <= saves (a_started s)) as Hlen.
  { assert (0 <= sum (map enq_pend (a_threads s))); [|lia]. clear. unfold sum. induction (a_threads s) as [|q l IH]; cbn [map fold_right]; [lia|].
    destruct q; cbn [enq_pend]; lia. }
  assert (saves (a_started s) < two32) as Hsv by apply HF.
  inversion E; subst; cbn [pc_ok wf_pc pos_pc] in *; clear E.
  - apply (dinv_put _ _ _ (AAdds [])); auto; try exact I; intros; exact I.
  - (* addition *)
    apply cur_last_tl in Hw. destruct Hw as (W & F1 & F2 & F3).
    assert (forall g, In g counter_fields -> a_mem s g <= set (a_mem s) f (wrap64 (a_mem s f + n)) g /\
              set (a_mem s) f (wrap64 (a_mem s f + n)) g + pend g (upd t (after_adds l) (a_threads s)) = total (contrib g) (a_started s)) as Hstep.
    { intros g Hg. destruct (HC g Hg) as [C1 C2]. rewrite (pend_upd g _ t _ _ Et), pend1_after. cbn [pend1].
      destruct (field_eq_dec g f) as [->|Hne].
      - rewrite set_same. pose proof (pend_ge f _ _ _ HP Hg Et) as HG. cbn [pend1] in HG.
        assert (sum_for f ((f, n) :: l) = n + sum_for f l) as ES.
        { unfold sum_for, sum. cbn [map fst snd fold_right]. destruct (field_eq_dec f f); [reflexivity|congruence]. }
        rewrite ES in *. pose proof (Hp f n (or_introl eq_refl) Hg) as Hn.
        assert (0 <= sum_for f l) as Hsl by (apply sum_for_nonneg; [intros g' n' Hin; apply Hp; right; exact Hin|exact Hg]).
        destruct HF as (_ & HF & _). specialize (HF f Hg).
        rewrite wrap64_in by lia. split; lia.
      - rewrite set_other by exact Hne.
        assert (sum_for g ((f, n) :: l) = sum_for g l) as ->.
        { unfold sum_for, sum. cbn [map fst snd fold_right]. destruct (field_eq_dec f g); [congruence|lia]. }
        split; lia. }
    exists hist. fld.
    split; [exact HR|]. split.
    { rewrite (sum_upd enq_pend _ t _ _ Et). cbn [enq_pend]. assert (enq_pend (after_adds l) = 0) as -> by (destruct l; reflexivity). lia. }
    split. { intros g Hg. destruct (HC g Hg). destruct (Hstep g Hg). split; [lia|assumption]. }
    split. { apply Forall_upd; [exact HP|]. destruct l; [exact I|]. cbn [after_adds pos_pc]. intros g n' Hin. apply Hp. right. exact Hin. }
    split; [apply Forall_upd; [exact HW|apply wf_after; exact W]|].
    assert (forall g, In g counter_fields -> a_mem s g <= set (a_mem s) f (wrap64 (a_mem s f + n)) g) as Hle by (intros g Hg; apply Hstep; exact Hg).
    split.
    + apply Forall_upd; [|destruct l; exact I]. eapply Forall_impl; [|exact HK]. intros q. apply pc_ok_mono; auto.
    + eapply Forall_impl; [|exact HS]. intros q. apply sp_fine_mono; auto.
  - apply (dinv_put _ _ _ ALoadCur); auto; try exact I; intros; exact I.
  - apply (dinv_put _ _ _ (ALoadMin c)); auto; try exact I; intros; exact I.
  - apply (dinv_put _ _ _ (AMin c mn)); auto; try exact I; intros; exact I.
  - apply (dinv_put_mem _ _ _ (AMin c (a_mem s FMin))); auto; try exact I; try (intros; exact I).
    intros f Hf. apply set_other. apply counter_not_minmax. exact Hf.
  - apply (dinv_put _ _ _ (AMin c mn)); auto; try exact I; intros; exact I.
  - apply (dinv_put _ _ _ (ALoadMax c)); auto; try exact I; intros; exact I.
  - apply (dinv_put _ _ _ (AMax c mx)); auto; try exact I; intros; exact I.
  - apply (dinv_put_mem _ _ _ (AMax c (a_mem s FMax))); auto; try exact I; try (intros; exact I).
    intros f Hf. apply set_other. apply counter_not_minmax. exact Hf.
  - apply (dinv_put _ _ _ (AMax c mx)); auto; try exact I; intros; exact I.
  - apply (dinv_put _ _ _ SLoadMin); auto; try exact I; intros; exact I.
  - apply (dinv_put _ _ _ (SLoadMax mn)); auto; try exact I; intros; exact I.
  - (* enqueue *)
    pose proof (enq_ge _ _ _ Et) as HG. cbn [enq_pend] in HG.
    destruct (enqueue_ok b sz hist _ (mn, mx) ltac:(lia) HR ltac:(lia)) as (r' & Er & HR'). rewrite H in Er. injection Er as <-.
    exists (hist ++ [(mn, mx)]). fld. rewrite app_length. cbn [length].
    split; [exact HR'|]. split; [rewrite (sum_upd enq_pend _ t _ _ Et); cbn [enq_pend]; lia|].
    split. { intros f Hf. rewrite (pend_upd f _ t _ _ Et). cbn [pend1]. destruct (HC f Hf). split; lia. }
    split; [apply Forall_upd; auto; exact I|]. split; [apply Forall_upd; auto; exact I|]. split.
    + apply Forall_upd; [|exact I]. eapply Forall_impl; [|exact HK]. intros q. apply pc_ok_mono; auto; try lia; intros; lia.
    + eapply Forall_impl; [|exact HS]. intros q. apply sp_fine_mono; try lia; intros; lia.
  - exfalso. pose proof (enq_ge _ _ _ Et) as HG. cbn [enq_pend] in HG.
    destruct (enqueue_ok b sz hist _ (mn, mx) ltac:(lia) HR ltac:(lia)) as (r' & Er & HR'). congruence.
  - apply (dinv_put _ _ _ SConsumer); auto; try exact I. intros hl Hl. cbn [pc_ok]. exists (length hl). split; [|lia].
    destruct Hl as (_ & Hl & _). exact Hl.
  - apply (dinv_put _ _ _ (SLoadCur1 h)); auto; try exact I; intros; cbn [pc_ok]; auto.
  - apply (dinv_put_mem _ _ _ (SStoreMin h v)); auto; try exact I; try (intros; cbn [pc_ok]; auto; fail).
    intros f Hf. apply set_other. apply counter_not_minmax. exact Hf.
  - apply (dinv_put _ _ _ (SLoadCur2 h)); auto; try exact I; intros; cbn [pc_ok]; auto.
  - apply (dinv_put_mem _ _ _ (SStoreMax h v)); auto; try exact I.
    + intros f Hf. apply set_other. apply counter_not_minmax. exact Hf.
    + intros hl Hl. cbn [pc_ok]. split; [apply HH; assumption|]. split; [exists []; split; reflexivity|].
      intros i f w _ Hi. destruct i; discriminate.
  - (* end of the snapshot *)
    destruct Hk as (Hh & (l0 & El & Ell) & Hsn). rewrite app_nil_r in El. exists hist. fld.
    split; [exact HR|]. split; [rewrite (sum_upd enq_pend _ t _ _ Et); cbn [enq_pend]; lia|].
    split. { intros f Hf. rewrite (pend_upd f _ t _ _ Et). cbn [pend1]. destruct (HC f Hf). split; lia. }
    split; [apply Forall_upd; auto; exact I|]. split; [apply Forall_upd; auto; exact I|]. split.
    + apply Forall_upd; [|exact I]. eapply Forall_impl; [|exact HK]. intros q. apply pc_ok_mono; [lia|rewrite app_length; lia|intros; lia].
    + apply Forall_app. split; [exact HS|]. constructor; [|constructor]. split; [exact Hh|]. split; [|exact Hsn].
      cbn [snd]. rewrite <- Ell, <- El. reflexivity.
  - (* one load of the snapshot *)
    destruct Hk as (Hh & (l0 & El & Ell) & Hsn).
    apply (dinv_put _ _ _ (SSnap h (f :: todo) acc)); auto; try exact I.
    intros hl Hl. cbn [pc_ok]. split; [apply HH; assumption|]. split.
    + exists (l0 ++ [f]). split; [rewrite El, <- app_assoc; reflexivity|]. rewrite !app_length. cbn [length]. lia.
    + intros i g v Hg Hv. destruct (Nat.lt_ge_cases i (length acc)) as [Hi|Hi].
      * rewrite nth_error_app1 in Hv by exact Hi. eapply Hsn; eassumption.
      * assert (i = length acc) as -> .
        { assert (i < length (acc ++ [a_mem s f]))%nat as L by (apply nth_error_Some; congruence). rewrite app_length in L. cbn [length] in L. lia. }
        rewrite nth_error_app2 in Hv by lia. rewrite Nat.sub_diag in Hv. injection Hv as <-.
        assert (nth_error snapshot_fields (length acc) = Some g) as Hg'.
        { unfold snapshot_fields. rewrite nth_error_app1; [exact Hg|]. apply nth_error_Some. congruence. }
        rewrite El, <- Ell, nth_error_app2, Nat.sub_diag in Hg' by lia. injection Hg' as ->.
        pose proof (HC g (nth_error_In _ _ Hg)). lia.
  - exists hist. fld.
    split; [exact HR|]. split; [rewrite (sum_upd enq_pend _ t _ _ Et); cbn [enq_pend]; lia|].
    split. { intros f Hf. rewrite (pend_upd f _ t _ _ Et). cbn [pend1]. destruct (HC f Hf). split; lia. }
    split; [apply Forall_upd; auto; exact I|]. split; [apply Forall_upd; auto; exact I|]. split; [apply Forall_upd; auto; exact I|exact HS].
  - apply (dinv_put _ _ _ (DPeek k)); auto; try exact I; intros; cbn [pc_ok]; auto.
  - exfalso. pose proof (Forall_nth _ _ _ _ HS H) as ((h & Eh & Hh) & _). rewrite Eh in H0.
    destruct (peek_ok b sz hist _ h ltac:(lia) HszB HR ltac:(lia) Hh) as (u1 & u2 & Ep & Es').
    rewrite H0 in Ep. injection Ep as Ep. destruct (Nat.ltb_spec sz (length (skipn h hist))); [discriminate|]. injection Ep as -> ->.
    rewrite (Es' ltac:(lia)), fold_minmax_some in H1. discriminate.
  - exfalso. pose proof (Forall_nth _ _ _ _ HS H) as ((h & Eh & Hh) & _). rewrite Eh in H0.
    destruct (peek_ok b sz hist _ h ltac:(lia) HszB HR ltac:(lia) Hh) as (u1 & u2 & Ep & Es'). congruence.
  - apply (dinv_put _ _ _ (DMin k mn mx)); auto; try exact I; intros; cbn [pc_ok]; auto.
  - apply (dinv_put _ _ _ (DMax k mn mx)); auto; try exact I. intros; cbn [pc_ok]. split; [auto|]. exists []. split; reflexivity.
  - exists hist. fld.
    split; [exact HR|]. split; [rewrite (sum_upd enq_pend _ t _ _ Et); cbn [enq_pend]; lia|].
    split. { intros f Hf. rewrite (pend_upd f _ t _ _ Et). cbn [pend1]. destruct (HC f Hf). split; lia. }
    split; [apply Forall_upd; auto; exact I|]. split; [apply Forall_upd; auto; exact I|]. split; [apply Forall_upd; auto; exact I|exact HS].
  - destruct Hk as [Hk (l0 & El & Ell)].
    apply (dinv_put _ _ _ (DLoads k mn mx (f :: todo) acc)); auto; try exact I. intros; cbn [pc_ok]. split; [exact Hk|].
    exists (l0 ++ [f]). split; [rewrite El, <- app_assoc; reflexivity|]. rewrite !app_length. cbn [length]. lia.
  - exfalso. destruct Hk as [Hk (l0 & El & Ell)].
    pose proof (Forall_nth _ _ _ _ HS H) as (_ & HL & Hsn).
    assert (nth_error counter_fields (length acc) = Some f) as Hf.
    { rewrite El, <- Ell, nth_error_app2, Nat.sub_diag by lia. reflexivity. }
    assert (exists v, nth_error (snd x) (length acc) = Some v) as [v Hv].
    { destruct (nth_error (snd x) (length acc)) eqn:En; [eexists; reflexivity|]. apply nth_error_None in En.
      assert (length acc < length counter_fields)%nat by (apply nth_error_Some; congruence). cbn in *. lia. }
    pose proof (Hsn _ _ _ Hf Hv) as Hb. unfold snap_at in H0. rewrite (nth_error_nth _ _ _ Hv) in H0.
    pose proof (HC f (nth_error_In _ _ Hf)) as [C1 C2]. destruct HF as (_ & HF & _). specialize (HF f (nth_error_In _ _ Hf)).
    assert (0 <= pend f (a_threads s)) as HP0.
    { clear - HP Hf. apply nth_error_In in Hf. unfold pend, sum. induction HP as [|q l Hq HP IH]; cbn [map fold_right]; [lia|].
      pose proof (pend1_nonneg f q Hq Hf). lia. }
    unfold usize_sub in H0. rewrite checked_in in H0 by lia. discriminate.
Qed.

Lemma dinv_run b sz n sched : (1 <= sz)%nat -> Z.of_nat sz < two32 -> forall s,
  acrun b (acinit sz n) sched = Some s -> fits (calls sched) -> dinv sz s.
Proof.
  intros Hsz HszB. induction sched as [|a sched IH] using rev_ind; intros s R HF.
  - injection R as <-. apply dinv_init.
  - pose proof (started_run _ _ _ _ R) as Es. apply acrun_snoc in R as (s1 & R1 & R2).
    eapply dinv_step; [exact Hsz|exact HszB| | |exact R2].
    + rewrite Es. exact HF.
    + apply IH; [exact R1|]. rewrite calls_app in HF. eapply fits_prefix; exact HF.
Qed.

Lemma no_concurrent_panic b sz n sched s : (1 <= sz)%nat -> Z.of_nat sz < two32 ->
  acrun b (acinit sz n) sched = Some s -> fits (calls sched) ->
  forall t q, nth_error (a_threads s) t <> Some (APanicked q).
Proof.
  intros Hsz HszB R HF t q E. destruct (dinv_run b sz n sched Hsz HszB s R HF) as (hist & _ & _ & _ & _ & _ & HK & _).
  exact (Forall_nth _ _ _ _ HK E).
Qed.
