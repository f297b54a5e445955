(** * Proofs about the concurrent allocator counters (model: AllocConc.v). *)
From Coq Require Import List ZArith Lia Bool Arith.
From Verif Require Import Machine Ring RingSeq RingConc Alloc AllocSpec AllocProofs AllocConc AllocConcSpec.
Import ListNotations.
Open Scope Z_scope.

(** ** Runs *)
Lemma acrun_app b s p q : acrun b s (p ++ q) = match acrun b s p with Some s1 => acrun b s1 q | None => None end.
Proof. revert s; induction p as [|a p IH]; intros s; cbn [app acrun]; [reflexivity|]. destruct (acstep b s a); auto. Qed.

Lemma acrun_snoc b s p a s' : acrun b s (p ++ [a]) = Some s' ->
  exists s1, acrun b s p = Some s1 /\ acstep b s1 a = Some s'.
Proof.
  rewrite acrun_app. destruct (acrun b s p) as [s1|]; [|discriminate]. cbn [acrun].
  destruct (acstep b s1 a) eqn:E; [|discriminate]. intros [= <-]. exists s1. auto.
Qed.

Lemma set_same m f v : set m f v f = v.
Proof. unfold set. destruct (field_eq_dec f f); congruence. Qed.
Lemma set_other m f v g : g <> f -> set m f v g = m g.
Proof. unfold set. destruct (field_eq_dec g f); congruence. Qed.

Ltac fld := cbn [put put_mem put_ring put_sp put_delta put_started a_mem a_ring a_threads a_sps a_deltas a_started a_past].

(** ** All the shapes of a step *)
Inductive step_shape (b : build) (s : acst) (t : nat) : apc -> bool -> acst -> Prop :=
| sh_adds_nil sp : step_shape b s t (AAdds []) sp (put s t ALoadCur)
| sh_adds f n l sp : step_shape b s t (AAdds ((f, n) :: l)) sp
    (put (put_mem s (set (a_mem s) f (wrap64 (a_mem s f + n)))) t (after_adds l))
| sh_loadcur sp : step_shape b s t ALoadCur sp (put s t (ALoadMin (a_mem s FCur)))
| sh_loadmin c sp : step_shape b s t (ALoadMin c) sp (put s t (AMin c (a_mem s FMin)))
| sh_min_retry c mn sp : c < mn -> step_shape b s t (AMin c mn) sp (put s t (AMin c (a_mem s FMin)))
| sh_min_set c mn sp : c < mn -> a_mem s FMin = mn ->
    step_shape b s t (AMin c mn) sp (put (put_mem s (set (a_mem s) FMin c)) t (ALoadMax c))
| sh_min_skip c mn sp : mn <= c -> step_shape b s t (AMin c mn) sp (put s t (ALoadMax c))
| sh_loadmax c sp : step_shape b s t (ALoadMax c) sp (put s t (AMax c (a_mem s FMax)))
| sh_max_retry c mx sp : mx < c -> step_shape b s t (AMax c mx) sp (put s t (AMax c (a_mem s FMax)))
| sh_max_set c mx sp : mx < c -> a_mem s FMax = mx ->
    step_shape b s t (AMax c mx) sp (put (put_mem s (set (a_mem s) FMax c)) t AIdle)
| sh_max_skip c mx sp : c <= mx -> step_shape b s t (AMax c mx) sp (put s t AIdle)
| sh_s1 sp : step_shape b s t SLoadMin sp (put s t (SLoadMax (a_mem s FMin)))
| sh_s2 mn sp : step_shape b s t (SLoadMax mn) sp (put s t (SEnq mn (a_mem s FMax)))
| sh_enq mn mx r sp : enqueue b (a_ring s) (mn, mx) = Val r ->
    step_shape b s t (SEnq mn mx) sp (put (put_ring s r) t SConsumer)
| sh_enq_panic mn mx q sp : enqueue b (a_ring s) (mn, mx) = Panic q ->
    step_shape b s t (SEnq mn mx) sp (put s t (APanicked q))
| sh_cons sp : step_shape b s t SConsumer sp (put s t (SLoadCur1 (consumer (a_ring s))))
| sh_s3 h sp : step_shape b s t (SLoadCur1 h) sp (put s t (SStoreMin h (a_mem s FCur)))
| sh_s4 h v sp : step_shape b s t (SStoreMin h v) sp (put (put_mem s (set (a_mem s) FMin v)) t (SLoadCur2 h))
| sh_s5 h sp : step_shape b s t (SLoadCur2 h) sp (put s t (SStoreMax h (a_mem s FCur)))
| sh_s6 h v sp : step_shape b s t (SStoreMax h v) sp
    (put (put_mem s (set (a_mem s) FMax v)) t (SSnap h snapshot_fields []))
| sh_snap_nil h acc sp : step_shape b s t (SSnap h [] acc) sp (put (put_sp s (h, acc)) t AIdle)
| sh_snap h f todo acc sp : step_shape b s t (SSnap h (f :: todo) acc) sp (put s t (SSnap h todo (acc ++ [a_mem s f])))
| sh_peek_none k x sp : nth_error (a_sps s) k = Some x -> peek_all b (a_ring s) (fst x) = Val None ->
    step_shape b s t (DPeek k) sp (put (put_delta s (k, None)) t AIdle)
| sh_peek k x s1 s2 mn mx sp : nth_error (a_sps s) k = Some x -> peek_all b (a_ring s) (fst x) = Val (Some (s1, s2)) ->
    fold_minmax (s1 ++ s2) (two64 - 1) 0 = Val (mn, mx) -> step_shape b s t (DPeek k) sp (put s t (DMin k mn mx))
| sh_peek_panic1 k x s1 s2 q sp : nth_error (a_sps s) k = Some x -> peek_all b (a_ring s) (fst x) = Val (Some (s1, s2)) ->
    fold_minmax (s1 ++ s2) (two64 - 1) 0 = Panic q -> step_shape b s t (DPeek k) sp (put s t (APanicked q))
| sh_peek_panic2 k x q sp : nth_error (a_sps s) k = Some x -> peek_all b (a_ring s) (fst x) = Panic q ->
    step_shape b s t (DPeek k) sp (put s t (APanicked q))
| sh_dmin k mn mx sp : step_shape b s t (DMin k mn mx) sp (put s t (DMax k (Z.min mn (a_mem s FMin)) mx))
| sh_dmax k mn mx sp : step_shape b s t (DMax k mn mx) sp
    (put s t (DLoads k mn (Z.max mx (a_mem s FMax)) counter_fields []))
| sh_dnil k mn mx acc sp : step_shape b s t (DLoads k mn mx [] acc) sp
    (put (put_delta s (k, Some (acc ++ [a_mem s FCur; mn; mx]))) t AIdle)
| sh_dload k mn mx f todo acc x d sp : nth_error (a_sps s) k = Some x ->
    usize_sub b (a_mem s f) (snap_at x (length acc)) = Val d ->
    step_shape b s t (DLoads k mn mx (f :: todo) acc) sp (put s t (DLoads k mn mx todo (acc ++ [d])))
| sh_dpanic k mn mx f todo acc x q sp : nth_error (a_sps s) k = Some x ->
    usize_sub b (a_mem s f) (snap_at x (length acc)) = Panic q ->
    step_shape b s t (DLoads k mn mx (f :: todo) acc) sp (put s t (APanicked q)).

Lemma step_shapes b s t p sp s' : athread_step b s t p sp = Some s' -> step_shape b s t p sp s'.
Proof.
  destruct p; cbn [athread_step]; try discriminate.
  - destruct l as [|[f n] l]; intros [= <-]; constructor.
  - intros [= <-]; constructor.
  - intros [= <-]; constructor.
  - destruct (Z.ltb_spec cur mn).
    + destruct sp; cbn [orb].
      * intros [= <-]; constructor; assumption.
      * destruct (Z.eqb_spec (a_mem s FMin) mn); cbn [negb]; intros [= <-]; constructor; assumption.
    + intros [= <-]; constructor; assumption.
  - intros [= <-]; constructor.
  - destruct (Z.gtb_spec cur mx).
    + destruct sp; cbn [orb].
      * intros [= <-]; constructor; assumption.
      * destruct (Z.eqb_spec (a_mem s FMax) mx); cbn [negb]; intros [= <-]; constructor; assumption.
    + intros [= <-]; constructor; assumption.
  - intros [= <-]; constructor.
  - intros [= <-]; constructor.
  - destruct (enqueue b (a_ring s) (mn, mx)) as [r|q|] eqn:E; [| |discriminate]; intros [= <-]; constructor; assumption.
  - intros [= <-]; constructor.
  - intros [= <-]; constructor.
  - intros [= <-]; constructor.
  - intros [= <-]; constructor.
  - intros [= <-]; constructor.
  - destruct todo; intros [= <-]; constructor.
  - destruct (nth_error (a_sps s) k) as [x|] eqn:E; [|discriminate].
    destruct (peek_all b (a_ring s) (fst x)) as [[[s1 s2]|]|q|] eqn:E2; [| | |discriminate].
    + destruct (fold_minmax (s1 ++ s2) (two64 - 1) 0) as [[mn mx]|q|] eqn:E3; [| |discriminate]; intros [= <-].
      * eapply sh_peek; eassumption.
      * eapply sh_peek_panic1; eassumption.
    + intros [= <-]. eapply sh_peek_none; eassumption.
    + intros [= <-]. eapply sh_peek_panic2; eassumption.
  - intros [= <-]; constructor.
  - intros [= <-]; constructor.
  - destruct todo as [|f todo].
    + intros [= <-]; constructor.
    + destruct (nth_error (a_sps s) k) as [x|] eqn:E; [|discriminate].
      destruct (usize_sub b (a_mem s f) (snap_at x (length acc))) as [d|q|] eqn:E2; [| |discriminate]; intros [= <-].
      * eapply sh_dload; eassumption.
      * eapply sh_dpanic; eassumption.
Qed.

(** ** Counters: what is still to be added *)
Definition sum_for (f : field) (l : list (field * Z)) : Z :=
  sum (map (fun p => if field_eq_dec (fst p) f then snd p else 0) l).
Definition pend1 (f : field) (p : apc) : Z := match p with AAdds l => sum_for f l | _ => 0 end.
Definition pend (f : field) (ts : list apc) : Z := sum (map (pend1 f) ts).

Lemma sum_upd (g : apc -> Z) ts t p p' : nth_error ts t = Some p ->
  sum (map g (upd t p' ts)) = sum (map g ts) - g p + g p'.
Proof.
  unfold sum. revert t. induction ts as [|q ts IH]; intros [|t] H; cbn [nth_error] in H; try discriminate.
  - injection H as ->. cbn. lia.
  - cbn [upd map fold_right]. rewrite (IH t H). lia.
Qed.

Lemma pend_upd f ts t p p' : nth_error ts t = Some p -> pend f (upd t p' ts) = pend f ts - pend1 f p + pend1 f p'.
Proof. apply sum_upd. Qed.

Lemma pend1_after f l : pend1 f (after_adds l) = sum_for f l.
Proof. destruct l; reflexivity. Qed.

Lemma sum_for_adds f op : f <> FMin -> f <> FMax -> sum_for f (adds_of op) = contrib f op.
Proof.
  intros H1 H2. destruct op as [n ok|n|n ok|o n ok| |k]; cbn [adds_of];
    try (destruct f; try congruence; cbn; lia).
  destruct (Z.gtb_spec n o); [|destruct (Z.ltb_spec n o)]; destruct f; try congruence; cbn; lia.
Qed.

Lemma pend1_first f op : f <> FMin -> f <> FMax -> pend1 f (first_apc op) = contrib f op.
Proof.
  intros H1 H2. rewrite <- sum_for_adds by assumption. destruct op; cbn [first_apc]; try apply pend1_after; reflexivity.
Qed.

(** well-formed remaining additions: current_used_memory last, min and max never *)
Fixpoint cur_last (l : list (field * Z)) : bool :=
  match l with
  | [] => true
  | (FMin, _) :: _ | (FMax, _) :: _ => false
  | (FCur, _) :: l' => match l' with [] => true | _ => false end
  | _ :: l' => cur_last l'
  end.
Definition wf_pc (p : apc) : Prop := match p with AAdds l => cur_last l = true | _ => True end.

Lemma cur_last_adds op : cur_last (adds_of op) = true.
Proof.
  destruct op as [n ok|n|n ok|o n ok| |k]; try reflexivity. cbn [adds_of].
  destruct (n >? o); [reflexivity|]. destruct (n <? o); reflexivity.
Qed.
Lemma cur_last_tl f n l : cur_last ((f, n) :: l) = true -> cur_last l = true /\ f <> FMin /\ f <> FMax /\ (f = FCur -> l = []).
Proof. destruct f; cbn [cur_last]; try discriminate; intros H; repeat split; auto; try discriminate; destruct l; auto; discriminate. Qed.
Lemma wf_after l : cur_last l = true -> wf_pc (after_adds l).
Proof. destruct l; cbn; auto. Qed.
Lemma wf_first op : wf_pc (first_apc op).
Proof. destruct op; cbn [first_apc]; try apply wf_after, cur_last_adds; exact I. Qed.

Definition cinv (s : acst) : Prop :=
  Forall wf_pc (a_threads s) /\
  (forall f, f <> FMin -> f <> FMax -> a_mem s f = wrap64 (total (contrib f) (a_started s) - pend f (a_threads s))).

Lemma wrap64_add a n : wrap64 (wrap64 a + n) = wrap64 (a + n).
Proof. unfold wrap64. apply Zplus_mod_idemp_l. Qed.

Lemma cinv_init sz n : cinv (acinit sz n).
Proof.
  split.
  - apply Forall_forall. intros p Hp. apply repeat_spec in Hp. subst. exact I.
  - intros f _ _. cbn [acinit a_mem a_started a_threads]. unfold pend.
    assert (sum (map (pend1 f) (repeat AIdle n)) = 0) as ->; [|reflexivity].
    induction n; [reflexivity|]. unfold sum in *. cbn [repeat map fold_right pend1]. lia.
Qed.

Lemma Forall_nth {X} (P : X -> Prop) l i x : Forall P l -> nth_error l i = Some x -> P x.
Proof. intros H E. rewrite Forall_forall in H. apply H. eapply nth_error_In. exact E. Qed.

Lemma cinv_step b s a s' : cinv s -> acstep b s a = Some s' -> cinv s'.
Proof.
  intros [HW HC] E. destruct a as [t op|t sp]; cbn [acstep] in E.
  - destruct (nth_error (a_threads s) t) as [p|] eqn:Et; [|discriminate]. destruct p; try discriminate.
    destruct (can_start s op); [|discriminate]. injection E as <-. split.
    + fld. apply Forall_upd; [exact HW|apply wf_first].
    + intros f H1 H2. fld. rewrite (HC f H1 H2). rewrite total_snoc, (pend_upd f _ t AIdle) by exact Et.
      rewrite pend1_first by assumption. cbn [pend1]. f_equal. lia.
  - destruct (nth_error (a_threads s) t) as [p|] eqn:Et; [|discriminate].
    apply step_shapes in E. pose proof (Forall_nth _ _ _ _ HW Et) as Hp.
    assert (forall s0 p', Forall wf_pc (a_threads s0) -> a_threads s0 = a_threads s -> wf_pc p' ->
              Forall wf_pc (a_threads (put s0 t p'))) as HWp.
    { intros s0 p' H1 H2 H3. fld. apply Forall_upd; assumption. }
    assert (forall s0 p', a_threads s0 = a_threads s -> a_started s0 = a_started s ->
              (forall f, f <> FMin -> f <> FMax -> a_mem s0 f = a_mem s f) ->
              (forall f, pend1 f p' = pend1 f p) ->
              forall f, f <> FMin -> f <> FMax ->
              a_mem (put s0 t p') f = wrap64 (total (contrib f) (a_started (put s0 t p')) - pend f (a_threads (put s0 t p')))) as HCp.
    { intros s0 p' H1 H2 H3 H4 f F1 F2. fld. rewrite H1, H2, (pend_upd f _ t p) by exact Et. rewrite H4, H3 by assumption.
      rewrite (HC f F1 F2). f_equal. lia. }
    assert (forall v f, f <> FMin -> f <> FMax -> set (a_mem s) FMin v f = a_mem s f) as Smin
      by (intros; apply set_other; congruence).
    assert (forall v f, f <> FMin -> f <> FMax -> set (a_mem s) FMax v f = a_mem s f) as Smax
      by (intros; apply set_other; congruence).
    inversion E; subst;
      try (split; [apply HWp; solve [assumption | reflexivity | exact I] | apply HCp; solve [reflexivity | intros; reflexivity | fld; auto]]).
    apply cur_last_tl in Hp. destruct Hp as (W & F1 & F2 & _).
    split; [apply HWp; auto; apply wf_after; exact W|].
    intros g G1 G2. fld. rewrite (pend_upd g _ t (AAdds ((f, n) :: l))) by exact Et. rewrite pend1_after. cbn [pend1].
    destruct (field_eq_dec g f) as [->|Hne].
    + rewrite set_same. rewrite (HC f G1 G2), wrap64_add. f_equal. unfold sum_for, sum. cbn [map fst snd fold_right].
      destruct (field_eq_dec f f); [lia|congruence].
    + rewrite set_other by exact Hne. rewrite (HC g G1 G2). f_equal. unfold sum_for, sum. cbn [map fst snd fold_right].
      destruct (field_eq_dec f g); [congruence|lia].
Qed.

Lemma started_step b s a s' : acstep b s a = Some s' -> a_started s' = a_started s ++ calls [a].
Proof.
  destruct a as [t op|t sp]; cbn [acstep].
  - destruct (nth_error (a_threads s) t) as [[]|]; try discriminate. destruct (can_start s op); [|discriminate].
    intros [= <-]. reflexivity.
  - destruct (nth_error (a_threads s) t) as [p|]; [|discriminate]. intros E. apply step_shapes in E.
    inversion E; subst; cbn; rewrite app_nil_r; reflexivity.
Qed.

Lemma calls_app p q : calls (p ++ q) = calls p ++ calls q.
Proof. apply flat_map_app. Qed.

Lemma run_inv b (P : acst -> Prop) : (forall s a s', P s -> acstep b s a = Some s' -> P s') ->
  forall sched s s', P s -> acrun b s sched = Some s' -> P s'.
Proof.
  intros HP. induction sched as [|a sched IH]; intros s s' H; cbn [acrun].
  - intros [= <-]. exact H.
  - destruct (acstep b s a) as [s1|] eqn:E; [|discriminate]. intros R. eapply IH; [|exact R]. eapply HP; eassumption.
Qed.

Lemma started_run b sched : forall s s', acrun b s sched = Some s' -> a_started s' = a_started s ++ calls sched.
Proof.
  induction sched as [|a sched IH]; intros s s'; cbn [acrun].
  - intros [= <-]. rewrite app_nil_r. reflexivity.
  - destruct (acstep b s a) as [s1|] eqn:E; [|discriminate]. intros R. rewrite (IH _ _ R), (started_step _ _ _ _ E).
    rewrite <- app_assoc. f_equal. change (a :: sched) with ([a] ++ sched). rewrite calls_app. reflexivity.
Qed.

Lemma pend_idle f s : idle_all s -> pend f (a_threads s) = 0.
Proof.
  unfold idle_all, pend, sum. induction (a_threads s) as [|p ts IH]; [reflexivity|]. intros H. inversion H; subst. cbn. rewrite IH by assumption. reflexivity.
Qed.

Lemma counters_exact b sz n sched s f : f <> FMin -> f <> FMax ->
  acrun b (acinit sz n) sched = Some s -> idle_all s ->
  a_mem s f = total (contrib f) (calls sched) mod two64.
Proof.
  intros H1 H2 R HI. destruct (run_inv b cinv (fun s a s' => cinv_step b s a s') _ _ _ (cinv_init sz n) R) as [_ HC].
  rewrite (HC f H1 H2), (started_run _ _ _ _ R), pend_idle by exact HI. cbn [acinit a_started app]. rewrite Z.sub_0_r. reflexivity.
Qed.

(** ** Every value min and max ever hold was really a value of current_used_memory *)
Definition pc_vals (p : apc) : list Z :=
  match p with
  | ALoadMin c | AMin c _ | ALoadMax c | AMax c _ => [c]
  | SStoreMin _ v | SStoreMax _ v => [v]
  | _ => []
  end.
Definition pinv (s : acst) : Prop :=
  In (a_mem s FCur) (a_past s) /\ In (a_mem s FMin) (a_past s) /\ In (a_mem s FMax) (a_past s) /\
  Forall (fun p => incl (pc_vals p) (a_past s)) (a_threads s) /\ Forall wf_pc (a_threads s).

Lemma pinv_init sz n : pinv (acinit sz n).
Proof.
  split; [left; reflexivity|]. split; [left; reflexivity|]. split; [left; reflexivity|]. cbn [acinit a_threads a_past a_mem].
  split; apply Forall_forall; intros p Hp; apply repeat_spec in Hp; subst; [intros x []|exact I].
Qed.

Lemma pinv_step b s a s' : pinv s -> acstep b s a = Some s' -> pinv s'.
Proof.
  intros (HC & HMn & HMx & HT & HW) E. destruct a as [t op|t sp]; cbn [acstep] in E.
  - destruct (nth_error (a_threads s) t) as [p|] eqn:Et; [|discriminate]. destruct p; try discriminate.
    destruct (can_start s op); [|discriminate]. injection E as <-. split; [exact HC|]. split; [exact HMn|]. split; [exact HMx|].
    fld. split; apply Forall_upd; auto; [|apply wf_first].
    destruct op as [| | |o n ok| |]; cbn [first_apc]; try (intros x []).
  - destruct (nth_error (a_threads s) t) as [p|] eqn:Et; [|discriminate].
    apply step_shapes in E. pose proof (Forall_nth _ _ _ _ HT Et) as Hp. pose proof (Forall_nth _ _ _ _ HW Et) as Hw.
    assert (forall s0 p', a_threads s0 = a_threads s -> a_past s0 = a_past s -> a_mem s0 = a_mem s -> wf_pc p' ->
              incl (pc_vals p') (a_past s) -> pinv (put s0 t p')) as K1.
    { intros s0 p' H1 H2 H3 H4 H5. unfold pinv. fld. rewrite H1, H2, H3.
      split; [exact HC|]. split; [exact HMn|]. split; [exact HMx|]. split; apply Forall_upd; auto. }
    assert (forall m p', wf_pc p' -> In (m FMin) (a_past s) -> In (m FMax) (a_past s) ->
              incl (pc_vals p') (a_past s) -> pinv (put (put_mem s m) t p')) as K2.
    { intros m p' H4 H5 H6 H7. unfold pinv. fld.
      split; [apply in_or_app; right; left; reflexivity|]. split; [apply in_or_app; left; exact H5|].
      split; [apply in_or_app; left; exact H6|]. split; apply Forall_upd; auto.
      - eapply Forall_impl; [|exact HT]. intros q Hq x Hx. apply in_or_app. left. apply Hq. exact Hx.
      - intros x Hx. apply in_or_app. left. apply H7. exact Hx. }
    assert (forall x, incl [x] (a_past s) <-> In x (a_past s)) as I1.
    { intros x. split; [intros H; apply H; left; reflexivity|intros H y [<-|[]]; exact H]. }
    inversion E; subst; cbn [pc_vals] in Hp;
      try (apply K1; cbn; auto; try (intros x []; fail); try (apply I1; assumption); fail).
    + apply cur_last_tl in Hw. destruct Hw as (W & F1 & F2 & _).
      apply K2; [apply wf_after; exact W| | |destruct l; intros x []].
      * rewrite set_other by congruence. exact HMn.
      * rewrite set_other by congruence. exact HMx.
    + apply K2; [exact I| |rewrite set_other by discriminate; exact HMx|exact Hp].
      rewrite set_same. apply I1. exact Hp.
    + apply K2; [exact I|rewrite set_other by discriminate; exact HMn| |intros x []].
      rewrite set_same. apply I1. exact Hp.
    + apply K2; [exact I| |rewrite set_other by discriminate; exact HMx|intros x []].
      rewrite set_same. apply I1. exact Hp.
    + apply K2; [exact I|rewrite set_other by discriminate; exact HMn| |intros x []].
      rewrite set_same. apply I1. exact Hp.
Qed.

Lemma past_step b s a s' : acstep b s a = Some s' ->
  forall x, In x (a_past s') -> In x (a_past s) \/ x = a_mem s' FCur.
Proof.
  destruct a as [t op|t sp]; cbn [acstep].
  - destruct (nth_error (a_threads s) t) as [[]|]; try discriminate. destruct (can_start s op); [|discriminate].
    intros [= <-] x Hx. left. exact Hx.
  - destruct (nth_error (a_threads s) t) as [p|]; [|discriminate]. intros E. apply step_shapes in E.
    intros x Hx; revert x Hx; inversion E; subst; fld; intros y Hx; try (left; exact Hx);
      apply in_app_or in Hx; destruct Hx as [Hx|[<-|[]]]; auto.
Qed.

Lemma past_real b sz n sched : forall s x, acrun b (acinit sz n) sched = Some s -> In x (a_past s) ->
  exists sched1 sched2 s1, sched = sched1 ++ sched2 /\ acrun b (acinit sz n) sched1 = Some s1 /\ a_mem s1 FCur = x.
Proof.
  induction sched as [|a sched IH] using rev_ind; intros s x R Hx.
  - injection R as <-. exists [], [], (acinit sz n). split; [reflexivity|]. split; [reflexivity|].
    destruct Hx as [<-|[]]. reflexivity.
  - apply acrun_snoc in R as R'. destruct R' as (s1 & R1 & R2).
    destruct (past_step _ _ _ _ R2 _ Hx) as [H|H].
    + destruct (IH _ _ R1 H) as (p & q & s2 & E & R3 & Ex). exists p, (q ++ [a]), s2. split; [rewrite E, app_assoc; reflexivity|]. auto.
    + exists (sched ++ [a]), [], s. rewrite app_nil_r. auto.
Qed.

Lemma minmax_real b sz n sched s : acrun b (acinit sz n) sched = Some s -> forall f, f = FMin \/ f = FMax ->
  exists sched1 sched2 s1, sched = sched1 ++ sched2 /\ acrun b (acinit sz n) sched1 = Some s1 /\ a_mem s1 FCur = a_mem s f.
Proof.
  intros R f Hf. destruct (run_inv b pinv (fun s a s' => pinv_step b s a s') _ _ _ (pinv_init sz n) R) as (_ & H1 & H2 & _).
  destruct Hf as [->| ->]; eapply past_real; eassumption.
Qed.

(** ** min <= current <= max, when save points are exclusive *)
Definition cov_max (cur : Z) (p : apc) : Prop :=
  match p with ALoadCur => True | ALoadMin v | AMin v _ | ALoadMax v | AMax v _ => cur <= v | _ => False end.
Definition cov_min (cur : Z) (p : apc) : Prop :=
  match p with ALoadCur => True | ALoadMin v | AMin v _ => v <= cur | _ => False end.
Definition local_ok (m : mem) (p : apc) : Prop :=
  match p with
  | AMin _ mn => m FMin <= mn
  | AMax _ mx => mx <= m FMax
  | SStoreMin _ v => v = m FCur
  | SLoadCur2 _ => m FMin = m FCur
  | SStoreMax _ v => v = m FCur /\ m FMin = m FCur
  | SSnap _ _ _ => m FMin = m FCur /\ m FMax = m FCur
  | _ => True
  end.
Definition sinv (s : acst) : Prop :=
  let m := a_mem s in
  (m FCur <= m FMax \/ exists t p, nth_error (a_threads s) t = Some p /\ cov_max (m FCur) p) /\
  (m FMin <= m FCur \/ exists t p, nth_error (a_threads s) t = Some p /\ cov_min (m FCur) p) /\
  Forall (local_ok m) (a_threads s) /\ Forall wf_pc (a_threads s).

Lemma bounded_idle s : sinv s -> idle_all s -> bounded (a_mem s).
Proof.
  intros (H1 & H2 & _) HI. unfold bounded. split.
  - destruct H2 as [H|(t & p & Et & Hc)]; [exact H|]. pose proof (Forall_nth _ _ _ _ HI Et) as E. cbn beta in E. rewrite E in Hc. destruct Hc.
  - destruct H1 as [H|(t & p & Et & Hc)]; [exact H|]. pose proof (Forall_nth _ _ _ _ HI Et) as E. cbn beta in E. rewrite E in Hc. destruct Hc.
Qed.

Lemma sinv_idle s : idle_all s -> bounded (a_mem s) -> sinv s.
Proof.
  intros HI [H1 H2]. split; [left; exact H2|]. split; [left; exact H1|].
  split; (eapply Forall_impl; [|exact HI]); intros p ->; exact I.
Qed.

Lemma nth_upd_same {X} (l : list X) t p p' : nth_error l t = Some p -> nth_error (upd t p' l) t = Some p'.
Proof. intros H. rewrite nth_error_upd. rewrite Nat.eqb_refl. assert (t < length l)%nat as L by (apply nth_error_Some; congruence).
  apply Nat.ltb_lt in L. try rewrite L. reflexivity. Qed.
Lemma nth_upd_other {X} (l : list X) t u p' : u <> t -> nth_error (upd t p' l) u = nth_error l u.
Proof. intros H. apply nth_error_upd_neq. congruence. Qed.

Lemma cov_idle_max s t : (forall u q, nth_error (a_threads s) u = Some q -> u <> t -> q = AIdle) ->
  (exists u p, nth_error (a_threads s) u = Some p /\ cov_max (a_mem s FCur) p) ->
  forall p, nth_error (a_threads s) t = Some p -> cov_max (a_mem s FCur) p.
Proof.
  intros HO (u & q & Eu & Hc) p Et. destruct (Nat.eq_dec u t) as [->|Hne]; [congruence|].
  rewrite (HO u q Eu Hne) in Hc. destruct Hc.
Qed.
Lemma cov_idle_min s t : (forall u q, nth_error (a_threads s) u = Some q -> u <> t -> q = AIdle) ->
  (exists u p, nth_error (a_threads s) u = Some p /\ cov_min (a_mem s FCur) p) ->
  forall p, nth_error (a_threads s) t = Some p -> cov_min (a_mem s FCur) p.
Proof.
  intros HO (u & q & Eu & Hc) p Et. destruct (Nat.eq_dec u t) as [->|Hne]; [congruence|].
  rewrite (HO u q Eu Hne) in Hc. destruct Hc.
Qed.

(** a step of thread [t] whose new pc still covers whatever the old one covered, memory unchanged *)
Lemma sinv_put s s0 t p p' : sinv s -> nth_error (a_threads s) t = Some p ->
  a_threads s0 = a_threads s -> a_mem s0 = a_mem s ->
  (cov_max (a_mem s FCur) p -> cov_max (a_mem s FCur) p' \/ a_mem s FCur <= a_mem s FMax) ->
  (cov_min (a_mem s FCur) p -> cov_min (a_mem s FCur) p' \/ a_mem s FMin <= a_mem s FCur) ->
  local_ok (a_mem s) p' -> wf_pc p' -> sinv (put s0 t p').
Proof.
  intros (H1 & H2 & H3 & H4) Et E1 E2 C1 C2 L W. unfold sinv. cbn [put a_mem a_threads]. rewrite E1, E2.
  split; [|split; [|split; apply Forall_upd; assumption]].
  - destruct H1 as [H|(u & q & Eu & Hc)]; [left; exact H|]. destruct (Nat.eq_dec u t) as [->|Hne].
    + assert (q = p) as -> by congruence. destruct (C1 Hc) as [H|H]; [|left; exact H]. right. exists t, p'. split; [apply (nth_upd_same _ _ p); exact Et|exact H].
    + right. exists u, q. split; [rewrite nth_upd_other by exact Hne; exact Eu|exact Hc].
  - destruct H2 as [H|(u & q & Eu & Hc)]; [left; exact H|]. destruct (Nat.eq_dec u t) as [->|Hne].
    + assert (q = p) as -> by congruence. destruct (C2 Hc) as [H|H]; [|left; exact H]. right. exists t, p'. split; [apply (nth_upd_same _ _ p); exact Et|exact H].
    + right. exists u, q. split; [rewrite nth_upd_other by exact Hne; exact Eu|exact Hc].
Qed.

Lemma sinv_step b s a s' : exclusive s -> sinv s -> acstep b s a = Some s' -> sinv s'.
Proof.
  intros HX HS E. destruct a as [t op|t sp]; cbn [acstep] in E.
  - destruct (nth_error (a_threads s) t) as [p|] eqn:Et; [|discriminate]. destruct p; try discriminate.
    destruct (can_start s op); [|discriminate]. injection E as <-.
    apply (sinv_put s _ t AIdle); auto; try (intros []; fail); [|apply wf_first].
    destruct op; cbn [first_apc]; try exact I; destruct (adds_of _); exact I.
  - destruct (nth_error (a_threads s) t) as [p|] eqn:Et; [|discriminate].
    apply step_shapes in E. pose proof HS as (H1 & H2 & H3 & H4).
    pose proof (Forall_nth _ _ _ _ H3 Et) as Hl. pose proof (Forall_nth _ _ _ _ H4 Et) as Hw.
    assert (saving p = true -> forall u q, nth_error (a_threads s) u = Some q -> u <> t -> q = AIdle) as HO.
    { intros Hsv u q Eu Hne. eapply (HX t u p q); eauto. }
    assert (saving p = true -> a_mem s FMin <= a_mem s FCur <= a_mem s FMax) as HB.
    { intros Hsv. specialize (HO Hsv). split.
      - destruct H2 as [H|H]; [exact H|]. pose proof (cov_idle_min s t HO H p Et) as K. destruct p; try discriminate; destruct K.
      - destruct H1 as [H|H]; [exact H|]. pose proof (cov_idle_max s t HO H p Et) as K. destruct p; try discriminate; destruct K. }
    assert (saving p = true -> forall m' p', wf_pc p' -> local_ok m' p' -> m' FMin <= m' FCur <= m' FMax ->
              sinv (put (put_mem s m') t p')) as KS.
    { intros Hsv m' p' W L [B1 B2]. specialize (HO Hsv). unfold sinv. cbn [put put_mem a_mem a_threads].
      split; [left; exact B2|]. split; [left; exact B1|]. 
      assert (Forall (fun q => local_ok m' q /\ wf_pc q) (upd t p' (a_threads s))) as HF.
      { apply Forall_forall. intros q Hq. apply In_nth_error in Hq. destruct Hq as [u Eu].
        destruct (Nat.eq_dec u t) as [->|Hne].
        - rewrite (nth_upd_same _ _ p) in Eu by exact Et. injection Eu as <-. auto.
        - rewrite nth_upd_other in Eu by exact Hne. rewrite (HO u q Eu Hne). split; exact I. }
      split; eapply Forall_impl; [|exact HF| |exact HF]; intros q Hq; apply Hq. }
    inversion E; subst; cbn [saving local_ok wf_pc] in *; clear E.
    + (* AAdds [] *) apply (sinv_put s _ t (AAdds [])); auto; try (intros []; fail); try exact I.
    + (* an addition *) apply cur_last_tl in Hw. destruct Hw as (W & F1 & F2 & F3).
      destruct (field_eq_dec f FCur) as [->|Hne].
      * rewrite (F3 eq_refl). unfold sinv. cbn [put put_mem a_mem a_threads after_adds].
        split; [right; exists t, ALoadCur; split; [apply (nth_upd_same _ _ _ _ Et)|exact I]|].
        split; [right; exists t, ALoadCur; split; [apply (nth_upd_same _ _ _ _ Et)|exact I]|].
        split; apply Forall_upd; auto; try exact I.
        apply Forall_forall. intros q Hq. rewrite Forall_forall in H3. pose proof (H3 q Hq) as Hlq.
        pose proof (In_nth_error _ _ Hq) as [u Eu].
        destruct q; cbn [local_ok] in *; auto; rewrite ?set_other by discriminate; auto;
          exfalso; assert (u <> t) by congruence; pose proof (HX u t _ _ Eu Et eq_refl H); discriminate.
      * unfold sinv. cbn [put put_mem a_mem a_threads].
        rewrite !set_other by congruence.
        split; [|split; [|split; apply Forall_upd; auto]].
        -- destruct H1 as [H|(u & q & Eu & Hc)]; [left; exact H|]. right. exists u, q.
           destruct (Nat.eq_dec u t) as [->|Hu]; [rewrite Et in Eu; injection Eu as <-; destruct Hc|].
           rewrite nth_upd_other by exact Hu. auto.
        -- destruct H2 as [H|(u & q & Eu & Hc)]; [left; exact H|]. right. exists u, q.
           destruct (Nat.eq_dec u t) as [->|Hu]; [rewrite Et in Eu; injection Eu as <-; destruct Hc|].
           rewrite nth_upd_other by exact Hu. auto.
        -- eapply Forall_impl; [|exact H3]. intros q Hq. destruct q; cbn [local_ok] in *; rewrite ?set_other by congruence; auto.
        -- destruct l; exact I.
        -- apply wf_after; exact W.
    + (* load current *) apply (sinv_put s _ t ALoadCur); auto; try exact I; intros _; left; cbn; lia.
    + (* load min *) apply (sinv_put s _ t (ALoadMin c)); auto; try exact I; cbn; auto; lia.
    + apply (sinv_put s _ t (AMin c mn)); auto; try exact I; cbn; auto; lia.
    + (* min set *)
      unfold sinv. cbn [put put_mem a_mem a_threads]. rewrite set_same, !set_other by discriminate.
      split; [|split; [|split; apply Forall_upd; auto; try exact I]].
      * destruct H1 as [H0|(u & q & Eu & Hc)]; [left; exact H0|]. right.
        destruct (Nat.eq_dec u t) as [->|Hu].
        -- rewrite Et in Eu. injection Eu as <-. exists t, (ALoadMax c). split; [apply (nth_upd_same _ _ _ _ Et)|exact Hc].
        -- exists u, q. rewrite nth_upd_other by exact Hu. auto.
      * destruct H2 as [H0|(u & q & Eu & Hc)]; [left; lia|].
        destruct (Nat.eq_dec u t) as [->|Hu].
        -- rewrite Et in Eu. injection Eu as <-. left. exact Hc.
        -- right. exists u, q. rewrite nth_upd_other by exact Hu. auto.
      * apply Forall_forall. intros q Hq. rewrite Forall_forall in H3. pose proof (H3 q Hq) as Hlq.
        pose proof (In_nth_error _ _ Hq) as [u Eu].
        destruct q; cbn [local_ok] in *; auto; rewrite ?set_same; rewrite ?set_other by discriminate; auto; try lia;
          exfalso; assert (Hn : u <> t) by congruence; pose proof (HX u t _ _ Eu Et eq_refl Hn); discriminate.
    + (* min skip *) apply (sinv_put s _ t (AMin c mn)); auto; try exact I; cbn; auto. intros K. right. lia.
    + apply (sinv_put s _ t (ALoadMax c)); auto; try exact I; cbn; auto; lia.
    + apply (sinv_put s _ t (AMax c mx)); auto; try exact I; cbn; auto; lia.
    + (* max set *)
      unfold sinv. cbn [put put_mem a_mem a_threads]. rewrite set_same, !set_other by discriminate.
      split; [|split; [|split; apply Forall_upd; auto; try exact I]].
      * destruct H1 as [H0|(u & q & Eu & Hc)]; [left; lia|].
        destruct (Nat.eq_dec u t) as [->|Hu].
        -- rewrite Et in Eu. injection Eu as <-. left. exact Hc.
        -- right. exists u, q. rewrite nth_upd_other by exact Hu. auto.
      * destruct H2 as [H0|(u & q & Eu & Hc)]; [left; exact H0|].
        destruct (Nat.eq_dec u t) as [->|Hu].
        -- rewrite Et in Eu. injection Eu as <-. destruct Hc.
        -- right. exists u, q. rewrite nth_upd_other by exact Hu. auto.
      * apply Forall_forall. intros q Hq. rewrite Forall_forall in H3. pose proof (H3 q Hq) as Hlq.
        pose proof (In_nth_error _ _ Hq) as [u Eu].
        destruct q; cbn [local_ok] in *; auto; rewrite ?set_same; rewrite ?set_other by discriminate; auto; try lia;
          exfalso; assert (Hn : u <> t) by congruence; pose proof (HX u t _ _ Eu Et eq_refl Hn); discriminate.
    + (* max skip *) apply (sinv_put s _ t (AMax c mx)); auto; try exact I; cbn; auto; try (intros []; fail). intros K. right. lia.
    + apply (sinv_put s _ t SLoadMin); auto; try exact I; cbn; auto.
    + apply (sinv_put s _ t (SLoadMax mn)); auto; try exact I; cbn; auto.
    + apply (sinv_put s _ t (SEnq mn mx)); auto; try exact I; cbn; auto.
    + apply (sinv_put s _ t (SEnq mn mx)); auto; try exact I; cbn; auto.
    + apply (sinv_put s _ t SConsumer); auto; try exact I; cbn; auto.
    + apply (sinv_put s _ t (SLoadCur1 h)); auto; try exact I; cbn; auto.
    + specialize (HB eq_refl). apply KS; [reflexivity|exact I| |]; cbn [local_ok]; rewrite set_same, ?set_other by discriminate; lia.
    + apply (sinv_put s _ t (SLoadCur2 h)); auto; try exact I; cbn; auto.
    + specialize (HB eq_refl). apply KS; [reflexivity|exact I| |]; cbn [local_ok]; rewrite set_same, ?set_other by discriminate; lia.
    + apply (sinv_put s _ t (SSnap h [] acc)); auto; try exact I; cbn; auto.
    + apply (sinv_put s _ t (SSnap h (f :: todo) acc)); auto; try exact I; cbn; auto.
    + apply (sinv_put s _ t (DPeek k)); auto; try exact I; cbn; auto.
    + apply (sinv_put s _ t (DPeek k)); auto; try exact I; cbn; auto.
    + apply (sinv_put s _ t (DPeek k)); auto; try exact I; cbn; auto.
    + apply (sinv_put s _ t (DPeek k)); auto; try exact I; cbn; auto.
    + apply (sinv_put s _ t (DMin k mn mx)); auto; try exact I; cbn; auto.
    + apply (sinv_put s _ t (DMax k mn mx)); auto; try exact I; cbn; auto.
    + apply (sinv_put s _ t (DLoads k mn mx [] acc)); auto; try exact I; cbn; auto.
    + apply (sinv_put s _ t (DLoads k mn mx (f :: todo) acc)); auto; try exact I; cbn; auto.
    + apply (sinv_put s _ t (DLoads k mn mx (f :: todo) acc)); auto; try exact I; cbn; auto.
Qed.

Lemma sinv_run b sched : forall s s', always b exclusive s sched -> sinv s -> acrun b s sched = Some s' -> sinv s'.
Proof.
  induction sched as [|a sched IH]; intros s s' HA HS; cbn [acrun].
  - intros [= <-]. exact HS.
  - destruct (acstep b s a) as [s1|] eqn:E; [|discriminate]. intros R.
    assert (exclusive s) as HX by (apply (HA [] (a :: sched) s); reflexivity).
    eapply IH; [|eapply sinv_step; [exact HX|exact HS|exact E]|exact R].
    intros p q s2 Eq R2. apply (HA (a :: p) q s2); [rewrite Eq; reflexivity|]. cbn [acrun]. rewrite E. exact R2.
Qed.

Lemma idle_init sz n : idle_all (acinit sz n).
Proof. apply Forall_forall. intros p Hp. apply repeat_spec in Hp. exact Hp. Qed.

Lemma sandwich b sz n sched s : acrun b (acinit sz n) sched = Some s ->
  always b exclusive (acinit sz n) sched -> idle_all s -> bounded (a_mem s).
Proof.
  intros R HA HI. apply bounded_idle; [|exact HI]. eapply sinv_run; [exact HA| |exact R].
  apply sinv_idle; [apply idle_init|]. unfold bounded. cbn. lia.
Qed.
