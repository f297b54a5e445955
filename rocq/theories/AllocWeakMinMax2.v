(** * Relaxed memory: min / max of the usage between a save point and a delta request on it.
    Part 2: save_point and delta_statistics while nobody else is inside the allocator. *)
From Coq Require Import List ZArith Lia Bool Arith.
From Verif Require Import Machine Ring RingSeq RingConc Alloc AllocSpec AllocProofs AllocConc AllocConcSpec AllocConcProofs AllocConcProofs2
  RingWeak RingWeakSpec RingWeakProofs RingWeakProofs2 RingWeakProofs3 RingWeakProofs4 RingWeakProofs5 RingWeakPeek
  AllocWeak AllocWeakSpec AllocWeakProofs AllocWeakProofs2 AllocWeakProofs3 AllocWeakProofs4 AllocWeakProofs5 AllocWeakMinMax.
Import ListNotations.
Open Scope Z_scope.

(** the newest published tail *)
Definition top (r : wstate (Z * Z)) : Z := match newest (w_pub r) with Some m => m_val m | None => 0 end.
(** consumer [c] starts at it *)
Definition head_new (s : kst) (c : Z) : Prop :=
  exists m, nth_error (w_heads (k_ring s)) (Z.to_nat c) = Some [m] /\ m_val m = top (k_ring s).
(** ... and [t] knows it *)
Definition fresh_sp (s : kst) (t : nat) (c : Z) : Prop :=
  head_new s c /\ (length (w_pub (k_ring s)) <= seen (view_of (k_ring s) t) Pub)%nat.
Definition know3 (s : kst) (t : nat) : Prop := forall f, mmc f -> newest_known s t f.
(** what the snapshot taken so far holds for the usage, its minimum and its maximum *)
Definition snap_upto (cur mn mx : Z) (todo : list field) (acc : list Z) : Prop :=
  exists done, snapshot_fields = done ++ todo /\ (length acc = length done)%nat /\
    forall i, (nth_error done i = Some FCur -> nth_error acc i = Some cur) /\ (nth_error done i = Some FMin -> nth_error acc i = Some mn) /\
      (nth_error done i = Some FMax -> nth_error acc i = Some mx).
Lemma snap_upto_nil cur mn mx : snap_upto cur mn mx snapshot_fields [].
Proof. exists []. split; [reflexivity|]. split; [reflexivity|]. intros [|i]; repeat split; discriminate. Qed.
Lemma snap_upto_cons cur mn mx f todo acc v : snap_upto cur mn mx (f :: todo) acc ->
  (f = FCur -> v = cur) -> (f = FMin -> v = mn) -> (f = FMax -> v = mx) -> snap_upto cur mn mx todo (acc ++ [v]).
Proof.
  intros (d & E & L & H) H1 H2 H3. exists (d ++ [f]). split; [rewrite E, <- app_assoc; reflexivity|]. split; [rewrite !app_length; cbn [length]; lia|].
  intros i. specialize (H i). destruct (Nat.lt_ge_cases i (length d)) as [Q|Q].
  - rewrite !nth_error_app1 by lia. exact H.
  - rewrite !nth_error_app2 by lia. rewrite L. destruct (i - length d)%nat as [|[|m]]; cbn [nth_error]; repeat split; intros X; try discriminate; injection X as X; f_equal; auto.
Qed.
Lemma snap_upto_end cur mn mx acc : snap_upto cur mn mx [] acc -> skipn 9 acc = [cur; mn; mx].
Proof.
  intros (d & E & L & H). rewrite app_nil_r in E. subst d. cbn [snapshot_fields counter_fields app length] in L.
  pose proof (proj1 (H 9%nat) eq_refl) as A. pose proof (proj1 (proj2 (H 10%nat)) eq_refl) as B. pose proof (proj2 (proj2 (H 11%nat)) eq_refl) as C.
  do 12 (destruct acc as [|? acc]; [discriminate L|]). destruct acc; [|discriminate L]. cbn in *. congruence.
Qed.
Definition saved (s : kst) (t : nat) (p : apc) : Prop :=
  match p with
  | SLoadMin | SLoadMax _ | SEnq _ _ | APanicked _ => True
  | SConsumer => (length (w_pub (k_ring s)) <= seen (view_of (k_ring s) t) Pub)%nat
  | SLoadCur1 c => fresh_sp s t c
  | SStoreMin c v => fresh_sp s t c /\ v = kvalue s FCur
  | SLoadCur2 c => fresh_sp s t c /\ kvalue s FMin = kvalue s FCur
  | SStoreMax c v => fresh_sp s t c /\ kvalue s FMin = kvalue s FCur /\ v = kvalue s FCur
  | SSnap c todo acc => fresh_sp s t c /\ kvalue s FMin = kvalue s FCur /\ kvalue s FMax = kvalue s FCur /\ snap_upto (kvalue s FCur) (kvalue s FMin) (kvalue s FMax) todo acc
  | _ => False
  end.

(** ** The ring *)
Lemma ring_publish b (r : wstate (Z * Z)) t q x fails picks r' : nth_error (w_threads r) t = Some q ->
  q = Idle \/ q = EnqReserve x \/ (exists rt, q = EnqWrite rt x \/ q = EnqPublish rt x) ->
  wstep b r (WStep t fails picks) = Some r' -> nth_error (w_threads r') t = Some Idle -> (t < length (w_views r))%nat ->
  (length (w_pub r') <= seen (view_of r' t) Pub)%nat.
Proof.
  intros Ht Hq E Hi Lt. cbn [wstep] in E. rewrite Ht in E. assert (LT : (t < length (w_threads r))%nat) by (apply nth_error_Some; congruence).
  assert (U : forall (p : pc (Z * Z)), nth_error (upd t p (w_threads r)) t = Some p).
  { intros p. rewrite nth_error_upd, Nat.eqb_refl, (proj2 (Nat.ltb_lt _ _)) by exact LT. reflexivity. }
  destruct Hq as [->|[->|(rt & [->| ->])]]; cbn [wthread_step] in E; try discriminate.
  - split_step E. injection E as <-. cbn [goto w_threads] in Hi. rewrite U in Hi. discriminate.
  - injection E as <-. cbn [race goto w_threads] in Hi. rewrite U in Hi. discriminate.
  - split_step E; injection E as <-; cbn [wlog goto w_threads] in Hi; rewrite U in Hi; try discriminate.
    unfold view_of. cbn [wlog goto w_views w_pub]. rewrite view_upd, Nat.eqb_refl, (proj2 (Nat.ltb_lt _ _)) by exact Lt.
    rewrite seen_cons, loc_eqb_refl, app_length. cbn [length]. lia.
Qed.
Lemma ring_consumer b (r : wstate (Z * Z)) t fails picks r' : nth_error (w_threads r) t = Some ConsLoad ->
  wstep b r (WStep t fails picks) = Some r' -> (length (w_pub r) <= seen (view_of r t) Pub)%nat -> (t < length (w_views r))%nat ->
  (length (w_pub r') <= seen (view_of r' t) Pub)%nat /\ w_pub r' = w_pub r /\ w_heads r' = w_heads r ++ [[Msg (top r) []]] /\ w_events r' = w_events r ++ [EvConsumer (length (w_heads r)) (top r)] /\
  nth_error (w_threads r') t = Some Idle.
Proof.
  intros Ht E L Lv. cbn [wstep] in E. rewrite Ht in E. cbn [wthread_step] in E. split_step E. injection E as <-.
  assert (K : m = Msg (m_val m) (m_view m) /\ m_val m = top r).
  { split; [destruct m; reflexivity|]. unfold read_at in Q1. destruct (Nat.leb_spec (seen (view_of r t) Pub) (S n)) as [L'|]; [|discriminate].
    assert (n < length (w_pub r))%nat by (apply nth_error_Some; congruence). unfold top, newest. replace (length (w_pub r) - 1)%nat with n by lia. rewrite Q1. reflexivity. }
  destruct K as [_ K]. rewrite K. cbn [wlog goto w_pub w_heads w_events w_threads]. split.
  { unfold view_of. cbn [wlog goto w_views]. rewrite view_upd, Nat.eqb_refl, (proj2 (Nat.ltb_lt _ _)) by exact Lv. rewrite !seen_cons. cbn [loc_eqb]. unfold view_of in L. lia. }
  repeat split.
  rewrite nth_error_upd, Nat.eqb_refl, (proj2 (Nat.ltb_lt _ _)); [reflexivity|]. apply nth_error_Some. congruence.
Qed.

Lemma ring_peek b (r : wstate (Z * Z)) t q c fails picks r' : nth_error (w_threads r) t = Some q ->
  q = PeekLoadHead c \/ (exists h, q = PeekLoadTail c h /\ h = top r) ->
  wstep b r (WStep t fails picks) = Some r' -> (length (w_pub r) <= seen (view_of r t) Pub)%nat -> (t < length (w_views r))%nat ->
  w_pub r' = w_pub r /\ w_heads r' = w_heads r /\ (seen (view_of r t) Pub <= seen (view_of r' t) Pub)%nat /\
  ((exists h, nth_error (w_threads r') t = Some (PeekLoadTail c h)) \/
   nth_error (w_threads r') t = Some Idle /\ exists h tl rs, w_events r' = w_events r ++ [EvPeeked c h tl rs []]).
Proof.
  intros Ht Hq E L Lt. cbn [wstep] in E. rewrite Ht in E. assert (LT : (t < length (w_threads r))%nat) by (apply nth_error_Some; congruence).
  assert (U : forall (p : pc (Z * Z)), nth_error (upd t p (w_threads r)) t = Some p).
  { intros p. rewrite nth_error_upd, Nat.eqb_refl, (proj2 (Nat.ltb_lt _ _)) by exact LT. reflexivity. }
  destruct Hq as [->|(h & -> & Hh)]; cbn [wthread_step] in E.
  - split_step E. injection E as <-. cbn [goto w_pub w_heads w_threads]. split; [reflexivity|]. split; [reflexivity|]. split.
    + unfold view_of. cbn [goto w_views]. rewrite view_upd, Nat.eqb_refl, (proj2 (Nat.ltb_lt _ _)) by exact Lt. rewrite seen_cons. cbn [loc_eqb]. lia.
    + left. eexists. apply U.
  - destruct picks as [|k js]; [discriminate|]. destruct (read_at (w_pub r) (seen (view_of r t) Pub) k) as [m|] eqn:Q1; [|discriminate].
    destruct (read_slots r (view_of r t) 0 js) as [l|]; [|discriminate]. destruct (newest (w_res r)) as [mr|]; [|discriminate].
    assert (K : m_val m = h).
    { unfold read_at in Q1. destruct (Nat.leb_spec (seen (view_of r t) Pub) (S k)) as [L'|]; [|discriminate].
      assert (k < length (w_pub r))%nat by (apply nth_error_Some; congruence). rewrite Hh. unfold top, newest. replace (length (w_pub r) - 1)%nat with k by lia. rewrite Q1. reflexivity. }
    unfold peek_event, peek_all in E. cbn [published_tail] in E. rewrite K, Z.eqb_refl in E. cbn [bind app] in E. injection E as <-.
    cbn [race wlog goto w_pub w_heads w_threads w_events]. split; [reflexivity|]. split; [reflexivity|]. split.
    + unfold view_of. cbn [race wlog goto w_views]. rewrite view_upd, Nat.eqb_refl, (proj2 (Nat.ltb_lt _ _)) by exact Lt. rewrite seen_cons, loc_eqb_refl. unfold view_of. lia.
    + right. split; [apply U|]. eexists _, _, _. reflexivity.
Qed.

Lemma know3_same s s' t : (forall f, mmc f -> k_msgs s' f = k_msgs s f) -> (forall f, kv (kview_of s' t) f = kv (kview_of s t) f) -> know3 s t -> know3 s' t.
Proof. intros E V H f M. unfold newest_known. rewrite (E f M), V. exact (H f M). Qed.
Lemma know3_loaded s t f k v : (t < length (k_views s))%nat -> can_load s t f k v -> know3 s t -> know3 (loaded s t f k) t.
Proof.
  intros L [(m & Hm & _) C] H g M. specialize (H g M). unfold newest_known in *. unfold loaded. rewrite view_put, Nat.eqb_refl by exact L.
  kfld. cbn [kv_set kv]. destruct (field_eq_dec g f) as [->|]; [|exact H]. assert (k < length (k_msgs s f))%nat by (apply nth_error_Some; congruence). lia.
Qed.
Lemma know3_load_val s t f k v : know3 s t -> mmc f -> can_load s t f k v -> v = kvalue s f.
Proof.
  intros H M [(m & Hm & Hv) K]. specialize (H f M). unfold newest_known in H. assert (k < length (k_msgs s f))%nat by (apply nth_error_Some; congruence).
  assert (k = length (k_msgs s f) - 1)%nat as -> by lia. rewrite <- Hv. symmetry. apply kvalue_nth. exact Hm.
Qed.
Lemma know3_written s t f k v rmw : (t < length (k_views s))%nat -> mmc f -> can_write s t f k -> know3 s t ->
  S k = length (k_msgs s f) /\ know3 (written s t f k v rmw) t /\ kvalue (written s t f k v rmw) f = v.
Proof.
  intros L M (C1 & C2 & C3) H. assert (END : S k = length (k_msgs s f)) by (specialize (H f M); unfold newest_known in H; lia).
  split; [exact END|]. split; [|apply kvalue_written; exact END].
  intros g Mg. unfold newest_known. rewrite view_written, Nat.eqb_refl by exact L. cbn [kv_set kv]. destruct (field_eq_dec g f) as [->|N].
  - rewrite written_end by exact END. rewrite app_length. cbn [length]. lia.
  - rewrite written_other by exact N. exact (H g Mg).
Qed.

(** ** One step of save_point *)
Lemma saved_step b sz n s t fails picks s' p : KWf n s -> RG sz n s -> kstep b s (KStep t fails picks) = Some s' ->
  nth_error (k_threads s) t = Some p -> know3 s t -> saved s t p ->
  k_msgs s' FCur = k_msgs s FCur /\ know3 s' t /\
  exists p', nth_error (k_threads s') t = Some p' /\
    (saved s' t p' \/ p' = AIdle /\ exists c acc, k_sps s' = k_sps s ++ [(c, acc)] /\ fresh_sp s' t c /\
       kvalue s' FMin = kvalue s' FCur /\ kvalue s' FMax = kvalue s' FCur /\ skipn 9 acc = [kvalue s' FCur; kvalue s' FMin; kvalue s' FMax]).
Proof.
  intros HW HG E Et KN SV. unfold kstep in E. destruct (kact b s (KStep t fails picks)) as [s1|] eqn:E1; [|discriminate]. injection E as <-. cbn [kact] in E1.
  rewrite Et in E1. apply kstep_shapes in E1.
  assert (Ht : (t < n)%nat) by (rewrite <- (W_len _ _ HW); apply nth_error_Some; congruence).
  assert (Hv : (t < length (k_views s))%nat) by (rewrite (W_lenv _ _ HW); exact Ht).
  assert (U : forall p', nth_error (upd t p' (k_threads s)) t = Some p').
  { intros p'. rewrite nth_error_upd, Nat.eqb_refl, (proj2 (Nat.ltb_lt _ _)); [reflexivity|]. apply nth_error_Some. congruence. }
  assert (G : k_msgs s1 FCur = k_msgs s FCur /\ know3 s1 t /\ exists p', nth_error (k_threads s1) t = Some p' /\
    (saved s1 t p' \/ p' = AIdle /\ exists c acc, k_sps s1 = k_sps s ++ [(c, acc)] /\ fresh_sp s1 t c /\
       kvalue s1 FMin = kvalue s1 FCur /\ kvalue s1 FMax = kvalue s1 FCur /\ skipn 9 acc = [kvalue s1 FCur; kvalue s1 FMin; kvalue s1 FMax])); [|exact G].
  inversion E1; subst; cbn [saved] in SV; try (destruct SV; fail).
  - (* load *)
    match goal with C : can_load _ _ _ _ _ |- _ => rename C into CL end. match goal with C : load_kind _ _ _ |- _ => rename C into LK end.
    split; [reflexivity|]. split; [apply (know3_loaded s t f k v Hv CL KN)|]. exists (next v). split; [apply U|]. left.
    destruct LK; cbn [saved] in SV; try (destruct SV; fail).
    + exact I.
    + exact I.
    + split; [exact SV|exact (know3_load_val s t FCur k v KN mcur CL)].
    + destruct SV as [V1 V2]. split; [exact V1|]. split; [exact V2|exact (know3_load_val s t FCur k v KN mcur CL)].
    + destruct SV as (V1 & V2 & V3 & V4). split; [exact V1|]. split; [exact V2|]. split; [exact V3|]. eapply snap_upto_cons; [exact V4| | |].
      * intros ->. exact (know3_load_val s t FCur k v KN mcur CL).
      * intros ->. exact (know3_load_val s t FMin k v KN mmin CL).
      * intros ->. exact (know3_load_val s t FMax k v KN mmax CL).
  - match goal with C : can_write _ _ _ _ |- _ => rename C into CW end. destruct SV as [V1 ->].
    destruct (know3_written s t FMin k (kvalue s FCur) false Hv mmin CW KN) as (END & KN' & VAL).
    assert (NC : FCur <> FMin) by discriminate.
    split; [apply (written_other s t FMin k (kvalue s FCur) false FCur NC)|]. split; [exact KN'|]. exists (SLoadCur2 c). split; [apply U|]. left.
    split; [exact V1|]. etransitivity; [exact VAL|]. symmetry. apply (other_value s t FMin k (kvalue s FCur) false FCur NC).
  - match goal with C : can_write _ _ _ _ |- _ => rename C into CW end. destruct SV as (V1 & V2 & ->).
    destruct (know3_written s t FMax k (kvalue s FCur) false Hv mmax CW KN) as (END & KN' & VAL).
    assert (NC : FCur <> FMax) by discriminate. assert (NM : FMin <> FMax) by discriminate.
    pose proof (other_value s t FMax k (kvalue s FCur) false FCur NC) as OC. pose proof (other_value s t FMax k (kvalue s FCur) false FMin NM) as OM.
    split; [apply (written_other s t FMax k (kvalue s FCur) false FCur NC)|]. split; [exact KN'|]. exists (SSnap c snapshot_fields []). split; [apply U|]. left.
    split; [exact V1|]. split; [|split; [etransitivity; [exact VAL|symmetry; exact OC]|apply snap_upto_nil]].
    etransitivity; [exact OM|]. etransitivity; [exact V2|symmetry; exact OC].
  - destruct SV as (V1 & V2 & V3 & V4). split; [reflexivity|]. split.
    { apply (know3_same s); [reflexivity| |exact KN]. intros f. change (kview_of (kput (kput_sp s t (c, acc)) t AIdle) t) with (kview_of (kput_sp s t (c, acc)) t).
      rewrite view_sp, Nat.eqb_refl by exact Hv. reflexivity. }
    exists AIdle. split; [apply U|]. right. split; [reflexivity|]. exists c, acc. split; [reflexivity|]. split; [exact V1|]. split; [exact V2|]. split; [exact V3|exact (snap_upto_end _ _ _ _ V4)].
  - match goal with R : wstep _ _ _ = Some _ |- _ => rename R into RS end.
    split; [reflexivity|]. split; [apply (know3_same s); [reflexivity|reflexivity|exact KN]|]. exists p. kfld. split; [exact Et|]. left.
    match goal with R : ring_op _ _ _ |- _ => destruct R; try (destruct SV; fail) end; [exact I|]. cbn [saved] in *. kfld.
    cbn [wstep wop_ok] in RS. match goal with R : nth_error (w_threads _) t = Some Idle |- _ => rewrite R in RS end. injection RS as <-. unfold view_of. cbn [goto w_pub w_views].
    rewrite view_upd, Nat.eqb_refl, (W_lenrv _ _ HW), (proj2 (Nat.ltb_lt _ _)) by exact Ht. exact SV.
  - match goal with R : wstep _ _ _ = Some _ |- _ => rename R into RS end. match goal with R : nth_error (w_threads (k_ring s)) t = Some _ |- _ => rename R into RQ end.
    split; [reflexivity|]. split; [apply (know3_same s); [reflexivity|reflexivity|exact KN]|]. exists p. kfld. split; [exact Et|]. left.
    pose proof (G_pair _ _ _ HG t p q Et RQ) as PO.
    match goal with R : ring_op _ _ _ |- _ => destruct R; try (destruct SV; fail) end; [exact I|]. cbn [saved pair_ok] in *. kfld.
    destruct PO as [->| ->]; [congruence|]. destruct (ring_consumer _ _ _ _ _ _ RQ RS SV ltac:(rewrite (W_lenrv _ _ HW); exact Ht)) as (_ & _ & _ & _ & K).
    match goal with R : nth_error (w_threads r) t = Some _, R' : running _ |- _ => rewrite K in R; injection R as <-; destruct R' end.
  - split; [reflexivity|]. split; [apply (know3_same s); [reflexivity|reflexivity|exact KN]|]. exists (APanicked e). split; [apply U|]. left. exact I.
  - match goal with R : wstep _ _ _ = Some _ |- _ => rename R into RS end. match goal with R : nth_error (w_threads (k_ring s)) t = Some _ |- _ => rename R into RQ end.
    pose proof (G_pair _ _ _ HG t p q Et RQ) as PO. match goal with L : ring_ret _ _ _ _ _ |- _ => rename L into RR end.
    assert (Lr : (t < length (w_views (k_ring s)))%nat) by (rewrite (W_lenrv _ _ HW); exact Ht).
    inversion RR; subst; cbn [saved pair_ok] in SV, PO; try (destruct SV; fail).
    + split; [reflexivity|]. split; [apply (know3_same s); [reflexivity|reflexivity|exact KN]|]. exists SConsumer. split; [apply U|]. left. cbn [saved]. kfld.
      eapply ring_publish; [exact RQ|exact PO|exact RS|assumption|exact Lr].
    + split; [reflexivity|]. split; [apply (know3_same s); [reflexivity|reflexivity|exact KN]|]. eexists. split; [apply U|]. left. cbn [saved]. unfold fresh_sp, head_new. kfld.
      destruct PO as [->| ->]; [congruence|]. destruct (ring_consumer _ _ _ _ _ _ RQ RS SV Lr) as (K0 & K1 & K2 & K3 & _).
      match goal with R : nth_error (w_events r) _ = Some _ |- _ => rewrite K3, app_length in R; cbn [length] in R; rewrite nth_error_app2 in R by lia;
        replace (length (w_events (k_ring s)) + 1 - 1 - length (w_events (k_ring s)))%nat with 0%nat in R by lia; injection R as <- <- end.
      split; [|exact K0]. rewrite Nat2Z.id. exists (Msg (top (k_ring s)) []). rewrite K2, nth_error_app2, Nat.sub_diag by lia. split; [reflexivity|]. unfold top. rewrite K1. reflexivity.
Qed.

(** ** One step of delta_statistics *)
(** [mn0], [mx0], [cur0]: the newest values; thread [u] knows them and the newest published tail,
    which is where the consumer of save point [k] starts *)
Definition asking (s : kst) (u k : nat) (p : apc) : Prop :=
  match p with
  | DPeek k' => k' = k
  | DMin k' mn mx => k' = k /\ mn = two64 - 1 /\ mx = 0
  | DMax k' mn mx => k' = k /\ mn = Z.min (two64 - 1) (kvalue s FMin) /\ mx = 0
  | DLoads k' mn mx _ _ => k' = k /\ mn = Z.min (two64 - 1) (kvalue s FMin) /\ mx = Z.max 0 (kvalue s FMax)
  | APanicked _ => True
  | _ => False
  end.
Definition pub_known (s : kst) (u k : nat) : Prop :=
  (length (w_pub (k_ring s)) <= seen (view_of (k_ring s) u) Pub)%nat /\
  exists sp, nth_error (k_sps s) k = Some sp /\ head_new s (fst sp).

Lemma asking_step b sz n s u k fails picks s' p : KWf n s -> RG sz n s -> kstep b s (KStep u fails picks) = Some s' ->
  nth_error (k_threads s) u = Some p -> know3 s u -> pub_known s u k -> asking s u k p ->
  (forall f, k_msgs s' f = k_msgs s f) /\ know3 s' u /\ pub_known s' u k /\
  exists p', nth_error (k_threads s') u = Some p' /\
    (asking s' u k p' \/ p' = AIdle /\ exists o, k_deltas s' = k_deltas s ++ [(k, o)] /\
       forall ds, o = Some ds -> exists acc, ds = acc ++ [kvalue s FCur; Z.min (two64 - 1) (kvalue s FMin); Z.max 0 (kvalue s FMax)]).
Proof.
  intros HW HG E Et KN PK SV. unfold kstep in E. destruct (kact b s (KStep u fails picks)) as [s1|] eqn:E1; [|discriminate]. injection E as <-. cbn [kact] in E1.
  rewrite Et in E1. apply kstep_shapes in E1.
  assert (Ht : (u < n)%nat) by (rewrite <- (W_len _ _ HW); apply nth_error_Some; congruence).
  assert (Hv : (u < length (k_views s))%nat) by (rewrite (W_lenv _ _ HW); exact Ht).
  assert (U : forall p', nth_error (upd u p' (k_threads s)) u = Some p').
  { intros p'. rewrite nth_error_upd, Nat.eqb_refl, (proj2 (Nat.ltb_lt _ _)); [reflexivity|]. apply nth_error_Some. congruence. }
  assert (G : (forall f, k_msgs s1 f = k_msgs s f) /\ know3 s1 u /\ pub_known s1 u k /\
  exists p', nth_error (k_threads s1) u = Some p' /\
    (asking s1 u k p' \/ p' = AIdle /\ exists o, k_deltas s1 = k_deltas s ++ [(k, o)] /\
       forall ds, o = Some ds -> exists acc, ds = acc ++ [kvalue s FCur; Z.min (two64 - 1) (kvalue s FMin); Z.max 0 (kvalue s FMax)])); [|exact G].
  assert (PEEK : forall sp' q fails0 picks0 r, nth_error (k_threads s) u = Some (DPeek k) -> nth_error (k_sps s) k = Some sp' -> nth_error (w_threads (k_ring s)) u = Some q -> q <> Idle ->
     wstep b (k_ring s) (WStep u fails0 picks0) = Some r -> pub_known (kput_ring s r) u k /\
     ((exists h, nth_error (w_threads r) u = Some (PeekLoadTail (Z.to_nat (fst sp')) h)) \/
      nth_error (w_threads r) u = Some Idle /\ exists h tl rs, w_events r = w_events (k_ring s) ++ [EvPeeked (Z.to_nat (fst sp')) h tl rs []])).
  { intros sp' q fails0 picks0 r Ep ES RQ NI RS. destruct PK as [P1 (sp & E2 & (m & Hm & Vm))]. rewrite ES in E2. injection E2 as <-.
    pose proof (G_pair _ _ _ HG u _ q Ep RQ) as PO. cbn [pair_ok] in PO. destruct PO as [->|(sp & E2 & PO)]; [congruence|]. rewrite ES in E2. injection E2 as <-.
    destruct (ring_peek b (k_ring s) u q (Z.to_nat (fst sp')) fails0 picks0 r RQ) as (R1 & R2 & R3 & R4); [|exact RS|exact P1|rewrite (W_lenrv _ _ HW); exact Ht|].
    - destruct PO as [->|(h & ->)]; [left; reflexivity|right]. exists h. split; [reflexivity|].
      destruct (RK_peek _ (G_rk _ _ _ HG) u _ h RQ) as (m' & Hm' & -> & _). rewrite Hm in Hm'. injection Hm' as <-. exact Vm.
    - split; [|exact R4]. split; [kfld; rewrite R1; lia|]. exists sp'. split; [exact ES|]. exists m. kfld. rewrite R2. split; [exact Hm|]. rewrite Vm. unfold top. rewrite R1. reflexivity. }
  inversion E1; subst; cbn [asking] in SV; try (destruct SV; fail).
  - match goal with C : can_load _ _ _ _ _ |- _ => rename C into CL end. match goal with C : load_kind _ _ _ |- _ => rename C into LK end.
    split; [reflexivity|]. split; [apply (know3_loaded s u f k0 v Hv CL KN)|]. split; [exact PK|]. exists (next v). split; [apply U|]. left.
    destruct LK; cbn [asking] in SV; try (destruct SV; fail).
    + destruct SV as (-> & -> & ->). split; [reflexivity|]. split; [|reflexivity]. f_equal. exact (know3_load_val s u FMin k0 v KN mmin CL).
    + destruct SV as (-> & -> & ->). split; [reflexivity|]. split; [reflexivity|]. f_equal. exact (know3_load_val s u FMax k0 v KN mmax CL).
  - match goal with R : wstep _ _ _ = Some _ |- _ => rename R into RS end. match goal with R : ring_op _ _ _ |- _ => destruct R as [| |k' sp' ES]; try (destruct SV; fail) end. cbn [asking] in SV. subst k'.
    split; [reflexivity|]. split; [apply (know3_same s); [reflexivity|reflexivity|exact KN]|]. split.
    + cbn [wstep] in RS. match goal with R : nth_error (w_threads _) u = Some Idle |- _ => rewrite R in RS end.
      destruct (wop_ok (k_ring s) u (CPeekAll (Z.to_nat (fst sp')))); [|discriminate]. injection RS as <-. destruct PK as [P1 P2]. split; [|exact P2].
      kfld. unfold view_of. cbn [goto w_pub w_views]. rewrite view_upd, Nat.eqb_refl, (W_lenrv _ _ HW), (proj2 (Nat.ltb_lt _ _)) by exact Ht. exact P1.
    + exists (DPeek k). kfld. split; [exact Et|]. left. reflexivity.
  - match goal with R : wstep _ _ _ = Some _ |- _ => rename R into RS end. match goal with R : nth_error (w_threads (k_ring s)) u = Some _ |- _ => rename R into RQ end.
    match goal with R : ring_op _ _ _ |- _ => destruct R as [| |k' sp' ES]; try (destruct SV; fail) end. cbn [asking] in SV. subst k'.
    destruct (PEEK sp' q fails0 picks0 r Et ES RQ ltac:(assumption) RS) as (PK' & _).
    split; [reflexivity|]. split; [apply (know3_same s); [reflexivity|reflexivity|exact KN]|]. split; [exact PK'|].
    exists (DPeek k). kfld. split; [exact Et|]. left. reflexivity.
  - match goal with R : wstep _ _ _ = Some _ |- _ => rename R into RS end. match goal with R : nth_error (w_threads (k_ring s)) u = Some _ |- _ => rename R into RQ end.
    match goal with R : ring_op _ _ _ |- _ => destruct R as [| |k' sp' ES]; try (destruct SV; fail) end. cbn [asking] in SV. subst k'.
    destruct (PEEK sp' q fails0 picks0 r Et ES RQ ltac:(assumption) RS) as (_ & [(h & K)|(K & _)]); congruence.
  - match goal with R : wstep _ _ _ = Some _ |- _ => rename R into RS end. match goal with R : nth_error (w_threads (k_ring s)) u = Some _ |- _ => rename R into RQ end.
    match goal with L : ring_ret _ _ _ _ _ |- _ => rename L into RR end. match goal with R : nth_error (w_events r) _ = Some _ |- _ => rename R into EV end.
    match goal with R : ring_op _ _ _ |- _ => destruct R as [| |k' sp' ES]; try (destruct SV; fail) end. cbn [asking] in SV. subst k'.
    destruct (PEEK sp' q fails0 picks0 r Et ES RQ ltac:(assumption) RS) as (PK' & [(h & K)|(_ & (h & tl & rs & K))]); [congruence|].
    rewrite K, app_length in EV. cbn [length] in EV. rewrite nth_error_app2 in EV by lia.
    replace (length (w_events (k_ring s)) + 1 - 1 - length (w_events (k_ring s)))%nat with 0%nat in EV by lia. injection EV as <-.
    inversion RR; subst.
    + match goal with F : fold_minmax [] _ _ = Val _ |- _ => cbn [fold_minmax] in F; injection F as <- <- end.
      split; [reflexivity|]. split; [apply (know3_same s); [reflexivity|reflexivity|exact KN]|]. split; [exact PK'|].
      eexists. split; [apply U|]. left. repeat split.
    + match goal with F : fold_minmax [] _ _ = Panic _ |- _ => discriminate F end.
  - match goal with C : can_load _ _ _ _ _ |- _ => rename C into CL end.
    split; [reflexivity|]. split; [apply (know3_loaded s u f i v Hv CL KN)|]. split; [exact PK|]. eexists. split; [apply U|]. left. exact SV.
  - match goal with C : can_load _ _ _ _ _ |- _ => rename C into CL end.
    split; [reflexivity|]. split; [apply (know3_loaded s u f i v Hv CL KN)|]. split; [exact PK|]. eexists. split; [apply U|]. left. exact I.
  - match goal with C : can_load _ _ _ _ _ |- _ => rename C into CL end. destruct SV as (-> & -> & ->).
    split; [reflexivity|]. split; [apply (know3_loaded s u FCur i v Hv CL KN)|]. split; [exact PK|]. exists AIdle. split; [apply U|]. right. split; [reflexivity|].
    eexists. split; [reflexivity|]. intros ds [= <-]. exists acc. rewrite (know3_load_val s u FCur i v KN mcur CL). reflexivity.
Qed.
