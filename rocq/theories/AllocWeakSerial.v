(** * Relaxed memory: a thread that knows everything sees the sequential allocator.
    Part 1: the ring. *)
From Coq Require Import List ZArith Lia Bool Arith.
From Verif Require Import Machine Ring RingSeq RingConc Alloc AllocSpec AllocProofs AllocConc AllocConcSpec AllocConcProofs AllocConcProofs2
  RingWeak RingWeakSpec RingWeakProofs RingWeakProofs2 RingWeakProofs3
  AllocWeak AllocWeakSpec AllocWeakProofs AllocWeakProofs2 AllocWeakMinMax AllocWeakMinMax2.
Import ListNotations.
Open Scope Z_scope.

Definition tops (ms : list msg) (v : Z) : Prop := exists m, newest ms = Some m /\ m_val m = v.
Definition lasto (ws : list (Z * Z)) : option (Z * Z) := nth_error ws (length ws - 1).
(** the newest message of every location is what the sequential ring holds *)
Record rrel (r : wstate (Z * Z)) (q : ring (Z * Z)) : Prop := {
  R_res : tops (w_res r) (reserved_tail q);
  R_pub : tops (w_pub r) (published_tail q);
  R_slots : slots q = map lasto (w_slots r)
}.
Definition rknow (r : wstate (Z * Z)) (t : nat) : Prop :=
  (length (w_pub r) <= Nat.max 1 (seen (view_of r t) Pub))%nat /\ forall i, (length (nth i (w_slots r) []) <= seen (view_of r t) (Slot i))%nat.

Lemma tops_snoc ms m : tops (ms ++ [m]) (m_val m).
Proof. exists m. split; [|reflexivity]. unfold newest. rewrite app_length. cbn [length]. rewrite nth_error_app2 by lia. replace (length ms + 1 - 1 - length ms)%nat with 0%nat by lia. reflexivity. Qed.
Lemma read_tops ms k pick m v : (length ms <= Nat.max 1 k)%nat -> read_at ms k pick = Some m -> tops ms v -> m_val m = v.
Proof.
  unfold read_at. intros L. destruct (Nat.leb_spec k (S pick)); [|discriminate]. intros E (m' & E' & <-). unfold newest in E'.
  assert (pick < length ms)%nat by (apply nth_error_Some; congruence). replace (length ms - 1)%nat with pick in E' by lia. congruence.
Qed.
Lemma goto_view (r : wstate (Z * Z)) t p v : (t < length (w_views r))%nat -> view_of (goto r t p v) t = v.
Proof. intros L. unfold view_of. cbn [goto w_views]. rewrite view_upd, Nat.eqb_refl, (proj2 (Nat.ltb_lt _ _)) by exact L. reflexivity. Qed.
Lemma lasto_snoc ws x : lasto (ws ++ [x]) = Some x.
Proof. unfold lasto. rewrite app_length. cbn [length]. rewrite nth_error_app2 by lia. replace (length ws + 1 - 1 - length ws)%nat with 0%nat by lia. reflexivity. Qed.
Lemma map_upd {X Y} (f : X -> Y) i x l : map f (upd i x l) = upd i (f x) (map f l).
Proof. revert i; induction l as [|y l IH]; intros [|i]; cbn [upd map]; f_equal; auto. Qed.

(** ** enqueue *)
Definition enq_at (q0 : ring (Z * Z)) (x : Z * Z) (r : wstate (Z * Z)) (p : pc (Z * Z)) : Prop :=
  let rt := reserved_tail q0 in
  let q1 := Ring (wrap32 (rt + 1)) (published_tail q0) (slots q0) (overwritten q0) in
  match p with
  | EnqReserve y => y = x /\ rrel r q0
  | EnqWrite rt' y => y = x /\ rt' = rt /\ rrel r q1
  | EnqPublish rt' y => y = x /\ rt' = rt /\ rrel r (store q1 rt x)
  | _ => False
  end.
Lemma enq_step b (r : wstate (Z * Z)) t q0 x p fails picks r' : nth_error (w_threads r) t = Some p -> (t < length (w_views r))%nat -> rknow r t -> enq_at q0 x r p ->
  wstep b r (WStep t fails picks) = Some r' ->
  rknow r' t /\ w_heads r' = w_heads r /\ exists p', w_threads r' = upd t p' (w_threads r) /\
    (enq_at q0 x r' p' \/ (p' = Idle /\ exists q', enqueue b q0 x = Val q' /\ rrel r' q') \/ exists e, p' = Panicked e).
Proof.
  intros Hp Lv [K1 K2] A E. cbn [wstep] in E. rewrite Hp in E. destruct p as [|y|rt y|rt y|c|c h|c h|c h|c|c h| |e]; cbn [enq_at] in A; try (destruct A; fail); cbn [wthread_step] in E.
  - destruct A as (-> & [A1 A2 A3]). destruct (newest (w_res r)) as [m|] eqn:En; [|discriminate]. injection E as <-.
    split; [|split; [reflexivity|]].
    + split; [|intros i]; rewrite goto_view by exact Lv; rewrite seen_cons; cbn [loc_eqb goto w_pub w_slots]; [exact K1|apply K2].
    + eexists. split; [reflexivity|]. left. destruct A1 as (m' & E1 & E2). rewrite En in E1. injection E1 as <-. split; [reflexivity|]. split; [exact E2|].
      constructor; cbn [goto w_res w_pub w_slots reserved_tail published_tail slots]; [|exact A2|exact A3]. rewrite <- E2. apply (tops_snoc (w_res r) (Msg (wrap32 (m_val m + 1)) _)).
  - destruct A as (-> & -> & [A1 A2 A3]). injection E as <-. cbn [reserved_tail published_tail slots] in *.
    assert (SI : slot_index (Ring (wrap32 (reserved_tail q0 + 1)) (published_tail q0) (slots q0) (overwritten q0)) (reserved_tail q0) = slot_of r (reserved_tail q0)).
    { unfold slot_index, slot_of, size, wsize. cbn [slots]. rewrite A3, map_length. reflexivity. }
    split; [|split; [reflexivity|]].
    + split; [|intros i]; change (view_of (race ?a t ?l) t) with (view_of a t); rewrite goto_view by exact Lv; rewrite seen_cons; cbn [loc_eqb race goto w_pub w_slots]; [exact K1|].
      rewrite nth_upd. destruct (Nat.eqb_spec (slot_of r (reserved_tail q0)) i) as [->|N]; [|apply K2].
      match goal with |- context [if ?x then _ else _] => destruct x end; [rewrite app_length; cbn [length]; lia|cbn [length]; lia].
    + eexists. split; [reflexivity|]. left. split; [reflexivity|]. split; [reflexivity|].
      constructor; cbn [race goto w_res w_pub w_slots store reserved_tail published_tail slots]; [exact A1|exact A2|].
      rewrite SI, A3, map_upd, lasto_snoc. reflexivity.
  - destruct A as (-> & -> & A). destruct (u32_add b (reserved_tail q0) 1) as [nxt|q|] eqn:EA; [| |discriminate].
    2:{ injection E as <-. split; [|split; [reflexivity|]]; [|eexists; split; [reflexivity|]; eauto].
        split; [|intros i]; rewrite goto_view by exact Lv; [exact K1|apply K2]. }
    destruct (newest (w_pub r)) as [m|] eqn:En; [|discriminate]. destruct A as [A1 A2 A3].
    destruct A2 as (m' & E1 & E2). rewrite En in E1. injection E1 as <-.
    destruct (negb fails && (m_val m =? reserved_tail q0)) eqn:EC.
    + apply andb_true_iff in EC. destruct EC as [_ EC]. injection E as <-. split; [|split; [reflexivity|]].
      * split; [|intros i]; change (view_of (wlog ?a ?l) t) with (view_of a t); rewrite goto_view by exact Lv; rewrite seen_cons; cbn [loc_eqb wlog goto w_pub w_slots]; [rewrite app_length; cbn [length]; lia|apply K2].
      * eexists. split; [reflexivity|]. right. left. split; [reflexivity|]. unfold enqueue. rewrite EA. cbn [bind]. rewrite <- E2, EC.
        eexists. split; [reflexivity|]. constructor; cbn [wlog goto w_res w_pub w_slots reserved_tail published_tail slots]; [exact A1| |exact A3].
        apply (tops_snoc (w_pub r) (Msg nxt _)).
    + destruct picks as [|k [|]]; try discriminate. destruct (read_at (w_pub r) (seen (view_of r t) Pub) k) as [m'|] eqn:ER; [|discriminate].
      assert (LK : (k < length (w_pub r))%nat). { unfold read_at in ER. destruct (_ <=? _)%nat in ER; [|discriminate]. apply nth_error_Some. congruence. }
      destruct (m_val m' >? reserved_tail q0); injection E as <-.
      * split; [|split; [reflexivity|]]; [|eexists; split; [reflexivity|]; eauto]. split; [|intros i]; rewrite goto_view by exact Lv; [exact K1|apply K2].
      * split; [|split; [reflexivity|]].
        -- split; [|intros i]; rewrite goto_view by exact Lv; rewrite seen_cons; cbn [loc_eqb goto w_pub w_slots]; [lia|apply K2].
        -- eexists. split; [reflexivity|]. left. split; [reflexivity|]. split; [reflexivity|]. constructor; [exact A1|exists m; split; [exact En|exact E2]|exact A3].
Qed.

(** ** consumer *)
Lemma cons_step b (r : wstate (Z * Z)) t q fails picks r' : nth_error (w_threads r) t = Some ConsLoad -> (t < length (w_views r))%nat -> rknow r t -> rrel r q ->
  wstep b r (WStep t fails picks) = Some r' ->
  rknow r' t /\ rrel r' q /\ w_threads r' = upd t Idle (w_threads r) /\
  exists m, w_heads r' = w_heads r ++ [[m]] /\ m_val m = published_tail q /\ w_events r' = w_events r ++ [EvConsumer (length (w_heads r)) (published_tail q)].
Proof.
  intros Hp Lv [K1 K2] [A1 A2 A3] E. cbn [wstep] in E. rewrite Hp in E. cbn [wthread_step] in E.
  destruct picks as [|k [|]]; try discriminate. destruct (read_at (w_pub r) (seen (view_of r t) Pub) k) as [m|] eqn:ER; [|discriminate]. injection E as <-.
  rewrite (read_tops _ _ _ _ _ K1 ER A2). split; [|split; [|split; [reflexivity|]]].
  - split; [|intros i]; change (view_of (wlog ?a ?l) t) with (view_of a t); rewrite goto_view by exact Lv; rewrite !seen_cons; cbn [loc_eqb wlog goto w_pub w_slots]; [lia|apply K2].
  - constructor; [exact A1|exact A2|exact A3].
  - eexists. split; [reflexivity|]. split; reflexivity.
Qed.

(** ** peek_all *)
Lemma read_slot_known (r : wstate (Z * Z)) v i k o ws : nth_error (w_slots r) i = Some ws -> (length ws <= seen v (Slot i))%nat -> read_slot r v i k = Some o -> o = lasto ws.
Proof.
  unfold read_slot. intros E L. rewrite E. destruct (Nat.leb_spec (seen v (Slot i)) k); [|discriminate]. destruct k as [|k].
  - intros [= <-]. destruct ws; [reflexivity|cbn [length] in L; lia].
  - destruct (nth_error ws k) as [x|] eqn:Ex; [|discriminate]. intros [= <-]. assert (k < length ws)%nat by (apply nth_error_Some; congruence).
    unfold lasto. replace (length ws - 1)%nat with k by lia. congruence.
Qed.
Lemma read_slots_known (r : wstate (Z * Z)) v : (forall i, (length (nth i (w_slots r) []) <= seen v (Slot i))%nat) ->
  forall js i l, read_slots r v i js = Some l -> l = map lasto (skipn i (w_slots r)).
Proof.
  intros K. induction js as [|j js IH]; intros i l; cbn [read_slots].
  - destruct (Nat.eqb_spec i (length (w_slots r))) as [->|]; [|discriminate]. intros [= <-]. rewrite skipn_all. reflexivity.
  - destruct (read_slot r v i j) as [o|] eqn:Eo; [|discriminate]. destruct (read_slots r v (S i) js) as [l'|] eqn:El; [|discriminate]. intros [= <-].
    destruct (nth_error (w_slots r) i) as [ws|] eqn:Ew; [|unfold read_slot in Eo; rewrite Ew in Eo; discriminate].
    rewrite (IH _ _ El). pose proof (K i) as Ki. rewrite (nth_error_nth _ _ _ Ew) in Ki. rewrite (read_slot_known r v i j o ws Ew Ki Eo).
    clear - Ew. revert i Ew. induction (w_slots r) as [|y ys IHy]; intros [|i]; cbn [nth_error skipn map]; try discriminate; [intros [= ->]; reflexivity|apply IHy].
Qed.
Definition peek_at (r : wstate (Z * Z)) (c : nat) (h : Z) (p : pc (Z * Z)) : Prop :=
  match p with PeekLoadHead c' => c' = c | PeekLoadTail c' h' => c' = c /\ h' = h | _ => False end.
Lemma peek_step b (r : wstate (Z * Z)) t q c h m p fails picks r' : nth_error (w_threads r) t = Some p -> (t < length (w_views r))%nat -> rknow r t -> rrel r q ->
  nth_error (w_heads r) c = Some [m] -> m_val m = h -> peek_at r c h p ->
  wstep b r (WStep t fails picks) = Some r' ->
  rknow r' t /\ rrel r' q /\ w_heads r' = w_heads r /\ exists p', w_threads r' = upd t p' (w_threads r) /\
    (peek_at r' c h p' \/ (p' = Idle /\ exists e, peek_event b q c h = Val e /\ w_events r' = w_events r ++ [e]) \/ exists e, p' = Panicked e).
Proof.
  intros Hp Lv [K1 K2] [A1 A2 A3] Hm Vm A E. cbn [wstep] in E. rewrite Hp in E.
  destruct p as [|y|rt y|rt y|c'|c' h'|c' h'|c' h'|c'|c' h'| |e]; cbn [peek_at] in A; try (destruct A; fail); cbn [wthread_step] in E.
  - subst c'. rewrite Hm in E. destruct picks as [|k [|]]; try discriminate. destruct (read_at [m] (seen (view_of r t) (Head c)) k) as [m'|] eqn:ER; [|discriminate]. injection E as <-.
    assert (m' = m) as ->. { unfold read_at in ER. destruct (_ <=? _)%nat in ER; [|discriminate]. destruct k as [|[|k]]; cbn [nth_error] in ER; congruence. }
    split; [|split; [|split; [reflexivity|]]].
    + split; [|intros i]; rewrite goto_view by exact Lv; rewrite !seen_cons; cbn [loc_eqb goto w_pub w_slots]; [exact K1|apply K2].
    + constructor; [exact A1|exact A2|exact A3].
    + eexists. split; [reflexivity|]. left. split; [reflexivity|exact Vm].
  - destruct A as [-> ->]. destruct picks as [|k js]; [discriminate|]. destruct (read_at (w_pub r) (seen (view_of r t) Pub) k) as [m'|] eqn:ER; [|discriminate].
    destruct (read_slots r (view_of r t) 0 js) as [l|] eqn:EL; [|discriminate]. destruct (newest (w_res r)) as [mr|] eqn:EM; [|discriminate].
    pose proof (read_tops _ _ _ _ _ K1 ER A2) as V. apply (read_slots_known r (view_of r t) K2) in EL. cbn [skipn] in EL. rewrite <- A3 in EL. subst l.
    pose proof A1 as (mr' & E1 & E2). rewrite EM in E1. injection E1 as <-.
    assert (PE : peek_event b (Ring (m_val mr) (m_val m') (slots q) []) c h = peek_event b q c h).
    { rewrite E2, V. destruct q as [q1 q2 q3 q4]. reflexivity. }
    assert (LK : (k < length (w_pub r))%nat). { unfold read_at in ER. destruct (_ <=? _)%nat in ER; [|discriminate]. apply nth_error_Some. congruence. }
    rewrite PE in E. destruct (peek_event b q c h) as [e|e|] eqn:EP; [| |discriminate]; injection E as <-.
    + split; [|split; [|split; [reflexivity|]]].
      * split; [|intros i]; change (view_of (race (wlog ?a ?l1) ?x ?l) t) with (view_of a t); rewrite goto_view by exact Lv; rewrite seen_cons; cbn [loc_eqb race wlog goto w_pub w_slots]; [lia|apply K2].
      * constructor; [exact A1|exact A2|exact A3].
      * eexists. split; [reflexivity|]. right. left. split; [reflexivity|]. exists e. split; reflexivity.
    + split; [|split; [|split; [reflexivity|]]].
      * split; [|intros i]; rewrite goto_view by exact Lv; rewrite seen_cons; cbn [loc_eqb goto w_pub w_slots]; [lia|apply K2].
      * constructor; [exact A1|exact A2|exact A3].
      * eexists. split; [reflexivity|]. right. right. eauto.
Qed.
