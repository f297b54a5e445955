(** * Proofs about the sequential allocator metrics (model: Alloc.v, vocabulary: AllocSpec.v). *)
From Coq Require Import List ZArith Lia Bool.
From Verif Require Import Machine Ring RingSeq Analysis Alloc AllocSpec.
Import ListNotations.
Open Scope Z_scope.

(** ** Totals *)
Lemma total_app f p q : total f (p ++ q) = total f p + total f q.
Proof.
  unfold total. rewrite map_app. induction (map f p); simpl; lia.
Qed.
Lemma total_one f op : total f [op] = f op.
Proof. unfold total; simpl; lia. Qed.
Lemma total_snoc f p op : total f (p ++ [op]) = total f p + f op.
Proof. rewrite total_app, total_one. reflexivity. Qed.
Lemma total_nonneg f p : (forall op, In op p -> 0 <= f op) -> 0 <= total f p.
Proof.
  unfold total. induction p; simpl; intros H; [lia|].
  pose proof (H a (or_introl eq_refl)). assert (0 <= sum (map f p)) by auto. unfold sum in *. lia.
Qed.
Lemma total_le_length f p : (forall op, f op <= 1) -> total f p <= Z.of_nat (length p).
Proof.
  intros H. unfold total. induction p; simpl; [lia|]. specialize (H a). unfold sum in *. lia.
Qed.

Lemma used_snoc p op : used (p ++ [op]) = used p + delta op.
Proof. apply total_snoc. Qed.
Lemma saves_snoc p op : saves (p ++ [op]) = saves p + is_save op.
Proof. apply total_snoc. Qed.
Lemma saves_app p q : saves (p ++ q) = saves p + saves q.
Proof. apply total_app. Qed.
Lemma saves_nonneg p : 0 <= saves p.
Proof. apply total_nonneg. intros [] _; simpl; lia. Qed.

(** ** Levels *)
Lemma levels_nil p : levels p [] = [used p].
Proof. unfold levels. simpl. rewrite app_nil_r. reflexivity. Qed.

Lemma levels_snoc p q op : levels p (q ++ [op]) = levels p q ++ [used (p ++ q ++ [op])].
Proof.
  unfold levels. rewrite app_length. cbn [length]. rewrite Nat.add_1_r. rewrite (seq_S (S (length q))).
  rewrite map_app. f_equal.
  - apply map_ext_in. intros i Hi. apply in_seq in Hi. f_equal. f_equal.
    rewrite firstn_app. replace (i - length q)%nat with 0%nat by lia. rewrite app_nil_r. reflexivity.
  - cbn [map]. f_equal. f_equal. f_equal. rewrite Nat.add_0_l.
    rewrite firstn_all2; [reflexivity|]. rewrite app_length; cbn [length]. lia.
Qed.

Lemma levels_app p q r : levels (p ++ q) r = map (fun i => used (p ++ q ++ firstn i r)) (seq 0 (S (length r))).
Proof. unfold levels. apply map_ext. intros i. rewrite app_assoc. reflexivity. Qed.

Lemma levels_last p q : In (used (p ++ q)) (levels p q).
Proof.
  unfold levels. apply in_map_iff. exists (length q). split.
  - rewrite firstn_all. reflexivity.
  - apply in_seq. lia.
Qed.

Lemma levels_sub p q x : In x (levels p q) -> In x (levels [] (p ++ q)).
Proof.
  unfold levels. rewrite !in_map_iff. intros (i & E & Hi). apply in_seq in Hi.
  exists (length p + i)%nat. split.
  - rewrite firstn_app_2. exact E.
  - apply in_seq. rewrite app_length. lia.
Qed.

(** ** Feasible histories are closed under prefixes *)
Lemma total_prefix_le f p q : (forall op, In op q -> 0 <= f op) -> total f p <= total f (p ++ q).
Proof. intros H. rewrite total_app. pose proof (total_nonneg f q H). lia. Qed.

Lemma sizes_f op : sizes_ok op -> 0 <= f_allocated op /\ 0 <= f_deallocated op /\ 0 <= f_zeroed_bytes op /\
  0 <= f_realloc_old op /\ 0 <= f_realloc_new op.
Proof. destruct op; simpl; lia. Qed.

Lemma levels_prefix p q x : In x (levels [] p) -> In x (levels [] (p ++ q)).
Proof.
  unfold levels. rewrite !in_map_iff. intros (i & E & Hi). apply in_seq in Hi.
  exists i. split; [|apply in_seq; rewrite app_length; lia].
  rewrite <- E. f_equal. simpl. rewrite firstn_app. replace (i - length p)%nat with 0%nat by lia.
  rewrite app_nil_r. reflexivity.
Qed.

Lemma feasible_prefix p q : feasible (p ++ q) -> feasible p.
Proof.
  intros (H1 & H2 & H3 & H4 & H5 & H6 & H7 & H8 & H9).
  apply Forall_app in H1. destruct H1 as [H1 H1'].
  rewrite app_length, Nat2Z.inj_add in H3.
  assert (forall op, In op q -> sizes_ok op) as HS by (apply Forall_forall; exact H1').
  repeat split; auto.
  - apply H2. apply levels_prefix. exact H.
  - apply H2. apply levels_prefix. exact H.
  - lia.
  - pose proof (total_prefix_le f_allocated p q (fun o Ho => proj1 (sizes_f o (HS o Ho)))). lia.
  - pose proof (total_prefix_le f_deallocated p q (fun o Ho => proj1 (proj2 (sizes_f o (HS o Ho))))). lia.
  - pose proof (total_prefix_le f_zeroed_bytes p q (fun o Ho => proj1 (proj2 (proj2 (sizes_f o (HS o Ho)))))). lia.
  - pose proof (total_prefix_le f_realloc_old p q (fun o Ho => proj1 (proj2 (proj2 (proj2 (sizes_f o (HS o Ho))))))). lia.
  - pose proof (total_prefix_le f_realloc_new p q (fun o Ho => proj2 (proj2 (proj2 (proj2 (sizes_f o (HS o Ho))))))). lia.
  - rewrite saves_app in H9. pose proof (saves_nonneg q). lia.
Qed.

Lemma used_feasible p : feasible p -> 0 <= used p < two64.
Proof. intros (_ & H & _). apply H. pose proof (levels_last [] p). exact H0. Qed.

(** ** Running *)
Lemma arun_app b s p q : arun b s (p ++ q) =
  (r <- arun b s p ;; r' <- arun b (fst r) q ;; Val (fst r', snd r ++ snd r')).
Proof.
  revert s. induction p as [|op p IH]; intros s; cbn [app arun].
  - cbn [bind fst snd]. destruct (arun b s q) as [[s' o]| |]; reflexivity.
  - destruct (astep b s op) as [[s1 o1]| |]; cbn [bind fst snd]; [|reflexivity|reflexivity].
    rewrite IH. destruct (arun b s1 p) as [[s2 o2]| |]; cbn [bind fst snd]; [|reflexivity|reflexivity].
    destruct (arun b s2 q) as [[s3 o3]| |]; reflexivity.
Qed.

(** ** Minimum and maximum *)
Lemma is_min_snoc m l x : is_min m l -> is_min (Z.min m x) (l ++ [x]).
Proof.
  intros [Hi Hl]. split.
  - apply in_or_app. destruct (Z.min_spec m x) as [[_ E]|[_ E]]; rewrite E; [left; exact Hi|right; left; reflexivity].
  - intros y Hy. apply in_app_or in Hy. destruct Hy as [Hy|[<-|[]]]; [specialize (Hl y Hy)|]; lia.
Qed.
Lemma is_max_snoc m l x : is_max m l -> is_max (Z.max m x) (l ++ [x]).
Proof.
  intros [Hi Hl]. split.
  - apply in_or_app. destruct (Z.max_spec m x) as [[_ E]|[_ E]]; rewrite E; [right; left; reflexivity|left; exact Hi].
  - intros y Hy. apply in_app_or in Hy. destruct Hy as [Hy|[<-|[]]]; [specialize (Hl y Hy)|]; lia.
Qed.
Lemma is_min_one x : is_min x [x].
Proof. split; [left; reflexivity|]. intros y [<-|[]]. lia. Qed.
Lemma is_max_one x : is_max x [x].
Proof. split; [left; reflexivity|]. intros y [<-|[]]. lia. Qed.

Definition min_of (l : list (Z * Z)) (m : Z) : Z := fold_right Z.min m (map fst l).
Definition max_of (l : list (Z * Z)) (m : Z) : Z := fold_right Z.max m (map snd l).

Lemma min_of_min l a c : min_of l (Z.min a c) = Z.min (min_of l a) c.
Proof. unfold min_of. induction l as [|[]]; simpl; [lia|]. simpl in *. lia. Qed.
Lemma max_of_max l a c : max_of l (Z.max a c) = Z.max (max_of l a) c.
Proof. unfold max_of. induction l as [|[]]; simpl; [lia|]. simpl in *. lia. Qed.
Lemma min_of_snoc l a c m : min_of (l ++ [(a, c)]) m = Z.min (min_of l a) m.
Proof. unfold min_of. rewrite map_app, fold_right_app. simpl. fold (min_of l (Z.min a m)). apply min_of_min. Qed.
Lemma max_of_snoc l a c m : max_of (l ++ [(a, c)]) m = Z.max (max_of l c) m.
Proof. unfold max_of. rewrite map_app, fold_right_app. simpl. fold (max_of l (Z.max c m)). apply max_of_max. Qed.

Lemma fold_minmax_some l : forall mn mx,
  fold_minmax (map Some l) mn mx = Val (min_of l mn, max_of l mx).
Proof.
  induction l as [|[a c] l IH]; intros mn mx; cbn [map fold_minmax]; [reflexivity|].
  rewrite IH. rewrite min_of_min, max_of_max. unfold min_of, max_of. simpl. f_equal. f_equal; lia.
Qed.

(** ** The invariant *)
Definition counters (ops : list aop) (s : stats) : Prop :=
  allocations_count s = total f_allocations ops /\
  deallocations_count s = total f_deallocations ops /\
  zeroed_allocations_count s = total f_zeroed ops /\
  reallocations_count s = total f_reallocations ops /\
  allocated_bytes s = total f_allocated ops /\
  deallocated_bytes s = total f_deallocated ops /\
  zeroed_allocated_bytes s = total f_zeroed_bytes ops /\
  reallocated_originals_bytes s = total f_realloc_old ops /\
  reallocated_news_bytes s = total f_realloc_new ops /\
  current_used s = used ops.

(** the k-th save point [sp], given the slots [hist] published so far *)
Definition sp_ok (ops : list aop) (hist : list (Z * Z)) (s : stats) (pre post : list aop) (sp : savepoint) : Prop :=
  ops = pre ++ OSave :: post /\
  consumer_head sp = saves pre + 1 /\
  counters pre (metrics sp) /\ current_used (metrics sp) = used pre /\
  is_min (min_of (skipn (Z.to_nat (saves pre + 1)) hist) (min_used s)) (levels (pre ++ [OSave]) post) /\
  is_max (max_of (skipn (Z.to_nat (saves pre + 1)) hist) (max_used s)) (levels (pre ++ [OSave]) post).

Definition ainv (sz : nat) (ops : list aop) (s : astate) : Prop :=
  exists hist,
  ring_inv sz hist (save_ring (alc s)) /\ Z.of_nat (length hist) = saves ops /\
  counters ops (st (alc s)) /\
  (exists pre post, ops = pre ++ post /\ is_min (min_used (st (alc s))) (levels pre post)
                                      /\ is_max (max_used (st (alc s))) (levels pre post)) /\
  Z.of_nat (length (sps s)) = saves ops /\
  (forall pre post, ops = pre ++ OSave :: post ->
     exists sp, nth_error (sps s) (Z.to_nat (saves pre)) = Some sp /\ sp_ok ops hist (st (alc s)) pre post sp).

Lemma ainv_init sz : ainv sz [] (ainit sz).
Proof.
  exists []. split; [apply ring_inv_init|]. split; [reflexivity|]. split; [repeat split|].
  split.
  - exists [], []. split; [reflexivity|]. rewrite levels_nil. split; [apply is_min_one|apply is_max_one].
  - split; [reflexivity|]. intros pre post E. destruct pre; discriminate.
Qed.

Lemma wrap64_in z : 0 <= z < two64 -> wrap64 z = z.
Proof. apply Z.mod_small. Qed.


Lemma astep_compute b s op ops : non_save op -> counters ops (st (alc s)) -> feasible (ops ++ [op]) ->
  exists s', astep b s op = Val (s', ANone) /\ save_ring (alc s') = save_ring (alc s) /\ sps s' = sps s /\
    counters (ops ++ [op]) (st (alc s')) /\
    min_used (st (alc s')) = Z.min (min_used (st (alc s))) (used (ops ++ [op])) /\
    max_used (st (alc s')) = Z.max (max_used (st (alc s))) (used (ops ++ [op])).
Proof.
  intros Hn HC HF. pose proof HF as HF'.
  destruct HF as (H1 & H2 & H3 & H4 & H5 & H6 & H7 & H8 & H9).
  pose proof (used_feasible _ HF') as HU. pose proof (used_feasible _ (feasible_prefix _ _ HF')) as HU0.
  apply Forall_app in H1. destruct H1 as [H1 H1']. inversion H1' as [|? ? HS _]; subst. 
  rewrite app_length, Nat2Z.inj_add in H3. cbn [length] in H3.
  rewrite total_snoc in *. rewrite used_snoc in *.
  pose proof (total_le_length f_allocations ops ltac:(intros []; simpl; lia)).
  pose proof (total_le_length f_deallocations ops ltac:(intros []; simpl; lia)).
  pose proof (total_le_length f_zeroed ops ltac:(intros []; simpl; lia)).
  pose proof (total_le_length f_reallocations ops ltac:(intros []; simpl; lia)).
  assert (forall o, In o ops -> sizes_ok o) as HSs by (apply Forall_forall; exact H1).
  pose proof (total_nonneg f_allocations ops ltac:(intros [] _; simpl; lia)).
  pose proof (total_nonneg f_deallocations ops ltac:(intros [] _; simpl; lia)).
  pose proof (total_nonneg f_zeroed ops ltac:(intros [] _; simpl; lia)).
  pose proof (total_nonneg f_reallocations ops ltac:(intros [] _; simpl; lia)).
  pose proof (total_nonneg f_allocated ops (fun o Ho => proj1 (sizes_f o (HSs o Ho)))).
  pose proof (total_nonneg f_deallocated ops (fun o Ho => proj1 (proj2 (sizes_f o (HSs o Ho))))).
  pose proof (total_nonneg f_zeroed_bytes ops (fun o Ho => proj1 (proj2 (proj2 (sizes_f o (HSs o Ho)))))).
  pose proof (total_nonneg f_realloc_old ops (fun o Ho => proj1 (proj2 (proj2 (proj2 (sizes_f o (HSs o Ho))))))).
  pose proof (total_nonneg f_realloc_new ops (fun o Ho => proj2 (proj2 (proj2 (proj2 (sizes_f o (HSs o Ho))))))).
  destruct HC as (C1 & C2 & C3 & C4 & C5 & C6 & C7 & C8 & C9 & C10).
  destruct op as [n ok|n|n ok|o n ok| |k]; try contradiction;
    cbn [sizes_ok delta f_allocated f_deallocated f_zeroed_bytes f_realloc_old f_realloc_new] in *;
    (eexists; split; [reflexivity|]; split; [reflexivity|]; split; [reflexivity|]);
    unfold with_stats, compute_alloc, compute_dealloc, compute_alloc_zeroed, compute_realloc, compute_min_and_max;
    cbn [alc st allocations_count deallocations_count zeroed_allocations_count reallocations_count
         allocated_bytes deallocated_bytes zeroed_allocated_bytes reallocated_originals_bytes
         reallocated_news_bytes current_used min_used max_used];
    unfold counters; rewrite !total_snoc, used_snoc;
    cbn [alc st allocations_count deallocations_count zeroed_allocations_count reallocations_count
         allocated_bytes deallocated_bytes zeroed_allocated_bytes reallocated_originals_bytes
         reallocated_news_bytes current_used min_used max_used f_allocations f_deallocations f_zeroed f_reallocations
         f_allocated f_deallocated f_zeroed_bytes f_realloc_old f_realloc_new delta];
    rewrite ?C1, ?C2, ?C3, ?C4, ?C5, ?C6, ?C7, ?C8, ?C9, ?C10.
  - rewrite !wrap64_in by lia. repeat split; try lia.
    + destruct (Z.ltb_spec (used ops + n) (min_used (st (alc s)))); lia.
    + destruct (Z.gtb_spec (used ops + n) (max_used (st (alc s)))); lia.
  - replace (used ops - n) with (used ops + - n) by lia. rewrite !wrap64_in by lia. repeat split; try lia.
    + destruct (Z.ltb_spec (used ops + - n) (min_used (st (alc s)))); lia.
    + destruct (Z.gtb_spec (used ops + - n) (max_used (st (alc s)))); lia.
  - rewrite !wrap64_in by lia. repeat split; try lia.
    + destruct (Z.ltb_spec (used ops + n) (min_used (st (alc s)))); lia.
    + destruct (Z.gtb_spec (used ops + n) (max_used (st (alc s)))); lia.
  - assert ((if n >? o then wrap64 (used ops + (n - o)) else if n <? o then wrap64 (used ops - (o - n)) else used ops)
            = used ops + (n - o)) as E.
    { destruct (Z.gtb_spec n o); [apply wrap64_in; lia|].
      destruct (Z.ltb_spec n o); [rewrite wrap64_in; lia|lia]. }
    rewrite E. rewrite !wrap64_in by lia. repeat split; try lia.
    + destruct (Z.ltb_spec (used ops + (n - o)) (min_used (st (alc s)))); lia.
    + destruct (Z.gtb_spec (used ops + (n - o)) (max_used (st (alc s)))); lia.
Qed.

Lemma snoc_split (ops pre post : list aop) op : ops ++ [op] = pre ++ OSave :: post ->
  (post = [] /\ op = OSave /\ pre = ops) \/ (exists post', post = post' ++ [op] /\ ops = pre ++ OSave :: post').
Proof.
  destruct (@exists_last _ (OSave :: post) ltac:(discriminate)) as (l & x & E).
  destruct post as [|y post].
  - intros H. apply app_inj_tail in H. destruct H as [-> ->]. left. auto.
  - destruct (@exists_last _ (y :: post) ltac:(discriminate)) as (l' & x' & E'). rewrite E'.
    intros H. rewrite app_comm_cons, app_assoc in H. apply app_inj_tail in H. destruct H as [-> ->].
    right. exists l'. split; reflexivity.
Qed.

Lemma saves_cons p : saves (OSave :: p) = 1 + saves p.
Proof. reflexivity. Qed.

Lemma levels_post_snoc pre post op :
  levels (pre ++ [OSave]) (post ++ [op]) = levels (pre ++ [OSave]) post ++ [used ((pre ++ OSave :: post) ++ [op])].
Proof. rewrite levels_snoc. rewrite <- !app_assoc. reflexivity. Qed.

Lemma sp_ok_step ops hist s s' op pre post sp : non_save op ->
  min_used s' = Z.min (min_used s) (used (ops ++ [op])) ->
  max_used s' = Z.max (max_used s) (used (ops ++ [op])) ->
  sp_ok ops hist s pre post sp -> sp_ok (ops ++ [op]) hist s' pre (post ++ [op]) sp.
Proof.
  intros _ E1 E2 (-> & H1 & H2 & H2' & H3 & H4). repeat split; auto; try apply H2.
  - rewrite <- app_assoc. reflexivity.
  - rewrite levels_post_snoc, E1, min_of_min. apply is_min_snoc. exact H3.
  - rewrite levels_post_snoc, E1, min_of_min. apply is_min_snoc. exact H3.
  - rewrite levels_post_snoc, E2, max_of_max. apply is_max_snoc. exact H4.
  - rewrite levels_post_snoc, E2, max_of_max. apply is_max_snoc. exact H4.
Qed.

Lemma is_min_levels_used m pre post : is_min m (levels pre post) -> m <= used (pre ++ post).
Proof. intros [_ H]. apply H. apply levels_last. Qed.
Lemma is_max_levels_used m pre post : is_max m (levels pre post) -> used (pre ++ post) <= m.
Proof. intros [_ H]. apply H. apply levels_last. Qed.

Lemma app_cons_assoc {X} (p q : list X) x : (p ++ [x]) ++ q = p ++ x :: q.
Proof. rewrite <- app_assoc. reflexivity. Qed.

(** what delta_statistics answers for a save point satisfying the invariant *)
Lemma delta_ok b sz ops s pre post : (0 < sz)%nat -> Z.of_nat sz < two32 -> ainv sz ops s -> feasible ops ->
  ops = pre ++ OSave :: post ->
  exists sp r, nth_error (sps s) (Z.to_nat (saves pre)) = Some sp /\
    delta_statistics b (alc s) sp = Val r /\
    current_used (metrics sp) = used pre /\
    (saves post > Z.of_nat sz -> r = None) /\
    (saves post <= Z.of_nat sz -> exists d, r = Some d /\ exact_delta (pre ++ [OSave]) post d).
Proof.
  intros Hsz HszB (hist & HR & HL & HC & _ & _ & HSP) HF E.
  destruct (HSP pre post E) as (sp & Hsp & _ & Hh & Hm & Hcur & Hmin & Hmax). clear HSP.
  pose proof HF as (HS & Hlev & Hlen & T1 & T2 & T3 & T4 & T5 & T6).
  assert (saves ops = saves pre + 1 + saves post) as Esv.
  { rewrite E, saves_app, saves_cons. lia. }
  pose proof (saves_nonneg pre). pose proof (saves_nonneg post).
  set (h := Z.to_nat (saves pre + 1)) in *.
  assert (h <= length hist)%nat as Hhl by (unfold h; lia).
  destruct (peek_ok b sz hist _ h Hsz HszB HR ltac:(lia) Hhl) as (s1 & s2 & Ep & Es).
  assert (consumer_head sp = Z.of_nat h) as Hh' by (unfold h; lia).
  assert (Z.of_nat (length (skipn h hist)) = saves post) as Elen by (rewrite skipn_length; unfold h in *; lia).
  exists sp. unfold delta_statistics. rewrite Hh', Ep. cbn [bind].
  destruct (Nat.ltb_spec sz (length (skipn h hist))) as [Hov|Hok]; cbn match.
  - exists None. repeat split; auto. intros HH. lia.
  - rewrite Es by exact Hok. rewrite fold_minmax_some. cbn [bind fst snd].
    assert (forall f, total f ops = total f pre + f OSave + total f post) as Et.
    { intros f. rewrite E, total_app. unfold total. simpl. unfold sum. simpl. lia. }
    assert (forall o, In o ops -> sizes_ok o) as HSs by (apply Forall_forall; exact HS).
    assert (forall o, In o pre -> In o ops) as Ipre by (intros o Ho; rewrite E; apply in_or_app; left; exact Ho).
    assert (forall o, In o post -> In o ops) as Ipost by (intros o Ho; rewrite E; apply in_or_app; right; right; exact Ho).
    destruct HC as (C1 & C2 & C3 & C4 & C5 & C6 & C7 & C8 & C9 & C10).
    destruct Hm as (M1 & M2 & M3 & M4 & M5 & M6 & M7 & M8 & M9 & M10).
    pose proof (total_nonneg f_allocations pre ltac:(intros [] _; simpl; lia)).
    pose proof (total_nonneg f_deallocations pre ltac:(intros [] _; simpl; lia)).
    pose proof (total_nonneg f_zeroed pre ltac:(intros [] _; simpl; lia)).
    pose proof (total_nonneg f_reallocations pre ltac:(intros [] _; simpl; lia)).
    pose proof (total_nonneg f_allocated pre (fun o Ho => proj1 (sizes_f o (HSs o (Ipre o Ho))))).
    pose proof (total_nonneg f_deallocated pre (fun o Ho => proj1 (proj2 (sizes_f o (HSs o (Ipre o Ho)))))).
    pose proof (total_nonneg f_zeroed_bytes pre (fun o Ho => proj1 (proj2 (proj2 (sizes_f o (HSs o (Ipre o Ho))))))).
    pose proof (total_nonneg f_realloc_old pre (fun o Ho => proj1 (proj2 (proj2 (proj2 (sizes_f o (HSs o (Ipre o Ho)))))))).
    pose proof (total_nonneg f_realloc_new pre (fun o Ho => proj2 (proj2 (proj2 (proj2 (sizes_f o (HSs o (Ipre o Ho)))))))).
    pose proof (total_nonneg f_allocations post ltac:(intros [] _; simpl; lia)).
    pose proof (total_nonneg f_deallocations post ltac:(intros [] _; simpl; lia)).
    pose proof (total_nonneg f_zeroed post ltac:(intros [] _; simpl; lia)).
    pose proof (total_nonneg f_reallocations post ltac:(intros [] _; simpl; lia)).
    pose proof (total_nonneg f_allocated post (fun o Ho => proj1 (sizes_f o (HSs o (Ipost o Ho))))).
    pose proof (total_nonneg f_deallocated post (fun o Ho => proj1 (proj2 (sizes_f o (HSs o (Ipost o Ho)))))).
    pose proof (total_nonneg f_zeroed_bytes post (fun o Ho => proj1 (proj2 (proj2 (sizes_f o (HSs o (Ipost o Ho))))))).
    pose proof (total_nonneg f_realloc_old post (fun o Ho => proj1 (proj2 (proj2 (proj2 (sizes_f o (HSs o (Ipost o Ho)))))))).
    pose proof (total_nonneg f_realloc_new post (fun o Ho => proj2 (proj2 (proj2 (proj2 (sizes_f o (HSs o (Ipost o Ho)))))))).
    pose proof (total_le_length f_allocations ops ltac:(intros []; simpl; lia)).
    pose proof (total_le_length f_deallocations ops ltac:(intros []; simpl; lia)).
    pose proof (total_le_length f_zeroed ops ltac:(intros []; simpl; lia)).
    pose proof (total_le_length f_reallocations ops ltac:(intros []; simpl; lia)).
    pose proof (Et f_allocations) as E1. pose proof (Et f_deallocations) as E2. pose proof (Et f_zeroed) as E3.
    pose proof (Et f_reallocations) as E4. pose proof (Et f_allocated) as E5. pose proof (Et f_deallocated) as E6.
    pose proof (Et f_zeroed_bytes) as E7. pose proof (Et f_realloc_old) as E8. pose proof (Et f_realloc_new) as E9.
    cbn [f_allocations f_deallocations f_zeroed f_reallocations f_allocated f_deallocated f_zeroed_bytes
         f_realloc_old f_realloc_new] in E1, E2, E3, E4, E5, E6, E7, E8, E9.
    unfold usize_sub. rewrite C1, C2, C3, C4, C5, C6, C7, C8, C9, M1, M2, M3, M4, M5, M6, M7, M8, M9.
    rewrite !checked_in by lia. cbn [bind].
    eexists. split; [exact Hsp|]. split; [reflexivity|]. split; [exact Hcur|]. split; [lia|]. intros _.
    eexists. split; [reflexivity|].
    assert (In (min_of (skipn h hist) (min_used (st (alc s)))) (levels [] ops)) as Imn.
    { rewrite E. rewrite <- app_cons_assoc. apply levels_sub. apply Hmin. }
    assert (In (max_of (skipn h hist) (max_used (st (alc s)))) (levels [] ops)) as Imx.
    { rewrite E. rewrite <- app_cons_assoc. apply levels_sub. apply Hmax. }
    pose proof (Hlev _ Imn). pose proof (Hlev _ Imx).
    unfold exact_delta. 
    cbn [allocations_count deallocations_count zeroed_allocations_count reallocations_count
         allocated_bytes deallocated_bytes zeroed_allocated_bytes reallocated_originals_bytes
         reallocated_news_bytes current_used min_used max_used].
    rewrite <- min_of_min, <- max_of_max.
    rewrite (Z.min_comm (two64 - 1)), (Z.max_comm 0). rewrite min_of_min, max_of_max.
    rewrite Z.min_l by lia. rewrite Z.max_l by lia.
    split; [lia|]. split; [lia|]. split; [lia|]. split; [lia|]. split; [lia|]. split; [lia|].
    split; [lia|]. split; [lia|]. split; [lia|]. split; [|split; assumption].
    rewrite C10, E, app_cons_assoc. reflexivity.
Qed.

Lemma save_ok b sz ops s : (0 < sz)%nat -> ainv sz ops s -> feasible (ops ++ [OSave]) ->
  exists s', astep b s OSave = Val (s', ANone) /\ ainv sz (ops ++ [OSave]) s'.
Proof.
  intros Hsz (hist & HR & HL & HC & HM & Hn & HSP) HF.
  assert (saves ops + 1 < two32) as HB.
  { destruct HF as (_ & _ & _ & _ & _ & _ & _ & _ & H). rewrite saves_snoc in H. exact H. }
  destruct (enqueue_ok b sz hist _ (min_used (st (alc s)), max_used (st (alc s))) Hsz HR ltac:(lia)) as (r' & Er & HR').
  unfold astep, save_point. rewrite Er. cbn [bind fst snd].
  eexists. split; [reflexivity|]. cbn [alc st save_ring sps].
  exists (hist ++ [(min_used (st (alc s)), max_used (st (alc s)))]). cbn [alc st save_ring sps].
  split; [exact HR'|].
  assert (Z.of_nat (length (hist ++ [(min_used (st (alc s)), max_used (st (alc s)))])) = saves (ops ++ [OSave])) as HL'.
  { rewrite app_length, saves_snoc. cbn [length is_save]. lia. }
  split; [exact HL'|].
  assert (used (ops ++ [OSave]) = used ops) as EU by (rewrite used_snoc; simpl; lia).
  assert (forall x, counters ops (st (alc s)) -> counters (ops ++ [OSave])
     (Stats (allocations_count (st (alc s))) (deallocations_count (st (alc s)))
        (zeroed_allocations_count (st (alc s))) (reallocations_count (st (alc s)))
        (allocated_bytes (st (alc s))) (deallocated_bytes (st (alc s)))
        (zeroed_allocated_bytes (st (alc s))) (reallocated_originals_bytes (st (alc s)))
        (reallocated_news_bytes (st (alc s))) (current_used (st (alc s))) x x)) as HC'.
  { intros x Hc. unfold counters in *. rewrite !total_snoc, EU.
    cbn [allocations_count deallocations_count zeroed_allocations_count reallocations_count
         allocated_bytes deallocated_bytes zeroed_allocated_bytes reallocated_originals_bytes
         reallocated_news_bytes current_used min_used max_used f_allocations f_deallocations f_zeroed f_reallocations
         f_allocated f_deallocated f_zeroed_bytes f_realloc_old f_realloc_new]. rewrite !Z.add_0_r. exact Hc. }
  split; [apply HC'; exact HC|].
  pose proof (proj2 (proj2 (proj2 (proj2 (proj2 (proj2 (proj2 (proj2 (proj2 HC))))))))) as Hcur.
  split.
  { exists (ops ++ [OSave]), []. rewrite app_nil_r, levels_nil, EU. split; [reflexivity|].
    cbn [min_used max_used]. rewrite Hcur. split; [apply is_min_one|apply is_max_one]. }
  split. { rewrite app_length, saves_snoc. cbn [length is_save]. lia. }
  intros pre post E. pose proof E as E'. apply snoc_split in E.
  destruct E as [(-> & _ & ->)|(post' & -> & E)].
  - rewrite nth_error_app2 by lia. replace (Z.to_nat (saves ops) - length (sps s))%nat with 0%nat by lia. cbn [nth_error].
    eexists. split; [reflexivity|]. unfold sp_ok. split; [reflexivity|].
    cbn [consumer_head metrics min_used max_used].
    assert (skipn (Z.to_nat (saves ops + 1)) (hist ++ [(min_used (st (alc s)), max_used (st (alc s)))]) = []) as Esk.
    { apply skipn_all2. rewrite app_length. cbn [length]. lia. }
    rewrite Esk. rewrite levels_nil, EU. unfold min_of, max_of. cbn [map fold_right]. rewrite Hcur.
    split; [|split; [|split; [reflexivity|split; [apply is_min_one|apply is_max_one]]]].
    + unfold consumer. destruct HR' as (_ & HP & _). rewrite HP, HL', saves_snoc. reflexivity.
    + unfold counters in *. cbn [allocations_count deallocations_count zeroed_allocations_count reallocations_count
         allocated_bytes deallocated_bytes zeroed_allocated_bytes reallocated_originals_bytes
         reallocated_news_bytes current_used]. tauto.
  - destruct (HSP pre post' E) as (sp & Hsp & Hok). exists sp. split.
    + rewrite nth_error_app1; [exact Hsp|]. apply nth_error_Some. rewrite Hsp. discriminate.
    + destruct Hok as (_ & H1 & H2 & H2' & H3 & H4). 
      pose proof (saves_nonneg pre). pose proof (saves_nonneg post').
      assert (saves ops = saves pre + 1 + saves post') as Esv.
      { rewrite E, saves_app, saves_cons. lia. }
      unfold sp_ok. split; [exact E'|]. split; [exact H1|]. split; [exact H2|]. split; [exact H2'|].
      rewrite skipn_app. replace (Z.to_nat (saves pre + 1) - length hist)%nat with 0%nat by lia.
      cbn [skipn min_used max_used]. rewrite min_of_snoc, max_of_snoc.
      rewrite levels_post_snoc. rewrite <- E, EU, Hcur. split; [apply is_min_snoc|apply is_max_snoc]; assumption.
Qed.

Lemma compute_ok b sz ops s op : non_save op -> ainv sz ops s -> feasible (ops ++ [op]) ->
  exists s', astep b s op = Val (s', ANone) /\ ainv sz (ops ++ [op]) s'.
Proof.
  intros Hn (hist & HR & HL & HC & (p0 & q0 & E0 & Hm0 & Hx0) & Hl & HSP) HF.
  destruct (astep_compute b s op ops Hn HC HF) as (s' & Es & Er & Esp & HC' & Hmn & Hmx).
  exists s'. split; [exact Es|]. exists hist. rewrite Er, Esp.
  assert (saves (ops ++ [op]) = saves ops) as Esv by (rewrite saves_snoc; destruct op; simpl in *; try contradiction; lia).
  split; [exact HR|]. split; [lia|]. split; [exact HC'|]. split.
  { exists p0, (q0 ++ [op]). split; [rewrite E0, app_assoc; reflexivity|].
    rewrite levels_snoc. rewrite app_assoc, <- E0. rewrite Hmn, Hmx. split; [apply is_min_snoc|apply is_max_snoc]; assumption. }
  split; [lia|].
  intros pre post E. apply snoc_split in E. destruct E as [(_ & -> & _)|(post' & -> & E)]; [contradiction|].
  destruct (HSP pre post' E) as (sp & Hsp & Hok). exists sp. split; [exact Hsp|].
  eapply sp_ok_step; eauto.
Qed.

Lemma delta_step_ok b sz ops s k : (0 < sz)%nat -> Z.of_nat sz < two32 -> ainv sz ops s -> feasible (ops ++ [ODelta k]) ->
  exists out, astep b s (ODelta k) = Val (s, out) /\ ainv sz (ops ++ [ODelta k]) s.
Proof.
  intros Hsz HszB HI HF. pose proof (feasible_prefix _ _ HF) as HF0.
  assert (exists out, astep b s (ODelta k) = Val (s, out)) as (out & Eo).
  { unfold astep. destruct (nth_error (sps s) k) as [sp|] eqn:Ek; [|eexists; reflexivity].
    assert (exists pre post, ops = pre ++ OSave :: post /\ saves pre = Z.of_nat k) as (pre & post & E & Ek').
    { destruct HI as (hist & _ & _ & _ & _ & Hn & _).
      assert (Z.of_nat k < saves ops) as Hk by (rewrite <- Hn; apply inj_lt; apply nth_error_Some; rewrite Ek; discriminate).
      clear - Hk. revert k Hk. induction ops as [|op ops IH] using rev_ind; intros k Hk; [unfold saves, total in Hk; simpl in Hk; lia|].
      rewrite saves_snoc in Hk. destruct (Z_lt_le_dec (Z.of_nat k) (saves ops)) as [H|H].
      - destruct (IH k H) as (pre & post & -> & E). exists pre, (post ++ [op]). split; [rewrite <- app_assoc; reflexivity|exact E].
      - exists ops, []. destruct op; simpl in Hk; try lia. split; [reflexivity|lia]. }
    destruct (delta_ok b sz ops s pre post Hsz HszB HI HF0 E) as (sp' & r & Hsp & Hr & _).
    rewrite Ek', Nat2Z.id in Hsp. rewrite Ek in Hsp. injection Hsp as <-. rewrite Hr. cbn [bind]. eexists. reflexivity. }
  exists out. split; [exact Eo|].
  destruct HI as (hist & HR & HL & HC & (p0 & q0 & E0 & Hm0 & Hx0) & Hl & HSP). exists hist.
  assert (used (ops ++ [ODelta k]) = used ops) as EU by (rewrite used_snoc; simpl; lia).
  assert (saves (ops ++ [ODelta k]) = saves ops) as Esv by (rewrite saves_snoc; simpl; lia).
  assert (forall l m x, is_min m l -> In x l -> is_min m (l ++ [x])) as Hmn.
  { intros l m x [H1 H2] Hx. split; [apply in_or_app; left; exact H1|]. intros y Hy. apply in_app_or in Hy. destruct Hy as [Hy|[<-|[]]]; apply H2; assumption. }
  assert (forall l m x, is_max m l -> In x l -> is_max m (l ++ [x])) as Hmx.
  { intros l m x [H1 H2] Hx. split; [apply in_or_app; left; exact H1|]. intros y Hy. apply in_app_or in Hy. destruct Hy as [Hy|[<-|[]]]; apply H2; assumption. }
  split; [exact HR|]. split; [lia|]. split.
  { unfold counters in *. rewrite !total_snoc, EU. cbn [f_allocations f_deallocations f_zeroed f_reallocations
         f_allocated f_deallocated f_zeroed_bytes f_realloc_old f_realloc_new]. rewrite !Z.add_0_r. exact HC. }
  split.
  { exists p0, (q0 ++ [ODelta k]). split; [rewrite E0, app_assoc; reflexivity|]. rewrite levels_snoc, app_assoc, <- E0, EU.
    pose proof (levels_last p0 q0) as HLL. rewrite <- E0 in HLL. split; [apply Hmn|apply Hmx]; assumption. }
  split; [lia|].
  intros pre post E. apply snoc_split in E. destruct E as [(_ & ? & _)|(post' & -> & E)]; [discriminate|].
  destruct (HSP pre post' E) as (sp & Hsp & Hok). exists sp. split; [exact Hsp|].
  destruct Hok as (_ & H1 & H2 & H2' & H3 & H4). unfold sp_ok. split; [rewrite E, <- app_assoc; reflexivity|].
  split; [exact H1|]. split; [exact H2|]. split; [exact H2'|].
  pose proof (levels_last (pre ++ [OSave]) post') as HLL. rewrite app_cons_assoc, <- E in HLL.
  rewrite levels_post_snoc, <- E, EU. split; [apply Hmn|apply Hmx]; assumption.
Qed.

Lemma arun_ok b sz ops : (0 < sz)%nat -> Z.of_nat sz < two32 -> feasible ops ->
  exists s outs, arun b (ainit sz) ops = Val (s, outs) /\ length outs = length ops /\ ainv sz ops s.
Proof.
  intros Hsz HszB. induction ops as [|op ops IH] using rev_ind; intros HF.
  - exists (ainit sz), []. split; [reflexivity|]. split; [reflexivity|]. apply ainv_init.
  - destruct (IH (feasible_prefix _ _ HF)) as (s & outs & E & Hlen & HI).
    assert (exists s' out, astep b s op = Val (s', out) /\ ainv sz (ops ++ [op]) s') as (s' & out & Es & HI').
    { destruct op.
      1-4: edestruct compute_ok as (s' & H1 & H2); [|exact HI|exact HF|]; [exact I|]; exists s', ANone; split; [exact H1|exact H2].
      - destruct (save_ok b sz ops s Hsz HI HF) as (s' & H1 & H2). exists s', ANone. split; assumption.
      - destruct (delta_step_ok b sz ops s k Hsz HszB HI HF) as (o & H1 & H2). exists s, o. split; assumption. }
    exists s', (outs ++ [out]). rewrite arun_app, E. cbn [bind fst snd arun]. rewrite Es. cbn [bind fst snd arun].
    split; [reflexivity|]. split; [rewrite !app_length, Hlen; reflexivity|exact HI'].
Qed.

(** ** The answer to a call of delta_statistics made at the end of a history *)
Lemma delta_answer b sz pre post : (1 <= sz)%nat -> Z.of_nat sz < two32 -> feasible (pre ++ OSave :: post) ->
  exists s s' outs r,
    arun b (ainit sz) (pre ++ OSave :: post) = Val (s, outs) /\
    arun b (ainit sz) (pre ++ OSave :: post ++ [ODelta (Z.to_nat (saves pre))]) = Val (s', outs ++ [ADelta r]) /\
    s' = s /\
    (r = None <-> saves post > Z.of_nat sz) /\
    (saves post <= Z.of_nat sz -> exists d, r = Some d /\ exact_delta (pre ++ [OSave]) post d).
Proof.
  intros Hsz HszB HF. destruct (arun_ok b sz _ ltac:(lia) HszB HF) as (s & outs & E & Hlen & HI).
  destruct (delta_ok b sz _ s pre post ltac:(lia) HszB HI HF eq_refl) as (sp & r & Hsp & Hr & _ & H1 & H2).
  exists s, s, outs, r. split; [exact E|]. split.
  - rewrite app_comm_cons, app_assoc, arun_app, E. cbn [bind fst snd arun astep]. rewrite Hsp, Hr. reflexivity.
  - split; [reflexivity|]. split; [|exact H2]. split; [|exact H1].
    intros ->. destruct (Z_le_gt_dec (saves post) (Z.of_nat sz)) as [H|H]; [|exact H].
    destruct (H2 H) as (d & ? & _). discriminate.
Qed.

(** ** exact_delta determines the answer, and does not see the save points *)
Lemma is_min_unique m m' l l' : is_min m l -> is_min m' l' -> (forall x, In x l <-> In x l') -> m = m'.
Proof.
  intros [H1 H2] [H3 H4] E. apply Z.le_antisymm; [apply H2, E, H3|apply H4, E, H1].
Qed.
Lemma is_max_unique m m' l l' : is_max m l -> is_max m' l' -> (forall x, In x l <-> In x l') -> m = m'.
Proof.
  intros [H1 H2] [H3 H4] E. apply Z.le_antisymm; [apply H4, E, H1|apply H2, E, H3].
Qed.


Lemma total_quiet f ops : (forall op, silent op = true -> f op = 0) -> total f (quiet ops) = total f ops.
Proof.
  intros H. unfold total, quiet, sum. induction ops as [|op ops IH]; [reflexivity|]. cbn [filter map fold_right].
  destruct (silent op) eqn:E; cbn [negb map fold_right]; rewrite IH; [rewrite (H op E); lia|reflexivity].
Qed.

Lemma quiet_app p q : quiet (p ++ q) = quiet p ++ quiet q.
Proof. apply filter_app. Qed.

Lemma used_quiet ops : used (quiet ops) = used ops.
Proof. apply total_quiet. intros []; simpl; congruence. Qed.

Lemma levels_quiet pre post x : In x (levels pre post) <-> In x (levels (quiet pre) (quiet post)).
Proof.
  induction post as [|op post IH] using rev_ind.
  - cbn [quiet filter]. rewrite !levels_nil, used_quiet. reflexivity.
  - rewrite levels_snoc, quiet_app, in_app_iff, IH. destruct (silent op) eqn:E.
    + replace (quiet [op]) with (@nil aop) by (unfold quiet; cbn [filter]; rewrite E; reflexivity). rewrite app_nil_r.
      split; [|tauto]. intros [H|[<-|[]]]; [exact H|].
      rewrite app_assoc, used_snoc. replace (delta op) with 0 by (destruct op; simpl in *; congruence). rewrite Z.add_0_r.
      rewrite <- used_quiet, quiet_app. apply levels_last.
    + replace (quiet [op]) with [op] by (unfold quiet; cbn [filter]; rewrite E; reflexivity).
      rewrite levels_snoc, in_app_iff. apply or_iff_compat_l. cbn [In].
      rewrite <- (used_quiet (pre ++ post ++ [op])). rewrite !quiet_app.
      replace (quiet [op]) with [op] by (unfold quiet; cbn [filter]; rewrite E; reflexivity). reflexivity.
Qed.

Lemma exact_delta_quiet pre post pre' post' d d' :
  quiet pre = quiet pre' -> quiet post = quiet post' ->
  exact_delta pre post d -> exact_delta pre' post' d' -> d = d'.
Proof.
  intros Ep Eq (A1 & A2 & A3 & A4 & A5 & A6 & A7 & A8 & A9 & A10 & A11 & A12)
    (B1 & B2 & B3 & B4 & B5 & B6 & B7 & B8 & B9 & B10 & B11 & B12).
  assert (forall f, (forall op, silent op = true -> f op = 0) -> total f post = total f post') as ET.
  { intros f Hf. rewrite <- (total_quiet f post Hf), <- (total_quiet f post' Hf), Eq. reflexivity. }
  destruct d as [x1 x2 x3 x4 x5 x6 x7 x8 x9 x10 x11 x12], d' as [y1 y2 y3 y4 y5 y6 y7 y8 y9 y10 y11 y12].
  cbn [allocations_count deallocations_count zeroed_allocations_count reallocations_count
         allocated_bytes deallocated_bytes zeroed_allocated_bytes reallocated_originals_bytes
         reallocated_news_bytes current_used min_used max_used] in *.
  assert (forall x, In x (levels pre post) <-> In x (levels pre' post')) as EL.
  { intros x. rewrite levels_quiet, (levels_quiet pre'), Ep, Eq. reflexivity. }
  f_equal.
  all: try (etransitivity; [eassumption|]; etransitivity; [apply ET; intros []; simpl; congruence|]; symmetry; eassumption).
  - rewrite A10, B10, <- used_quiet, <- (used_quiet (pre' ++ post')), !quiet_app, Ep, Eq. reflexivity.
  - exact (is_min_unique _ _ _ _ A11 B11 EL).
  - exact (is_max_unique _ _ _ _ A12 B12 EL).
Qed.

(** ** The live heap (C24) *)
Lemma lookup_remove_sum h id n : NoDup (map fst h) -> lookup h id = Some n -> live h = n + live (remove h id).
Proof.
  unfold lookup, live, remove, sum. induction h as [|[i m] h IH]; intros ND HL; [discriminate|].
  cbn [find fst filter map snd fold_right] in *. inversion ND as [|? ? Hni ND']; subst.
  destruct (Nat.eqb_spec i id) as [->|Hne]; cbn [negb].
  - injection HL as ->. f_equal. f_equal. clear - Hni. induction h as [|[j k] h IH]; [reflexivity|].
    cbn [filter fst map] in *. destruct (Nat.eqb_spec j id) as [->|]; [exfalso; apply Hni; left; reflexivity|].
    cbn [negb map snd]. f_equal. apply IH. intros H. apply Hni. right. exact H.
  - cbn [map snd fold_right]. rewrite (IH ND' HL). lia.
Qed.
Lemma lookup_none_notin h id : lookup h id = None -> ~ In id (map fst h).
Proof.
  unfold lookup. destruct (find _ h) as [[]|] eqn:E; [discriminate|]. intros _ H.
  apply in_map_iff in H. destruct H as ([i n] & <- & Hi). pose proof (find_none _ _ E _ Hi) as H. cbn [fst] in H.
  rewrite Nat.eqb_refl in H. discriminate.
Qed.
Lemma nodup_remove h id : NoDup (map fst h) -> NoDup (map fst (remove h id)).
Proof.
  unfold remove. induction h as [|[i m] h IH]; intros ND; [constructor|]. inversion ND as [|? ? Hni ND']; subst.
  cbn [filter fst]. destruct (Nat.eqb i id); cbn [negb]; [apply IH; exact ND'|]. cbn [map fst]. constructor; [|apply IH; exact ND'].
  intros H. apply Hni. apply in_map_iff in H. destruct H as (p & Hp & Hin). apply filter_In in Hin. apply in_map_iff. exists p. tauto.
Qed.
Lemma notin_remove h id : ~ In id (map fst (remove h id)).
Proof.
  unfold remove. intros H. apply in_map_iff in H. destruct H as ([i n] & <- & Hi). apply filter_In in Hi. cbn [fst] in Hi.
  rewrite Nat.eqb_refl in Hi. destruct Hi; discriminate.
Qed.

Definition sizes_pos (h : heap) : Prop := Forall (fun p => 0 <= snd p < two64) h.
Lemma live_nonneg h : sizes_pos h -> 0 <= live h.
Proof. unfold live, sum. induction 1 as [|[i n] h Hx HF IH]; cbn [map snd fold_right] in *; lia. Qed.
Lemma sizes_pos_remove h id : sizes_pos h -> sizes_pos (remove h id).
Proof.
  unfold sizes_pos, remove. intros H. apply Forall_forall. intros p Hp. apply filter_In in Hp.
  rewrite Forall_forall in H. apply H. tauto.
Qed.
Lemma lookup_in h id n : lookup h id = Some n -> In (id, n) h.
Proof.
  unfold lookup. destruct (find _ h) as [[i m]|] eqn:E; [|discriminate]. intros [= ->].
  apply find_some in E. cbn [fst] in E. destruct E as [E1 E2]. apply Nat.eqb_eq in E2. subst. exact E1.
Qed.

Lemma client_step_live h c h' op : NoDup (map fst h) -> sizes_pos h -> size_ok c -> succeeds c = true ->
  client_step h c = Some (h', op) ->
  live h' = live h + delta op /\ NoDup (map fst h') /\ sizes_pos h' /\ sizes_ok op /\ non_save op.
Proof.
  intros ND SP SZ OK. destruct c as [id n z ok|id|id n ok]; cbn [client_step succeeds size_ok] in *; destruct (lookup h id) as [m|] eqn:E; try discriminate; try rewrite OK; intros [= <- <-].
  - split; [|split; [constructor; [apply lookup_none_notin; exact E|exact ND]|split; [constructor; assumption|destruct z; split; simpl; auto; lia]]].
    unfold live, sum. destruct z; cbn [map snd fold_right delta]; lia.
  - pose proof (lookup_remove_sum h id m ND E) as HS.
    split; [cbn [delta]; lia|]. split; [apply nodup_remove; exact ND|]. split; [apply sizes_pos_remove; exact SP|].
    unfold sizes_pos in SP. rewrite Forall_forall in SP. specialize (SP _ (lookup_in _ _ _ E)). split; simpl; auto.
  - pose proof (lookup_remove_sum h id m ND E) as HS.
    split; [unfold live, sum in *; cbn [map snd fold_right delta]; lia|].
    split; [constructor; [apply notin_remove|apply nodup_remove; exact ND]|].
    split; [constructor; [exact SZ|apply sizes_pos_remove; exact SP]|].
    unfold sizes_pos in SP. rewrite Forall_forall in SP. specialize (SP _ (lookup_in _ _ _ E)). split; simpl; auto.
Qed.

(** any contract-abiding run without failures: memory in use = live bytes, at every moment *)
Lemma client_run_live cs : forall h h' ops, NoDup (map fst h) -> sizes_pos h ->
  Forall size_ok cs -> forallb succeeds cs = true -> client_run h cs = Some (h', ops) ->
  live h' = live h + used ops /\ 0 <= live h' /\ Forall sizes_ok ops /\ Forall non_save ops /\
  (forall x, In x (levels [] ops) -> 0 <= live h + x).
Proof.
  induction cs as [|c cs IH]; intros h h' ops ND SP SZ OK; cbn [client_run].
  - intros [= <- <-]. unfold used, total, levels. simpl. pose proof (live_nonneg h SP). repeat split; auto; try lia.
    intros x [<-|[]]. unfold used, total, sum. simpl. lia.
  - cbn [forallb] in OK. apply andb_true_iff in OK. destruct OK as [OK1 OK2]. inversion SZ as [|? ? SZ1 SZ2]; subst.
    destruct (client_step h c) as [[h1 op]|] eqn:E1; [|discriminate].
    destruct (client_run h1 cs) as [[h2 ops2]|] eqn:E2; [|discriminate]. intros [= <- <-].
    destruct (client_step_live _ _ _ _ ND SP SZ1 OK1 E1) as (L & ND1 & SP1 & SO & NS).
    destruct (IH _ _ _ ND1 SP1 SZ2 OK2 E2) as (L2 & P2 & SO2 & NS2 & LV).
    split; [unfold used, total, sum in *; cbn [map fold_right]; lia|]. split; [exact P2|]. split; [constructor; assumption|].
    split; [constructor; assumption|]. pose proof (live_nonneg h SP) as HP.
    intros x Hx. unfold levels in Hx. apply in_map_iff in Hx. destruct Hx as (i & <- & Hi). apply in_seq in Hi. cbn [length] in Hi.
    destruct i as [|i]; [unfold used, total, sum; simpl; lia|]. cbn [firstn app].
    assert (In (used (firstn i ops2)) (levels [] ops2)) as Hin.
    { unfold levels. apply in_map_iff. exists i. split; [reflexivity|]. apply in_seq. lia. }
    specialize (LV _ Hin). unfold used, total, sum in *. cbn [map fold_right]. lia.
Qed.

(** ** Memory in use, without any bound on the other counters *)
Lemma current_step b s op : non_save op -> 0 <= current_used (st (alc s)) < two64 ->
  exists s', astep b s op = Val (s', ANone) /\ current_used (st (alc s')) = (current_used (st (alc s)) + delta op) mod two64.
Proof.
  intros Hn Hc. destruct op as [n ok|n|n ok|o n ok| |k]; try contradiction; (eexists; split; [reflexivity|]);
    unfold with_stats, compute_alloc, compute_dealloc, compute_alloc_zeroed, compute_realloc, compute_min_and_max; cbn; try reflexivity.
  destruct (Z.gtb_spec n o); [reflexivity|]. destruct (Z.ltb_spec n o).
  - unfold wrap64. f_equal. lia.
  - replace (n - o) with 0 by lia. rewrite Z.add_0_r. symmetry. apply Z.mod_small. exact Hc.
Qed.

Lemma current_run b ops : forall s, Forall non_save ops -> 0 <= current_used (st (alc s)) < two64 ->
  exists s' outs, arun b s ops = Val (s', outs) /\ current_used (st (alc s')) = (current_used (st (alc s)) + used ops) mod two64.
Proof.
  induction ops as [|op ops IH]; intros s HN Hc; cbn [arun].
  - exists s, []. split; [reflexivity|]. unfold used, total. cbn. rewrite Z.add_0_r. symmetry. apply Z.mod_small. exact Hc.
  - inversion HN as [|? ? H1 H2]; subst. destruct (current_step b s op H1 Hc) as (s1 & E & C1). rewrite E. cbn [bind fst snd].
    destruct (IH s1 H2) as (s2 & outs & E2 & C2). { rewrite C1. apply Z.mod_pos_bound. reflexivity. }
    rewrite E2. cbn [bind fst snd]. exists s2, (ANone :: outs). split; [reflexivity|]. rewrite C2, C1.
    rewrite Zplus_mod_idemp_l. f_equal. unfold used, total, sum. cbn [map fold_right]. lia.
Qed.

(** a client history with failures: memory in use = live bytes + what the failed calls left behind *)
Lemma client_step_any h c h' op : NoDup (map fst h) -> client_step h c = Some (h', op) ->
  live h' = live h + delta op - failed_delta op /\ NoDup (map fst h') /\ non_save op.
Proof.
  intros ND. destruct c as [id n z ok|id|id n ok]; cbn [client_step]; destruct (lookup h id) as [m|] eqn:E; try discriminate; intros [= <- <-].
  - destruct ok.
    + split; [|split; [constructor; [apply lookup_none_notin; exact E|exact ND]|destruct z; exact I]].
      unfold live, sum. destruct z; cbn [map snd fold_right delta failed_delta]; lia.
    + split; [|split; [exact ND|destruct z; exact I]]. destruct z; cbn [delta failed_delta]; lia.
  - pose proof (lookup_remove_sum h id m ND E) as HS.
    split; [cbn [delta failed_delta]; lia|]. split; [apply nodup_remove; exact ND|exact I].
  - pose proof (lookup_remove_sum h id m ND E) as HS. destruct ok.
    + split; [unfold live, sum in *; cbn [map snd fold_right delta failed_delta]; lia|].
      split; [constructor; [apply notin_remove|apply nodup_remove; exact ND]|exact I].
    + split; [cbn [delta failed_delta]; lia|]. split; [exact ND|exact I].
Qed.

Lemma client_run_any cs : forall h h' ops, NoDup (map fst h) -> client_run h cs = Some (h', ops) ->
  live h' = live h + used ops - total failed_delta ops /\ Forall non_save ops.
Proof.
  induction cs as [|c cs IH]; intros h h' ops ND; cbn [client_run].
  - intros [= <- <-]. split; [unfold used, total; cbn; lia|constructor].
  - destruct (client_step h c) as [[h1 op]|] eqn:E1; [|discriminate].
    destruct (client_run h1 cs) as [[h2 ops2]|] eqn:E2; [|discriminate]. intros [= <- <-].
    destruct (client_step_any _ _ _ _ ND E1) as (L & ND1 & NS). destruct (IH _ _ _ ND1 E2) as (L2 & NS2).
    split; [|constructor; assumption]. unfold used, total, sum in *. cbn [map fold_right]. lia.
Qed.

Lemma succeeds_no_failure cs : forall h h' ops, forallb succeeds cs = true -> client_run h cs = Some (h', ops) ->
  total failed_delta ops = 0.
Proof.
  induction cs as [|c cs IH]; intros h h' ops OK; cbn [client_run].
  - intros [= <- <-]. reflexivity.
  - cbn [forallb] in OK. apply andb_true_iff in OK. destruct OK as [OK1 OK2].
    destruct (client_step h c) as [[h1 op]|] eqn:E1; [|discriminate].
    destruct (client_run h1 cs) as [[h2 ops2]|] eqn:E2; [|discriminate]. intros [= <- <-].
    pose proof (IH _ _ _ OK2 E2) as H. unfold total, sum in *. cbn [map fold_right]. rewrite H.
    destruct c as [id n z ok|id|id n ok]; cbn [client_step succeeds] in *; try subst ok; destruct (lookup _ id); try discriminate;
      injection E1 as <- <-; try destruct z; reflexivity.
Qed.

Lemma current_is_live b sz cs h ops : client_run [] cs = Some (h, ops) ->
  exists s outs, arun b (ainit sz) ops = Val (s, outs) /\
    current_used (st (alc s)) = (live h + total failed_delta ops) mod two64.
Proof.
  intros E. destruct (client_run_any cs [] h ops (NoDup_nil _) E) as (L & NS).
  destruct (current_run b ops (ainit sz) NS) as (s & outs & R & C). { cbn. lia. }
  exists s, outs. split; [exact R|]. rewrite C, L. f_equal. cbn [ainit alc alloc_new st current_used]. unfold live at 1. cbn [map sum fold_right]. lia.
Qed.

(** ** The measurement of a pass (C27) *)
Lemma levels_first p q : In (used p) (levels p q).
Proof. unfold levels. apply in_map_iff. exists 0%nat. split; [rewrite firstn_O, app_nil_r; reflexivity|apply in_seq; lia]. Qed.

Lemma measurement_ok b sz pre post : (1 <= sz)%nat -> Z.of_nat sz < two32 -> feasible (pre ++ OSave :: post) ->
  exists s outs sp d, arun b (ainit sz) (pre ++ OSave :: post) = Val (s, outs) /\
    nth_error (sps s) (Z.to_nat (saves pre)) = Some sp /\ delta_statistics b (alc s) sp = Val d /\
    let m := space_measurement sp d in
    well_formed m /\
    (saves post <= Z.of_nat sz -> used_memory_before m = used pre /\ used_memory_after m = used (pre ++ OSave :: post)).
Proof.
  intros Hsz HszB HF. destruct (arun_ok b sz _ ltac:(lia) HszB HF) as (s & outs & E & Hlen & HI).
  destruct (delta_ok b sz _ s pre post ltac:(lia) HszB HI HF eq_refl) as (sp & r & Hsp & Hr & Hc & H1 & H2).
  exists s, outs, sp, r. split; [exact E|]. split; [exact Hsp|]. split; [exact Hr|].
  destruct (Z_le_gt_dec (saves post) (Z.of_nat sz)) as [H|H].
  - destruct (H2 H) as (d & -> & Hd). destruct Hd as (_ & _ & _ & _ & _ & _ & _ & _ & _ & Hcu & [Hi1 Hmn] & [Hi2 Hmx]).
    cbn [space_measurement]. unfold well_formed. cbn [used_memory_before used_memory_after max_used_memory min_used_memory].
    assert (used (pre ++ [OSave]) = used pre) as EU by (rewrite used_snoc; cbn; lia).
    pose proof (levels_first (pre ++ [OSave]) post) as I1. rewrite EU in I1.
    pose proof (levels_last (pre ++ [OSave]) post) as I2. rewrite <- Hcu in I2.
    assert (forall x, In x (levels (pre ++ [OSave]) post) -> 0 <= x < two64) as HB.
    { intros x Hx. destruct HF as (_ & HF & _). apply HF. rewrite <- app_cons_assoc. apply levels_sub. exact Hx. }
    pose proof (HB _ Hi1). pose proof (HB _ Hi2). rewrite Hc.
    pose proof (Hmn _ I1). pose proof (Hmn _ I2). pose proof (Hmx _ I1). pose proof (Hmx _ I2).
    split; [lia|]. intros _. split; [reflexivity|]. rewrite Hcu, app_cons_assoc. reflexivity.
  - rewrite (H1 H). cbn [space_measurement]. split; [|intros; lia]. unfold well_formed, sentinel_space. cbn [used_memory_before used_memory_after max_used_memory min_used_memory]. rewrite two64_val. lia.
Qed.

Lemma well_formed_growth b m : well_formed m -> exists g, max_growth b m = Val g.
Proof.
  intros (H1 & H2 & H3 & H4 & H5 & H6). unfold max_growth, usize_sub. rewrite checked_in by lia. eexists. reflexivity.
Qed.
