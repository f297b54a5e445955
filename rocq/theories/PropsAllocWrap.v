(** * Property theorems C109: the allocator's statistics when totals reach 2^64.
    The counters are usize values that wrap, and refused requests are counted like granted
    ones, so that two refused requests of nearly 2^63 bytes are enough to wrap a total.
    Model: Alloc.v; vocabulary: AllocSpec.v. *)
From Coq Require Import List ZArith Lia Bool.
From Verif Require Import Machine Ring RingSeq Analysis Alloc AllocSpec AllocProofs.
Import ListNotations.
Open Scope Z_scope.

(** ** Specification *)
(** the nine counters and what each adds up *)
Definition the_counters : list ((stats -> Z) * (aop -> Z)) :=
  [(allocations_count, f_allocations); (deallocations_count, f_deallocations); (zeroed_allocations_count, f_zeroed); (reallocations_count, f_reallocations);
   (allocated_bytes, f_allocated); (deallocated_bytes, f_deallocated); (zeroed_allocated_bytes, f_zeroed_bytes);
   (reallocated_originals_bytes, f_realloc_old); (reallocated_news_bytes, f_realloc_new)].
(** What delta_statistics answers, everything modulo 2^64. *)
Definition delta_modulo (pre post : list aop) (d : stats) : Prop :=
  (forall c f, In (c, f) the_counters -> c d = total f post mod two64) /\
  current_used d = used (pre ++ post) mod two64 /\
  is_min (min_used d) (map (fun x => x mod two64) (levels pre post)) /\
  is_max (max_used d) (map (fun x => x mod two64) (levels pre post)).
(** one of the nine counters came out smaller than it was at the save point *)
Definition fell (pre post : list aop) : Prop :=
  exists c f, In (c, f) the_counters /\ total f (pre ++ post) mod two64 < total f pre mod two64.
Definition no_query (ops : list aop) : Prop := forall k, ~ In (ODelta k) ops.

(** ** Invariant *)
Definition wl (pre post : list aop) : list Z := map wrap64 (levels pre post).
Definition cmod (ops : list aop) (s : stats) : Prop :=
  (forall c f, In (c, f) the_counters -> c s = wrap64 (total f ops)) /\ current_used s = wrap64 (used ops).
Definition wsp (ops : list aop) (hist : list (Z * Z)) (s : stats) (pre post : list aop) (sp : savepoint) : Prop :=
  ops = pre ++ OSave :: post /\
  consumer_head sp = saves pre + 1 /\
  cmod pre (metrics sp) /\
  is_min (min_of (skipn (Z.to_nat (saves pre + 1)) hist) (min_used s)) (wl (pre ++ [OSave]) post) /\
  is_max (max_of (skipn (Z.to_nat (saves pre + 1)) hist) (max_used s)) (wl (pre ++ [OSave]) post).
Definition winv (sz : nat) (ops : list aop) (s : astate) : Prop :=
  exists hist,
  ring_inv sz hist (save_ring (alc s)) /\ Z.of_nat (length hist) = saves ops /\
  cmod ops (st (alc s)) /\ Z.of_nat (length (sps s)) = saves ops /\
  (forall pre post, ops = pre ++ OSave :: post ->
     exists sp, nth_error (sps s) (Z.to_nat (saves pre)) = Some sp /\ wsp ops hist (st (alc s)) pre post sp).

Lemma winv_init sz : winv sz [] (ainit sz).
Proof.
  exists []. split; [apply ring_inv_init|]. split; [reflexivity|]. split.
  - split; [|reflexivity]. intros c f H. cbn in H. repeat (destruct H as [H|H]; [injection H as <- <-; reflexivity|]). destruct H.
  - split; [reflexivity|]. intros pre post E. destruct pre; discriminate.
Qed.
Lemma wl_snoc pre post op : wl (pre ++ [OSave]) (post ++ [op]) = wl (pre ++ [OSave]) post ++ [wrap64 (used ((pre ++ OSave :: post) ++ [op]))].
Proof. unfold wl. rewrite levels_post_snoc, map_app. reflexivity. Qed.
Lemma wrap_add a n : wrap64 (wrap64 a + n) = wrap64 (a + n).
Proof. apply Z.add_mod_idemp_l. discriminate. Qed.
Lemma wrap_sub a n : wrap64 (wrap64 a - n) = wrap64 (a + - n).
Proof. replace (wrap64 a - n) with (wrap64 a + - n) by lia. apply wrap_add. Qed.
Lemma wrap_range a : 0 <= wrap64 a < two64.
Proof. apply Z.mod_pos_bound. reflexivity. Qed.

Ltac each_counter H := cbn [the_counters In] in H; repeat (destruct H as [H|H]; [injection H as <- <-|]); [..|destruct H].

Lemma wrap_compute b s op ops : non_save op -> cmod ops (st (alc s)) ->
  exists s', astep b s op = Val (s', ANone) /\ save_ring (alc s') = save_ring (alc s) /\ sps s' = sps s /\
    cmod (ops ++ [op]) (st (alc s')) /\
    min_used (st (alc s')) = Z.min (min_used (st (alc s))) (wrap64 (used (ops ++ [op]))) /\
    max_used (st (alc s')) = Z.max (max_used (st (alc s))) (wrap64 (used (ops ++ [op]))).
Proof.
  intros Hn [HC CU].
  assert (CS : forall c f, In (c, f) the_counters -> forall n, f op = n -> wrap64 (c (st (alc s)) + n) = wrap64 (total f (ops ++ [op]))).
  { intros c f I n <-. rewrite total_snoc, (HC c f I). apply wrap_add. }
  assert (C0 : forall c f, In (c, f) the_counters -> f op = 0 -> c (st (alc s)) = wrap64 (total f (ops ++ [op]))).
  { intros c f I E. rewrite total_snoc, E, Z.add_0_r. apply HC, I. }
  rewrite used_snoc.
  assert (MN : forall x y, (if y <? x then y else x) = Z.min x y) by (intros x y; destruct (Z.ltb_spec y x); lia).
  assert (MX : forall x y, (if y >? x then y else x) = Z.max x y) by (intros x y; destruct (Z.gtb_spec y x); lia).
  destruct op as [n ok|n|n ok|o n ok| |k]; try contradiction; cbn [delta];
    (eexists; split; [reflexivity|]; split; [reflexivity|]; split; [reflexivity|]);
    unfold with_stats, compute_alloc, compute_dealloc, compute_alloc_zeroed, compute_realloc, compute_min_and_max;
    cbn [alc st allocations_count deallocations_count zeroed_allocations_count reallocations_count
         allocated_bytes deallocated_bytes zeroed_allocated_bytes reallocated_originals_bytes
         reallocated_news_bytes current_used min_used max_used]; rewrite MN, MX.
  1: replace (wrap64 (current_used (st (alc s)) + n)) with (wrap64 (used ops + n)) by (rewrite CU; symmetry; apply wrap_add).
  2: replace (wrap64 (current_used (st (alc s)) - n)) with (wrap64 (used ops + - n)) by (rewrite CU; symmetry; apply wrap_sub).
  3: replace (wrap64 (current_used (st (alc s)) + n)) with (wrap64 (used ops + n)) by (rewrite CU; symmetry; apply wrap_add).
  4: replace (if n >? o then wrap64 (current_used (st (alc s)) + (n - o)) else if n <? o then wrap64 (current_used (st (alc s)) - (o - n)) else current_used (st (alc s)))
       with (wrap64 (used ops + (n - o))).
  5:{ rewrite CU. destruct (Z.gtb_spec n o); [symmetry; apply wrap_add|]. destruct (Z.ltb_spec n o); [rewrite wrap_sub; f_equal; lia|f_equal; lia]. }
  all: split; [|split; reflexivity]; split; [|cbn [current_used]; rewrite used_snoc; reflexivity].
  all: intros c f I; pose proof I as I'; each_counter I;
    cbn [allocations_count deallocations_count zeroed_allocations_count reallocations_count allocated_bytes deallocated_bytes zeroed_allocated_bytes reallocated_originals_bytes reallocated_news_bytes];
    first [refine (C0 _ _ I' _); reflexivity | refine (CS _ _ I' _ _); reflexivity].
Qed.

Lemma in_min m l x : is_min m l -> In x l -> is_min m (l ++ [x]).
Proof. intros [H1 H2] Hx. split; [apply in_or_app; left; exact H1|]. intros y Hy. apply in_app_or in Hy. destruct Hy as [Hy|[<-|[]]]; apply H2; assumption. Qed.
Lemma in_max m l x : is_max m l -> In x l -> is_max m (l ++ [x]).
Proof. intros [H1 H2] Hx. split; [apply in_or_app; left; exact H1|]. intros y Hy. apply in_app_or in Hy. destruct Hy as [Hy|[<-|[]]]; apply H2; assumption. Qed.
Lemma wl_last p q : In (wrap64 (used (p ++ q))) (wl p q).
Proof. apply in_map, levels_last. Qed.
Lemma cmod_quiet ops op s : (forall c f, In (c, f) the_counters -> f op = 0) -> delta op = 0 -> cmod ops s -> cmod (ops ++ [op]) s.
Proof.
  intros F D [H U]. split.
  - intros c f I. rewrite total_snoc, (F c f I), Z.add_0_r. apply H, I.
  - rewrite used_snoc, D, Z.add_0_r. exact U.
Qed.

Lemma wrap_save b sz ops s : (0 < sz)%nat -> winv sz ops s -> saves ops + 1 < two32 ->
  exists s', astep b s OSave = Val (s', ANone) /\ winv sz (ops ++ [OSave]) s'.
Proof.
  intros Hsz (hist & HR & HL & HC & Hn & HSP) HB.
  destruct (enqueue_ok b sz hist _ (min_used (st (alc s)), max_used (st (alc s))) Hsz HR ltac:(lia)) as (r' & Er & HR').
  unfold astep, save_point. rewrite Er. cbn [bind fst snd].
  eexists. split; [reflexivity|]. exists (hist ++ [(min_used (st (alc s)), max_used (st (alc s)))]). cbn [alc st save_ring sps].
  split; [exact HR'|].
  assert (Z.of_nat (length (hist ++ [(min_used (st (alc s)), max_used (st (alc s)))])) = saves (ops ++ [OSave])) as HL'.
  { rewrite app_length, saves_snoc. cbn [length is_save]. lia. }
  split; [exact HL'|].
  assert (used (ops ++ [OSave]) = used ops) as EU by (rewrite used_snoc; simpl; lia).
  destruct HC as [HC CU].
  assert (HC0 : cmod ops (Stats (allocations_count (st (alc s))) (deallocations_count (st (alc s)))
        (zeroed_allocations_count (st (alc s))) (reallocations_count (st (alc s)))
        (allocated_bytes (st (alc s))) (deallocated_bytes (st (alc s)))
        (zeroed_allocated_bytes (st (alc s))) (reallocated_originals_bytes (st (alc s)))
        (reallocated_news_bytes (st (alc s))) (current_used (st (alc s))) (current_used (st (alc s))) (current_used (st (alc s))))).
  { split; [|exact CU]. intros c f I. rewrite <- (HC c f I). each_counter I; reflexivity. }
  split. { apply cmod_quiet; [intros c f I; each_counter I; reflexivity|reflexivity|exact HC0]. }
  split. { rewrite app_length, saves_snoc. cbn [length is_save]. lia. }
  intros pre post E. pose proof E as E'. apply snoc_split in E.
  destruct E as [(-> & _ & ->)|(post' & -> & E)].
  - rewrite nth_error_app2 by lia. replace (Z.to_nat (saves ops) - length (sps s))%nat with 0%nat by lia. cbn [nth_error].
    eexists. split; [reflexivity|]. unfold wsp. split; [reflexivity|]. cbn [consumer_head metrics min_used max_used].
    assert (skipn (Z.to_nat (saves ops + 1)) (hist ++ [(min_used (st (alc s)), max_used (st (alc s)))]) = []) as Esk.
    { apply skipn_all2. rewrite app_length. cbn [length]. lia. }
    rewrite Esk. unfold wl. rewrite levels_nil, EU. unfold min_of, max_of. cbn [map fold_right]. rewrite CU.
    split; [|split; [rewrite <- CU; exact HC0|split; [apply is_min_one|apply is_max_one]]].
    unfold consumer. destruct HR' as (_ & HP & _). rewrite HP, HL', saves_snoc. reflexivity.
  - destruct (HSP pre post' E) as (sp & Hsp & Hok). exists sp. split.
    + rewrite nth_error_app1; [exact Hsp|]. apply nth_error_Some. rewrite Hsp. discriminate.
    + destruct Hok as (_ & H1 & H2 & H3 & H4).
      pose proof (saves_nonneg pre). pose proof (saves_nonneg post').
      assert (saves ops = saves pre + 1 + saves post') as Esv by (rewrite E, saves_app, saves_cons; lia).
      unfold wsp. split; [exact E'|]. split; [exact H1|]. split; [exact H2|].
      rewrite skipn_app. replace (Z.to_nat (saves pre + 1) - length hist)%nat with 0%nat by lia.
      cbn [skipn min_used max_used]. rewrite min_of_snoc, max_of_snoc.
      rewrite wl_snoc, <- E, EU, CU. split; [apply is_min_snoc|apply is_max_snoc]; assumption.
Qed.

Lemma wrap_compute_ok b sz ops s op : non_save op -> winv sz ops s -> exists s', astep b s op = Val (s', ANone) /\ winv sz (ops ++ [op]) s'.
Proof.
  intros Hn (hist & HR & HL & HC & Hl & HSP).
  destruct (wrap_compute b s op ops Hn HC) as (s' & Es & Er & Esp & HC' & Hmn & Hmx).
  exists s'. split; [exact Es|]. exists hist. rewrite Er, Esp.
  assert (saves (ops ++ [op]) = saves ops) as Esv by (rewrite saves_snoc; destruct op; simpl in *; try contradiction; lia).
  split; [exact HR|]. split; [lia|]. split; [exact HC'|]. split; [lia|].
  intros pre post E. apply snoc_split in E. destruct E as [(_ & -> & _)|(post' & -> & E)]; [contradiction|].
  destruct (HSP pre post' E) as (sp & Hsp & (_ & H1 & H2 & H3 & H4)). exists sp. split; [exact Hsp|]. unfold wsp.
  split; [rewrite E, <- app_assoc; reflexivity|]. split; [exact H1|]. split; [exact H2|].
  rewrite wl_snoc, <- E, Hmn, Hmx, min_of_min, max_of_max. split; [apply is_min_snoc|apply is_max_snoc]; assumption.
Qed.

(** the subtractions of delta_statistics, one counter at a time *)
Lemma sub_modulo b f (pre post : list aop) now saved : now = wrap64 (total f (pre ++ post)) -> saved = wrap64 (total f pre) ->
  usize_sub b now saved = (if (now <? saved) && match b with Debug => true | Release => false end then Panic POverflow else Val (total f post mod two64)).
Proof.
  intros -> ->. unfold usize_sub, checked.
  pose proof (wrap_range (total f (pre ++ post))). pose proof (wrap_range (total f pre)).
  assert (E : (wrap64 (total f (pre ++ post)) - wrap64 (total f pre)) mod two64 = total f post mod two64).
  { unfold wrap64. rewrite <- Zminus_mod, total_app. f_equal. lia. }
  destruct (Z.ltb_spec (wrap64 (total f (pre ++ post))) (wrap64 (total f pre))).
  - replace (0 <=? _) with false by lia. destruct b; cbn [andb]; [reflexivity|]. rewrite E. reflexivity.
  - replace (0 <=? _) with true by lia. replace (_ <? two64) with true by lia. cbn [andb]. rewrite <- E. rewrite Z.mod_small by lia. reflexivity.
Qed.
Lemma total_save f pre post : f OSave = 0 -> total f (pre ++ OSave :: post) = total f (pre ++ post).
Proof. intros E. rewrite !total_app. unfold total. cbn [map]. unfold sum. cbn [fold_right]. rewrite E. lia. Qed.

Lemma wrap_delta b sz ops s pre post : (0 < sz)%nat -> Z.of_nat sz < two32 -> winv sz ops s -> saves ops < two32 ->
  ops = pre ++ OSave :: post ->
  exists sp, nth_error (sps s) (Z.to_nat (saves pre)) = Some sp /\
    (saves post > Z.of_nat sz -> delta_statistics b (alc s) sp = Val None) /\
    (saves post <= Z.of_nat sz ->
       (b = Debug /\ fell pre post /\ delta_statistics b (alc s) sp = Panic POverflow) \/
       ((b = Debug -> ~ fell pre post) /\ exists d, delta_statistics b (alc s) sp = Val (Some d) /\ delta_modulo (pre ++ [OSave]) post d)).
Proof.
  intros Hsz HszB (hist & HR & HL & [HC CU] & _ & HSP) HB E.
  destruct (HSP pre post E) as (sp & Hsp & _ & Hh & [HM MU] & Hmin & Hmax). clear HSP.
  assert (saves ops = saves pre + 1 + saves post) as Esv by (rewrite E, saves_app, saves_cons; lia).
  pose proof (saves_nonneg pre). pose proof (saves_nonneg post).
  set (h := Z.to_nat (saves pre + 1)) in *.
  assert (h <= length hist)%nat as Hhl by (unfold h; lia).
  destruct (peek_ok b sz hist _ h Hsz HszB HR ltac:(lia) Hhl) as (s1 & s2 & Ep & Es).
  assert (consumer_head sp = Z.of_nat h) as Hh' by (unfold h; lia).
  assert (Z.of_nat (length (skipn h hist)) = saves post) as Elen by (rewrite skipn_length; unfold h in *; lia).
  exists sp. split; [exact Hsp|]. unfold delta_statistics. rewrite Hh', Ep. cbn [bind].
  destruct (Nat.ltb_spec sz (length (skipn h hist))) as [Hov|Hok]; cbn match; [split; [reflexivity|lia]|].
  split; [lia|intros _]. rewrite Es by exact Hok. rewrite fold_minmax_some. cbn [bind fst snd].
  assert (HC' : forall c f, In (c, f) the_counters -> c (st (alc s)) = wrap64 (total f (pre ++ post))).
  { intros c f I. rewrite (HC c f I), E. f_equal. apply total_save. each_counter I; reflexivity. }
  assert (B : forall c f, In (c, f) the_counters -> usize_sub b (c (st (alc s))) (c (metrics sp)) =
    if (c (st (alc s)) <? c (metrics sp)) && match b with Debug => true | Release => false end then Panic POverflow else Val (total f post mod two64)).
  { intros c f I. apply (sub_modulo b f pre post); [apply HC', I|apply HM, I]. }
  assert (FALL : forall c f, In (c, f) the_counters -> (c (st (alc s)) <? c (metrics sp)) = true -> fell pre post).
  { intros c f I L. apply Z.ltb_lt in L. exists c, f. split; [exact I|]. rewrite (HC' c f I), (HM c f I) in L. exact L. }
  assert (DONE : (forall c f, In (c, f) the_counters -> (c (st (alc s)) <? c (metrics sp)) && match b with Debug => true | Release => false end = false) -> b = Debug -> ~ fell pre post).
  { intros N -> (c & f & I & L). specialize (N c f I). rewrite andb_true_r in N. apply Z.ltb_ge in N. rewrite (HC' c f I), (HM c f I) in N. unfold wrap64 in N. lia. }
  Ltac next c f := 
    match goal with B : forall c f, In (c, f) the_counters -> usize_sub ?b _ _ = _, FALL : _ |- _ =>
      let I := fresh "I" in assert (I : In (c, f) the_counters) by (cbn; tauto);
      rewrite (B c f I); let N := fresh "N" in
      destruct ((c _ <? c _) && match b with Debug => true | Release => false end) eqn:N;
      [cbn [bind]; left; apply andb_true_iff in N; destruct N as [N D]; destruct b; [|discriminate D]; split; [reflexivity|]; split; [exact (FALL c f I N)|reflexivity]
      |cbn [bind]] end.
  next allocations_count f_allocations. next deallocations_count f_deallocations. next zeroed_allocations_count f_zeroed.
  next reallocations_count f_reallocations. next allocated_bytes f_allocated. next deallocated_bytes f_deallocated.
  next zeroed_allocated_bytes f_zeroed_bytes. next reallocated_originals_bytes f_realloc_old. next reallocated_news_bytes f_realloc_new.
  right. split. { apply DONE. intros c f J. each_counter J; assumption. }
  eexists. split; [reflexivity|]. unfold delta_modulo.
  cbn [current_used min_used max_used]. split. { intros c f J. each_counter J; reflexivity. }
  split. { rewrite CU, E, app_cons_assoc. reflexivity. }
  rewrite <- min_of_min, <- max_of_max. rewrite (Z.min_comm (two64 - 1)), (Z.max_comm 0). rewrite min_of_min, max_of_max.
  assert (R : forall x, In x (wl (pre ++ [OSave]) post) -> 0 <= x < two64).
  { intros x X. apply in_map_iff in X. destruct X as (y & <- & _). apply wrap_range. }
  pose proof (R _ (proj1 Hmin)). pose proof (R _ (proj1 Hmax)).
  rewrite Z.min_l by lia. rewrite Z.max_l by lia. split; assumption.
Qed.

Lemma saves_prefix p q : saves p <= saves (p ++ q).
Proof. rewrite saves_app. pose proof (saves_nonneg q). lia. Qed.
Lemma save_at ops k : Z.of_nat k < saves ops -> exists pre post, ops = pre ++ OSave :: post /\ saves pre = Z.of_nat k.
Proof.
  revert k. induction ops as [|op ops IH] using rev_ind; intros k Hk; [unfold saves, total in Hk; simpl in Hk; lia|].
  rewrite saves_snoc in Hk. destruct (Z_lt_le_dec (Z.of_nat k) (saves ops)) as [H|H].
  - destruct (IH k H) as (pre & post & -> & E). exists pre, (post ++ [op]). split; [rewrite <- app_assoc; reflexivity|exact E].
  - exists ops, []. destruct op; simpl in Hk; try lia. split; [reflexivity|lia].
Qed.
Lemma wrap_query sz ops s k : (0 < sz)%nat -> Z.of_nat sz < two32 -> winv sz ops s -> saves ops < two32 ->
  exists out, astep Release s (ODelta k) = Val (s, out) /\ winv sz (ops ++ [ODelta k]) s.
Proof.
  intros Hsz HszB HI HB.
  assert (exists out, astep Release s (ODelta k) = Val (s, out)) as (out & Eo).
  { unfold astep. destruct (nth_error (sps s) k) as [sp|] eqn:Ek; [|eexists; reflexivity].
    assert (Hk : Z.of_nat k < saves ops).
    { destruct HI as (hist & _ & _ & _ & Hn & _). rewrite <- Hn. apply inj_lt. apply nth_error_Some. rewrite Ek. discriminate. }
    destruct (save_at ops k Hk) as (pre & post & E & Ek').
    destruct (wrap_delta Release sz ops s pre post Hsz HszB HI HB E) as (sp' & Hsp & D1 & D2).
    rewrite Ek', Nat2Z.id in Hsp. rewrite Ek in Hsp. injection Hsp as <-.
    destruct (Z_le_gt_dec (saves post) (Z.of_nat sz)) as [L|G]; [|rewrite (D1 G); eexists; reflexivity].
    destruct (D2 L) as [(? & _)|(_ & d & -> & _)]; [discriminate|eexists; reflexivity]. }
  exists out. split; [exact Eo|].
  destruct HI as (hist & HR & HL & HC & Hl & HSP). exists hist.
  assert (used (ops ++ [ODelta k]) = used ops) as EU by (rewrite used_snoc; simpl; lia).
  assert (saves (ops ++ [ODelta k]) = saves ops) as Esv by (rewrite saves_snoc; simpl; lia).
  split; [exact HR|]. split; [lia|]. split. { apply cmod_quiet; [intros c f I; each_counter I; reflexivity|reflexivity|exact HC]. }
  split; [lia|].
  intros pre post E. apply snoc_split in E. destruct E as [(_ & ? & _)|(post' & -> & E)]; [discriminate|].
  destruct (HSP pre post' E) as (sp & Hsp & (_ & H1 & H2 & H3 & H4)). exists sp. split; [exact Hsp|]. unfold wsp.
  split; [rewrite E, <- app_assoc; reflexivity|]. split; [exact H1|]. split; [exact H2|].
  pose proof (wl_last (pre ++ [OSave]) post') as HLL. rewrite app_cons_assoc, <- E in HLL.
  rewrite wl_snoc, <- E, EU. split; [apply in_min|apply in_max]; assumption.
Qed.
Lemma wrap_run b sz ops : (0 < sz)%nat -> Z.of_nat sz < two32 -> saves ops < two32 -> (b = Debug -> no_query ops) ->
  exists s outs, arun b (ainit sz) ops = Val (s, outs) /\ length outs = length ops /\ winv sz ops s.
Proof.
  intros Hsz HszB. induction ops as [|op ops IH] using rev_ind; intros HB NQ.
  - exists (ainit sz), []. split; [reflexivity|]. split; [reflexivity|]. apply winv_init.
  - pose proof (saves_prefix ops [op]). destruct (IH ltac:(lia)) as (s & outs & E & Hlen & HI).
    { intros D k I. apply (NQ D k). apply in_or_app. left. exact I. }
    assert (exists s' out, astep b s op = Val (s', out) /\ winv sz (ops ++ [op]) s') as (s' & out & Es & HI').
    { assert (W : non_save op -> exists s' out, astep b s op = Val (s', out) /\ winv sz (ops ++ [op]) s').
      { intros N. destruct (wrap_compute_ok b sz ops s op N HI) as (s' & H1 & H2). exists s', ANone. split; assumption. }
      destruct op; try exact (W I).
      - rewrite saves_snoc in HB. destruct (wrap_save b sz ops s Hsz HI HB) as (s' & H1 & H2). exists s', ANone. split; assumption.
      - destruct b; [destruct (NQ eq_refl k); apply in_or_app; right; left; reflexivity|].
        destruct (wrap_query sz ops s k Hsz HszB HI ltac:(lia)) as (o & H1 & H2). exists s, o. split; assumption. }
    exists s', (outs ++ [out]). rewrite arun_app, E. cbn [bind fst snd arun]. rewrite Es. cbn [bind fst snd arun].
    split; [reflexivity|]. split; [rewrite !app_length, Hlen; reflexivity|exact HI'].
Qed.

(** ** C109 *)
(** the number of the save point taken right after [pre] *)
Definition number_of_save (pre : list aop) : nat := Z.to_nat (saves pre).

(** The calls themselves never fail, whatever was requested; the counters are the totals modulo 2^64. *)
Theorem C109_counters_modulo : forall b sz ops,
  (1 <= sz)%nat -> Z.of_nat sz < two32 -> saves ops < two32 -> (b = Debug -> no_query ops) ->
  exists s outs, arun b (ainit sz) ops = Val (s, outs) /\ length outs = length ops /\
    (forall c f, In (c, f) the_counters -> c (st (alc s)) = total f ops mod two64) /\
    current_used (st (alc s)) = used ops mod two64.
Proof.
  intros b sz ops H1 H2 H3 H4. destruct (wrap_run b sz ops ltac:(lia) H2 H3 H4) as (s & outs & R & L & (hist & _ & _ & [C U] & _)).
  exists s, outs. auto.
Qed.
Print Assumptions C109_counters_modulo.

(** A query right after [pre], a save point and [post]: in release builds always the
    differences modulo 2^64; in debug builds it panics exactly if a counter fell. *)
Theorem C109_delta_modulo : forall b sz pre post,
  (1 <= sz)%nat -> Z.of_nat sz < two32 -> saves (pre ++ OSave :: post) < two32 -> saves post <= Z.of_nat sz ->
  (b = Debug -> no_query (pre ++ OSave :: post)) ->
  let all := pre ++ OSave :: post ++ [ODelta (number_of_save pre)] in
  (b = Debug /\ fell pre post /\ arun b (ainit sz) all = Panic POverflow) \/
  ((b = Debug -> ~ fell pre post) /\
   exists s outs d, arun b (ainit sz) all = Val (s, outs ++ [ADelta (Some d)]) /\ length outs = length (pre ++ OSave :: post) /\ delta_modulo (pre ++ [OSave]) post d).
Proof.
  intros b sz pre post H1 H2 H3 H4 H5 all. destruct (wrap_run b sz _ ltac:(lia) H2 H3 H5) as (s & outs & R & L & HI).
  destruct (wrap_delta b sz _ s pre post ltac:(lia) H2 HI H3 eq_refl) as (sp & Hsp & _ & D).
  assert (RUN : forall r, delta_statistics b (alc s) sp = r -> arun b (ainit sz) all = (d <- r ;; Val (s, outs ++ [ADelta d]))).
  { intros r <-. unfold all. rewrite app_comm_cons, app_assoc, arun_app, R. cbn [bind fst snd arun astep]. unfold number_of_save. rewrite Hsp.
    destruct (delta_statistics b (alc s) sp); reflexivity. }
  destruct (D H4) as [(-> & F & P)|(NF & d & V & M)].
  - left. split; [reflexivity|]. split; [exact F|]. rewrite (RUN _ P). reflexivity.
  - right. split; [exact NF|]. exists s, outs, d. rewrite (RUN _ V). split; [reflexivity|]. split; [exact L|exact M].
Qed.
Print Assumptions C109_delta_modulo.

(** Two refused requests: the memory is never obtained, and nothing was ever freed, yet
    in a debug build the query panics, and in a release build it reports the sum modulo 2^64. *)
Theorem C109_refused_requests : forall sz before m n,
  (1 <= sz)%nat -> Z.of_nat sz < two32 -> 0 <= m < two64 -> 0 <= n < two64 -> 0 < before < two64 -> m + n < two64 -> two64 <= before + m + n ->
  let history := [OAlloc before true; OSave; OAlloc m false; OAlloc n false; ODelta 0] in
  arun Debug (ainit sz) history = Panic POverflow /\
  exists s outs d, arun Release (ainit sz) history = Val (s, outs ++ [ADelta (Some d)]) /\
    allocations_count d = 2 /\ allocated_bytes d = m + n /\ current_used d = before + m + n - two64 /\ current_used d < before.
Proof.
  intros sz before m n H1 H2 Hm Hn Hb L G history.
  assert (F : fell [OAlloc before true] [OAlloc m false; OAlloc n false]).
  { exists allocated_bytes, f_allocated. split; [cbn; tauto|]. unfold total, sum. cbn [map app fold_right f_allocated].
    rewrite (Z.mod_small (before + 0)) by lia. replace ((before + (m + (n + 0))) mod two64) with (before + m + n - two64); [lia|].
    apply Zmod_unique with 1; lia. }
  assert (NQ : no_query ([OAlloc before true] ++ OSave :: [OAlloc m false; OAlloc n false])).
  { intros k [E|[E|[E|[E|[]]]]]; discriminate. }
  assert (SV : saves ([OAlloc before true] ++ OSave :: [OAlloc m false; OAlloc n false]) < two32) by reflexivity.
  assert (SP : saves [OAlloc m false; OAlloc n false] <= Z.of_nat sz) by (unfold saves, total, sum; cbn; lia).
  split.
  - destruct (C109_delta_modulo Debug sz [OAlloc before true] [OAlloc m false; OAlloc n false] H1 H2 SV SP (fun _ => NQ)) as [(_ & _ & R)|(NF & _)]; [exact R|destruct (NF eq_refl F)].
  - destruct (C109_delta_modulo Release sz [OAlloc before true] [OAlloc m false; OAlloc n false] H1 H2 SV SP (fun _ => NQ)) as [(? & _)|(_ & s & outs & d & R & _ & C & U & _)]; [discriminate|].
    exists s, outs, d. split; [exact R|]. rewrite (C allocations_count f_allocations) by (cbn; tauto). rewrite (C allocated_bytes f_allocated) by (cbn; tauto). rewrite U.
    unfold used, total, sum. cbn [map app fold_right f_allocated f_allocations delta].
    split; [reflexivity|]. split; [rewrite Z.mod_small by lia; lia|].
    replace ((before + (0 + (m + (n + 0)))) mod two64) with (before + m + n - two64); [lia|]. apply Zmod_unique with 1; lia.
Qed.
Print Assumptions C109_refused_requests.

Example C109_example :
  let huge := 2 ^ 63 - 1 in
  arun Debug (ainit 4) [OAlloc 100 true; OSave; OAlloc huge false; OAlloc huge false; ODelta 0] = Panic POverflow /\
  match arun Release (ainit 4) [OAlloc 100 true; OSave; OAlloc huge false; OAlloc huge false; ODelta 0] with
  | Val (_, outs) => last outs ANone = ADelta (Some (Stats 2 0 0 0 (2 ^ 64 - 2) 0 0 0 0 98 98 (2 ^ 63 + 99)))
  | _ => False
  end.
Proof. vm_compute. split; reflexivity. Qed.
