(** * Relaxed memory: a thread that knows everything sees the sequential allocator.
    Part 3: where a call is, and one step of it. *)
From Coq Require Import List ZArith Lia Bool Arith.
From Verif Require Import Machine Ring RingSeq RingConc Alloc AllocSpec AllocProofs AllocConc AllocConcSpec AllocConcProofs AllocConcProofs2
  RingWeak RingWeakSpec RingWeakProofs RingWeakProofs2 RingWeakProofs3
  AllocWeak AllocWeakSpec AllocWeakProofs AllocWeakProofs2 AllocWeakMinMax AllocWeakMinMax2 AllocWeakSerial AllocWeakSerial2.
Import ListNotations.
Open Scope Z_scope.

(** ** The subtractions of delta_statistics *)
Fixpoint subs (b : build) (x m : stats) (l : list field) : res (list Z) :=
  match l with
  | [] => Val []
  | f :: l => d <- usize_sub b (mem_of x f) (mem_of m f) ;; ds <- subs b x m l ;; Val (d :: ds)
  end.
Lemma subs_snoc b x m l f d ds : subs b x m l = Val ds -> usize_sub b (mem_of x f) (mem_of m f) = Val d -> subs b x m (l ++ [f]) = Val (ds ++ [d]).
Proof.
  intros H D. revert ds H. induction l as [|g l IH]; intros ds; cbn [subs app].
  - intros [= <-]. rewrite D. reflexivity.
  - destruct (usize_sub b (mem_of x g) (mem_of m g)) as [e| |]; cbn [bind]; try discriminate. destruct (subs b x m l) as [es| |]; cbn [bind]; try discriminate.
    intros [= <-]. rewrite (IH es eq_refl). reflexivity.
Qed.
Lemma subs_len b x m l : forall ds, subs b x m l = Val ds -> length ds = length l.
Proof.
  induction l as [|f l IH]; intros ds; cbn [subs]; [intros [= <-]; reflexivity|].
  destruct (usize_sub b (mem_of x f) (mem_of m f)) as [e| |]; cbn [bind]; try discriminate. destruct (subs b x m l) as [es| |]; cbn [bind]; try discriminate.
  intros [= <-]. cbn [length]. f_equal. apply IH. reflexivity.
Qed.
Lemma subs_delta b a sp s1 s2 mn mx ds : peek_all b (save_ring a) (consumer_head sp) = Val (Some (s1, s2)) ->
  fold_minmax (s1 ++ s2) (two64 - 1) 0 = Val (mn, mx) -> subs b (st a) (metrics sp) counter_fields = Val ds ->
  exists r, delta_statistics b a sp = Val (Some r) /\ stats_list r = ds ++ [current_used (st a); Z.min mn (min_used (st a)); Z.max mx (max_used (st a))].
Proof.
  intros P F. unfold delta_statistics. rewrite P. cbn [bind]. rewrite F. cbn [bind fst snd]. cbn [subs counter_fields mem_of].
  repeat match goal with |- context [usize_sub b ?u ?v] => destruct (usize_sub b u v); cbn [bind]; try discriminate end.
  intros [= <-]. eexists. split; [reflexivity|]. reflexivity.
Qed.

(** ** Where a call is; [a] is the sequential allocator when it began *)
Definition x_min (x : stats) : stats :=
  Stats (allocations_count x) (deallocations_count x) (zeroed_allocations_count x) (reallocations_count x) (allocated_bytes x) (deallocated_bytes x)
        (zeroed_allocated_bytes x) (reallocated_originals_bytes x) (reallocated_news_bytes x) (current_used x) (current_used x) (max_used x).
Definition x_both (x : stats) : stats :=
  Stats (allocations_count x) (deallocations_count x) (zeroed_allocations_count x) (reallocations_count x) (allocated_bytes x) (deallocated_bytes x)
        (zeroed_allocated_bytes x) (reallocated_originals_bytes x) (reallocated_news_bytes x) (current_used x) (current_used x) (current_used x).
Definition saving (b : build) (s : kst) (t : nat) (a : astate) (c : Z) (x : stats) : Prop :=
  mem_is s (mem_of x) /\ sps_rel s a /\ ring_pc s t Idle /\
  exists q', enqueue b (save_ring (alc a)) (min_used (st (alc a)), max_used (st (alc a))) = Val q' /\ rrel (k_ring s) q' /\ head_at s c (published_tail q').
Definition asked (s : kst) (a : astate) (k : nat) (sp : savepoint) : Prop := srel s a /\ nth_error (sps a) k = Some sp.
Definition prog (b : build) (s : kst) (t : nat) (a : astate) (op : aop) (p : apc) : Prop :=
  let x := st (alc a) in let q := save_ring (alc a) in
  match p with
  | AIdle => False
  | APanicked _ => True
  | AAdds _ | ALoadCur | ALoadMin _ | AMin _ _ | ALoadMax _ | AMax _ _ =>
      exists x', after_call x op = Some x' /\ same (fin (kvalue s) p) (mem_of x') /\ local (kvalue s) p /\
        rrel (k_ring s) q /\ sps_rel s a /\ ring_pc s t Idle
  | SLoadMin => op = OSave /\ srel s a /\ ring_pc s t Idle
  | SLoadMax mn => op = OSave /\ mn = min_used x /\ srel s a /\ ring_pc s t Idle
  | SEnq mn mx => op = OSave /\ mn = min_used x /\ mx = max_used x /\ mem_is s (mem_of x) /\ sps_rel s a /\
      (ring_pc s t Idle /\ rrel (k_ring s) q \/ exists w, ring_pc s t w /\ enq_at q (mn, mx) (k_ring s) w)
  | SConsumer => op = OSave /\ mem_is s (mem_of x) /\ sps_rel s a /\
      exists q', enqueue b q (min_used x, max_used x) = Val q' /\ rrel (k_ring s) q' /\ (ring_pc s t Idle \/ ring_pc s t ConsLoad)
  | SLoadCur1 c => op = OSave /\ saving b s t a c x
  | SStoreMin c v => op = OSave /\ v = current_used x /\ saving b s t a c x
  | SLoadCur2 c => op = OSave /\ saving b s t a c (x_min x)
  | SStoreMax c v => op = OSave /\ v = current_used x /\ saving b s t a c (x_min x)
  | SSnap c todo acc => op = OSave /\ saving b s t a c (x_both x) /\ acc ++ map (mem_of (x_both x)) todo = stats_list (x_both x)
  | DPeek k => op = ODelta k /\ exists sp ksp, asked s a k sp /\ nth_error (k_sps s) k = Some ksp /\
      (ring_pc s t Idle \/ exists w, ring_pc s t w /\ peek_at (k_ring s) (Z.to_nat (fst ksp)) (consumer_head sp) w)
  | DMin k mn mx => op = ODelta k /\ ring_pc s t Idle /\ exists sp s1 s2, asked s a k sp /\
      peek_all b q (consumer_head sp) = Val (Some (s1, s2)) /\ fold_minmax (s1 ++ s2) (two64 - 1) 0 = Val (mn, mx)
  | DMax k mn mx => op = ODelta k /\ ring_pc s t Idle /\ exists sp s1 s2 mn0, asked s a k sp /\
      peek_all b q (consumer_head sp) = Val (Some (s1, s2)) /\ fold_minmax (s1 ++ s2) (two64 - 1) 0 = Val (mn0, mx) /\ mn = Z.min mn0 (min_used x)
  | DLoads k mn mx todo acc => op = ODelta k /\ ring_pc s t Idle /\ exists sp s1 s2 mn0 mx0 done, asked s a k sp /\
      peek_all b q (consumer_head sp) = Val (Some (s1, s2)) /\ fold_minmax (s1 ++ s2) (two64 - 1) 0 = Val (mn0, mx0) /\
      mn = Z.min mn0 (min_used x) /\ mx = Z.max mx0 (max_used x) /\ counter_fields = done ++ todo /\ subs b x (metrics sp) done = Val acc
  end.

Lemma know_same s s' t : (forall f, k_msgs s' f = k_msgs s f) -> (forall f, kv (kview_of s' t) f = kv (kview_of s t) f) -> rknow (k_ring s') t -> know s t -> know s' t.
Proof. intros M V R [K _]. split; [|exact R]. intros f. unfold newest_known in *. rewrite V, M. apply K. Qed.

(** what carries over when the ring is untouched *)
Lemma saving_mem b s s' t a c x x' : k_ring s' = k_ring s -> k_sps s' = k_sps s -> mem_is s' (mem_of x') -> saving b s t a c x -> saving b s' t a c x'.
Proof.
  intros R S M (_ & S1 & P & q' & E & RR & H). split; [exact M|]. split; [apply (sps_same s); [rewrite R; reflexivity|exact S|exact S1]|].
  split; [unfold ring_pc; rewrite R; exact P|]. exists q'. split; [exact E|]. rewrite R. split; [exact RR|]. unfold head_at. rewrite R. exact H.
Qed.
Lemma srel_same s s' a : k_ring s' = k_ring s -> k_sps s' = k_sps s -> (forall f, k_msgs s' f = k_msgs s f) -> srel s a -> srel s' a.
Proof.
  intros R S M (H1 & H2 & H3). split; [intros f; unfold kvalue; rewrite M; apply H1|]. split; [rewrite R; exact H2|].
  apply (sps_same s); [rewrite R; reflexivity|exact S|exact H3].
Qed.
Lemma asked_same s s' a k sp : k_ring s' = k_ring s -> k_sps s' = k_sps s -> (forall f, k_msgs s' f = k_msgs s f) -> asked s a k sp -> asked s' a k sp.
Proof. intros R S M [H1 H2]. split; [apply (srel_same s); assumption|exact H2]. Qed.
Lemma last_event {X} (l : list X) e x : nth_error (l ++ [e]) (length (l ++ [e]) - 1) = Some x -> x = e.
Proof.
  rewrite app_length. cbn [length]. rewrite nth_error_app2 by lia. replace (length l + 1 - 1 - length l)%nat with 0%nat by lia. cbn. congruence.
Qed.
Lemma Forall2_nth {X Y} (P : X -> Y -> Prop) l l' i y : Forall2 P l l' -> nth_error l' i = Some y -> exists x, nth_error l i = Some x /\ P x y.
Proof.
  intros H. revert i. induction H as [|x0 y0 l l' H F IH]; intros [|i]; cbn [nth_error]; try discriminate; [|apply IH].
  intros [= <-]. eauto.
Qed.
Lemma Forall2_nth' {X Y} (P : X -> Y -> Prop) l l' i x : Forall2 P l l' -> nth_error l i = Some x -> exists y, nth_error l' i = Some y /\ P x y.
Proof.
  intros H. revert i. induction H as [|x0 y0 l l' H F IH]; intros [|i]; cbn [nth_error]; try discriminate; [|apply IH].
  intros [= <-]. eauto.
Qed.

(** ** One step *)
Definition stepped (b : build) (s : kst) (t : nat) (a : astate) (op : aop) (s' : kst) : Prop :=
  know s' t /\ (exists w, w_threads (k_ring s') = upd t w (w_threads (k_ring s))) /\
  exists p', nth_error (k_threads s') t = Some p' /\
    (prog b s' t a op p' /\ k_deltas s' = k_deltas s \/
     p' = AIdle /\ ring_pc s' t Idle /\ exists a' out, astep b a op = Val (a', out) /\ srel s' a' /\ k_deltas s' = k_deltas s ++ ans op out).

Lemma load_stepped b s t a op p f next k v : (t < length (k_views s))%nat -> (t < length (k_threads s))%nat -> ring_pc s t Idle -> know s t ->
  load_kind p f next -> can_load s t f k v ->
  (v = kvalue s f -> prog b (kput (loaded s t f k) t (next v)) t a op (next v)) -> stepped b s t a op (kput (loaded s t f k) t (next v)).
Proof.
  intros Hv Ht RP K LK CL P. split; [apply (know_loaded s t f k v Hv CL K)|]. split.
  { exists Idle. kfld. symmetry. clear - RP. unfold ring_pc in RP. revert t RP. generalize (w_threads (k_ring s)). intros l. induction l as [|y l IH]; intros [|t] H; cbn in *; try discriminate; [congruence|].
    f_equal. apply IH. exact H. }
  exists (next v). split; [kfld; rewrite nth_error_upd, Nat.eqb_refl, (proj2 (Nat.ltb_lt _ _)) by exact Ht; reflexivity|]. left. split; [|reflexivity].
  apply P. apply (know_value s t f k v K CL).
Qed.

Lemma upd_self {X} (l : list X) t x : nth_error l t = Some x -> l = upd t x l.
Proof. revert t; induction l as [|y l IH]; intros [|t] H; cbn in *; try discriminate; [congruence|]. f_equal. auto. Qed.
Lemma fin_set m f v p : same (fin (set m f v) p) (fin (set m f v) p).
Proof. intros g. reflexivity. Qed.

Section Step.
Variables (b : build) (n : nat) (s : kst) (t : nat) (a : astate) (op : aop).
Hypothesis HW : KWf n s.
Hypothesis Ht : (t < n)%nat.
Hypothesis K : know s t.

Lemma Lv : (t < length (k_views s))%nat. Proof. rewrite (W_lenv _ _ HW). exact Ht. Qed.
Lemma Lt : (t < length (k_threads s))%nat. Proof. rewrite (W_len _ _ HW). exact Ht. Qed.
Lemma Lr : (t < length (w_views (k_ring s)))%nat. Proof. rewrite (W_lenrv _ _ HW). exact Ht. Qed.
Lemma Lw : (t < length (w_threads (k_ring s)))%nat. Proof. rewrite (W_lenr _ _ HW). exact Ht. Qed.
Lemma U p' : nth_error (upd t p' (k_threads s)) t = Some p'.
Proof. rewrite nth_error_upd, Nat.eqb_refl, (proj2 (Nat.ltb_lt _ _)) by exact Lt. reflexivity. Qed.

(** writes *)
Lemma write_stepped f k v rmw p' : ring_pc s t Idle -> can_write s t f k ->
  ((forall g, kvalue (kput (written s t f k v rmw) t p') g = set (kvalue s) f v g) ->
    prog b (kput (written s t f k v rmw) t p') t a op p' \/
    p' = AIdle /\ exists a' out, astep b a op = Val (a', out) /\ srel (kput (written s t f k v rmw) t p') a' /\ ans op out = []) ->
  stepped b s t a op (kput (written s t f k v rmw) t p').
Proof.
  intros RP CW P. destruct (know_written s t f k v rmw Lv CW K) as [K' V]. split; [exact K'|]. split; [exists Idle; apply upd_self; exact RP|].
  exists p'. split; [apply U|]. destruct (P V) as [H|(H & a' & out & E & R & A)]; [left; split; [exact H|reflexivity]|right].
  split; [exact H|]. split; [exact RP|]. exists a', out. split; [exact E|]. split; [exact R|]. rewrite A, app_nil_r. reflexivity.
Qed.
(** steps without effect on memory *)
Lemma skip_stepped p' : ring_pc s t Idle ->
  (prog b (kput s t p') t a op p' \/
    p' = AIdle /\ exists a' out, astep b a op = Val (a', out) /\ srel (kput s t p') a' /\ ans op out = []) ->
  stepped b s t a op (kput s t p').
Proof.
  intros RP P. split; [exact K|]. split; [exists Idle; apply upd_self; exact RP|].
  exists p'. split; [apply U|]. destruct P as [H|(H & a' & out & E & R & A)]; [left; split; [exact H|reflexivity]|right].
  split; [exact H|]. split; [exact RP|]. exists a', out. split; [exact E|]. split; [exact R|]. rewrite A, app_nil_r. reflexivity.
Qed.

Lemma after_srel s' x' : k_ring s' = k_ring s -> k_sps s' = k_sps s -> after_call (st (alc a)) op = Some x' -> same (kvalue s') (mem_of x') ->
  rrel (k_ring s) (save_ring (alc a)) -> sps_rel s a -> exists a' out, astep b a op = Val (a', out) /\ srel s' a' /\ ans op out = [].
Proof.
  intros R S A V RR SP. exists (with_stats a x'), ANone. split; [apply after_call_step; exact A|]. split; [|destruct op; reflexivity].
  split; [exact V|]. split; [rewrite R; exact RR|]. apply (sps_same s); [rewrite R; reflexivity|exact S|exact SP].
Qed.

Lemma call_stepped p s1 : nth_error (k_threads s) t = Some p -> kshape b s t p s1 ->
  match p with AAdds _ | ALoadCur | ALoadMin _ | AMin _ _ | ALoadMax _ | AMax _ _ => True | _ => False end ->
  prog b s t a op p -> stepped b s t a op s1.
Proof.
  intros Et SH PC P.
  assert (P' : exists x', after_call (st (alc a)) op = Some x' /\ same (fin (kvalue s) p) (mem_of x') /\ local (kvalue s) p /\
        rrel (k_ring s) (save_ring (alc a)) /\ sps_rel s a /\ ring_pc s t Idle) by (destruct p; try (destruct PC; fail); exact P).
  clear P. destruct P' as (x' & A & F & L & RR & SP & RP).
  assert (GO : forall s' p', k_ring s' = k_ring s -> k_sps s' = k_sps s -> same (fin (kvalue s') p') (mem_of x') -> local (kvalue s') p' ->
    match p' with AAdds _ | ALoadCur | ALoadMin _ | AMin _ _ | ALoadMax _ | AMax _ _ => True | _ => False end -> prog b s' t a op p').
  { intros s' p' R S F' L' C. assert (G : exists x', after_call (st (alc a)) op = Some x' /\ same (fin (kvalue s') p') (mem_of x') /\ local (kvalue s') p' /\
        rrel (k_ring s') (save_ring (alc a)) /\ sps_rel s' a /\ ring_pc s' t Idle); [|destruct p'; try (destruct C; fail); exact G].
    exists x'. split; [exact A|]. split; [exact F'|]. split; [exact L'|]. split; [rewrite R; exact RR|]. split; [apply (sps_same s); [rewrite R; reflexivity|exact S|exact SP]|].
    unfold ring_pc. rewrite R. exact RP. }
  inversion SH; subst; try (destruct PC; fail); try match goal with R : ring_op _ _ _ |- _ => destruct R; destruct PC end.
  - apply skip_stepped; [exact RP|]. left. apply GO; try reflexivity; try exact I. exact F.
  - match goal with C : can_load _ _ _ _ _ |- _ => rename C into CL end. match goal with C : can_write _ _ _ _ |- _ => rename C into CW end.
    rewrite (know_value s t f k v K CL) in *. apply write_stepped; [exact RP|exact CW|]. intros V. left.
    apply GO; try reflexivity.
    + rewrite fin_after. intros g. rewrite <- (F g). apply (fin_same _ _ (AAdds l)). exact V.
    + destruct l; exact I.
    + destruct l; exact I.
  - match goal with C : can_load _ _ _ _ _ |- _ => rename C into CL end. match goal with C : load_kind _ _ _ |- _ => rename C into LK end.
    eapply load_stepped; [exact Lv|exact Lt|exact RP|exact K|exact LK|exact CL|]. intros EV.
    assert (MS : same (kvalue (kput (loaded s t f k) t (next v))) (kvalue s)) by (intros g; reflexivity).
    destruct LK; try (destruct PC; fail); (apply GO; [reflexivity|reflexivity| |try exact I|exact I]); try exact EV.
    + subst v. exact F.
    + exact F.
    + exact F.
    + exact F.
    + exact F.
  - match goal with C : can_load _ _ _ _ _ |- _ => rename C into CL end. match goal with C : can_write _ _ _ _ |- _ => rename C into CW end.
    apply write_stepped; [exact RP|exact CW|]. intros V. left. apply GO; try reflexivity; try exact I.
    cbn [fin local] in *. subst mn. intros g. rewrite <- (F g). apply topm_same. intros h. rewrite (V h). unfold bot.
    rewrite (proj2 (Z.ltb_lt _ _)) by assumption. reflexivity.
  - apply skip_stepped; [exact RP|]. left. apply GO; try reflexivity; try exact I. cbn [fin local] in *. subst mn. intros g. rewrite <- (F g). unfold bot.
    rewrite (proj2 (Z.ltb_ge _ _)) by assumption. reflexivity.
  - match goal with C : can_load _ _ _ _ _ |- _ => rename C into CL end. match goal with C : can_write _ _ _ _ |- _ => rename C into CW end.
    apply write_stepped; [exact RP|exact CW|]. intros V. right. split; [reflexivity|]. apply (after_srel _ x'); try reflexivity; try assumption.
    cbn [fin local] in *. subst mx. intros g. rewrite <- (F g). etransitivity; [apply V|]. unfold topm.
    replace (c >? kvalue s FMax) with true by (symmetry; apply Z.gtb_lt; assumption). reflexivity.
  - apply skip_stepped; [exact RP|]. right. split; [reflexivity|]. apply (after_srel _ x'); try reflexivity; try assumption.
    cbn [fin local] in *. subst mx. intros g. rewrite <- (F g). unfold topm.
    replace (c >? kvalue s FMax) with false by (symmetry; rewrite Z.gtb_ltb; apply Z.ltb_ge; assumption). reflexivity.
Qed.

(** ring steps *)
Lemma ring_step_know r : rknow r t -> know (kput_ring s r) t.
Proof. intros R. apply (know_same s); [reflexivity|reflexivity|exact R|exact K]. Qed.
Lemma ring_start_shape rop r : wstep b (k_ring s) (WStart t rop) = Some r -> nth_error (w_threads (k_ring s)) t = Some Idle ->
  r = goto (k_ring s) t (first_pc rop) (view_of (k_ring s) t).
Proof. intros E I. cbn [wstep] in E. rewrite I in E. destruct (wop_ok (k_ring s) t rop); [|discriminate]. injection E as <-. reflexivity. Qed.
Lemma rknow_start p : rknow (goto (k_ring s) t p (view_of (k_ring s) t)) t.
Proof. unfold rknow. rewrite goto_view by exact Lr. destruct K as [_ [K1 K2]]. split; [exact K1|exact K2]. Qed.
Lemma rpc_upd r p : w_threads r = upd t p (w_threads (k_ring s)) -> nth_error (w_threads r) t = Some p.
Proof. intros ->. rewrite nth_error_upd, Nat.eqb_refl, (proj2 (Nat.ltb_lt _ _)) by exact Lw. reflexivity. Qed.
Lemma rrel_goto r q p v : rrel r q -> rrel (goto r t p v) q.
Proof. intros [A B C]. constructor; assumption. Qed.

Lemma load_prog p f next k v : ring_pc s t Idle -> load_kind p f next -> can_load s t f k v ->
  (v = kvalue s f -> prog b (kput (loaded s t f k) t (next v)) t a op (next v)) -> stepped b s t a op (kput (loaded s t f k) t (next v)).
Proof. intros RP LK CL P. eapply load_stepped; [exact Lv|exact Lt|exact RP|exact K|exact LK|exact CL|exact P]. Qed.

Lemma saving_same s' c x : k_ring s' = k_ring s -> k_sps s' = k_sps s -> (forall f, k_msgs s' f = k_msgs s f) -> saving b s t a c x -> saving b s' t a c x.
Proof. intros R S M H. apply (saving_mem b s s' t a c x x R S); [|exact H]. intros f. unfold kvalue. rewrite M. apply H. Qed.

Lemma save_stepped p s1 : nth_error (k_threads s) t = Some p -> kshape b s t p s1 ->
  match p with SLoadMin | SLoadMax _ | SEnq _ _ | SConsumer | SLoadCur1 _ | SStoreMin _ _ | SLoadCur2 _ | SStoreMax _ _ | SSnap _ _ _ => True | _ => False end ->
  prog b s t a op p -> stepped b s t a op s1.
Proof.
  intros Et SH PC P.
  inversion SH; subst; try (destruct PC; fail).
  - (* loads *)
    match goal with C : can_load _ _ _ _ _ |- _ => rename C into CL end. match goal with C : load_kind _ _ _ |- _ => rename C into LK end.
    assert (SR : srel s a -> srel (kput (loaded s t f k) t (next v)) a) by (apply srel_same; reflexivity).
    assert (SV : forall c x, saving b s t a c x -> saving b (kput (loaded s t f k) t (next v)) t a c x) by (intros c x; apply saving_same; reflexivity).
    assert (RI : ring_pc s t Idle) by (destruct LK; try (destruct PC; fail); cbn [prog] in P; unfold saving in P; tauto).
    apply (load_prog p f next k v RI LK CL). intros EV.
    destruct LK; try (destruct PC; fail); cbn [prog] in *.
    + destruct P as (P1 & P2 & P3). split; [exact P1|]. split; [rewrite EV; apply P2|]. split; [apply SR, P2|exact RI].
    + destruct P as (P1 & P2 & P3 & P4). split; [exact P1|]. split; [exact P2|]. split; [rewrite EV; apply P3|]. destruct (SR P3) as (Q1 & Q2 & Q3).
      split; [exact Q1|]. split; [exact Q3|]. left. split; [exact RI|exact Q2].
    + destruct P as (P1 & P2). split; [exact P1|]. split; [rewrite EV; apply P2|apply SV, P2].
    + destruct P as (P1 & P2). split; [exact P1|]. split; [rewrite EV; apply P2|apply SV, P2].
    + destruct P as (P1 & P2 & P3). split; [exact P1|]. split; [apply SV, P2|]. rewrite <- app_assoc. cbn [app]. cbn [map] in P3. rewrite <- P3. f_equal. f_equal. rewrite EV. apply P2.
  - match goal with C : can_write _ _ _ _ |- _ => rename C into CW end. cbn [prog] in P. destruct P as (P1 & P2 & P3).
    apply write_stepped; [apply P3|exact CW|]. intros V. left. cbn [prog]. split; [exact P1|].
    apply (saving_mem b s _ t a c (st (alc a))); [reflexivity|reflexivity| |exact P3]. intros g. rewrite V. unfold set. destruct P3 as (M & _).
    destruct (field_eq_dec g FMin) as [->|N]; [exact P2|]. rewrite (M g). destruct g; try reflexivity. congruence.
  - match goal with C : can_write _ _ _ _ |- _ => rename C into CW end. cbn [prog] in P. destruct P as (P1 & P2 & P3).
    apply write_stepped; [apply P3|exact CW|]. intros V. left. cbn [prog]. split; [exact P1|]. split; [|reflexivity].
    apply (saving_mem b s _ t a c (x_min (st (alc a)))); [reflexivity|reflexivity| |exact P3]. intros g. rewrite V. unfold set. destruct P3 as (M & _).
    destruct (field_eq_dec g FMax) as [->|N]; [exact P2|]. rewrite (M g). destruct g; try reflexivity. congruence.
  - cbn [prog] in P. destruct P as (P1 & P2 & P3). cbn [map] in P3. rewrite app_nil_r in P3. destruct P2 as (M & S & RP & q' & E & RR & HD). split.
    { apply (know_same s); [reflexivity| |exact (proj2 K)|exact K]. intros f. change (kview_of (kput (kput_sp s t (c, acc)) t AIdle) t) with (kview_of (kput_sp s t (c, acc)) t).
      rewrite view_sp, Nat.eqb_refl by exact Lv. reflexivity. }
    split; [exists Idle; apply upd_self; exact RP|]. exists AIdle. split; [apply U|]. right. split; [reflexivity|]. split; [exact RP|].
    subst op. cbn [astep]. unfold save_point. rewrite E. cbn [bind fst snd].
    eexists. exists ANone. split; [reflexivity|]. split; [|kfld; rewrite app_nil_r; reflexivity].
    split; [exact M|]. split; [exact RR|]. unfold sps_rel. cbn [sps]. kfld. apply Forall2_app; [exact S|]. constructor; [|constructor].
    split; [exact HD|exact P3].
  - (* a ring call begins *)
    match goal with R : wstep _ _ _ = Some _ |- _ => rename R into RS end. match goal with R : nth_error (w_threads (k_ring s)) t = Some _ |- _ => rename R into RQ end.
    apply ring_start_shape in RS; [|exact RQ]. split; [apply ring_step_know; subst r; apply rknow_start|].
    split; [exists (first_pc op0); subst r; reflexivity|]. exists p. split; [exact Et|]. left. split; [|reflexivity].
    match goal with R : ring_op _ _ _ |- _ => destruct R; try (destruct PC; fail) end; cbn [prog] in *; kfld.
    + destruct P as (P1 & P2 & P3 & P4 & P5 & P6). split; [exact P1|]. split; [exact P2|]. split; [exact P3|]. split; [exact P4|]. split; [subst r; exact P5|].
      right. exists (EnqReserve (mn, mx)). split; [apply (rpc_upd r); subst r; reflexivity|]. subst r. split; [reflexivity|]. apply rrel_goto.
      destruct P6 as [[_ P6]|(w & P6 & P7)]; [exact P6|]. unfold ring_pc in P6. rewrite RQ in P6. injection P6 as <-. destruct P7.
    + destruct P as (P1 & P2 & P3 & q' & P4 & P5 & P6). split; [exact P1|]. split; [exact P2|]. split; [subst r; exact P3|]. exists q'. split; [exact P4|].
      split; [subst r; apply rrel_goto; exact P5|]. right. apply (rpc_upd r). subst r. reflexivity.
  - (* it goes on *)
    match goal with R : wstep _ _ _ = Some _ |- _ => rename R into RS end. match goal with R : nth_error (w_threads (k_ring s)) t = Some _ |- _ => rename R into RQ end.
    match goal with R : ring_op _ _ _ |- _ => destruct R; try (destruct PC; fail) end; cbn [prog] in *.
    + destruct P as (P1 & P2 & P3 & P4 & P5 & [[P6 _]|(w & P6 & P7)]); [unfold ring_pc in P6; congruence|]. unfold ring_pc in P6. rewrite RQ in P6. injection P6 as <-.
      destruct (enq_step b (k_ring s) t (save_ring (alc a)) (mn, mx) q fails picks r RQ Lr (proj2 K) P7 RS) as (R1 & R2 & p' & R3 & R4).
      pose proof (rpc_upd r p' R3) as R5. match goal with R : nth_error (w_threads r) t = Some q', R' : running q' |- _ => rewrite R5 in R; injection R as <-; rename R' into RN end.
      destruct R4 as [R4|[[-> _]|[e ->]]]; [|destruct RN|destruct RN].
      split; [apply ring_step_know; exact R1|]. split; [exists p'; exact R3|]. exists (SEnq mn mx). split; [exact Et|]. left. split; [|reflexivity].
      split; [exact P1|]. split; [exact P2|]. split; [exact P3|]. split; [exact P4|]. split; [apply (sps_same s); [exact R2|reflexivity|exact P5]|].
      right. exists p'. split; [exact R5|exact R4].
    + destruct P as (P1 & P2 & P3 & qq & P4 & P5 & [P6|P6]); unfold ring_pc in P6; [congruence|].
      destruct (cons_step b (k_ring s) t qq fails picks r P6 Lr (proj2 K) P5 RS) as (R1 & R2 & R3 & _).
      pose proof (rpc_upd r Idle R3) as R5. match goal with R : nth_error (w_threads r) t = Some q', R' : running q' |- _ => rewrite R5 in R; injection R as <-; destruct R' end.
  - (* it panics *)
    match goal with R : wstep _ _ _ = Some _ |- _ => rename R into RS end. match goal with R : nth_error (w_threads (k_ring s)) t = Some _ |- _ => rename R into RQ end.
    assert (RK' : rknow r t /\ exists w, w_threads r = upd t w (w_threads (k_ring s))).
    { match goal with R : ring_op _ _ _ |- _ => destruct R; try (destruct PC; fail) end; cbn [prog] in *.
      + destruct P as (P1 & P2 & P3 & P4 & P5 & [[P6 _]|(w & P6 & P7)]); [unfold ring_pc in P6; congruence|]. unfold ring_pc in P6. rewrite RQ in P6. injection P6 as <-.
        destruct (enq_step b (k_ring s) t (save_ring (alc a)) (mn, mx) q fails picks r RQ Lr (proj2 K) P7 RS) as (R1 & R2 & p' & R3 & R4). eauto.
      + destruct P as (P1 & P2 & P3 & qq & P4 & P5 & [P6|P6]); unfold ring_pc in P6; [congruence|].
        destruct (cons_step b (k_ring s) t qq fails picks r P6 Lr (proj2 K) P5 RS) as (R1 & R2 & R3 & _). eauto. }
    destruct RK' as [R1 R3]. split; [apply (know_same s); [reflexivity|reflexivity|exact R1|exact K]|]. split; [exact R3|].
    exists (APanicked e). split; [apply U|]. left. split; [exact I|reflexivity].
  - (* it returns *)
    match goal with R : wstep _ _ _ = Some _ |- _ => rename R into RS end. match goal with R : nth_error (w_threads (k_ring s)) t = Some _ |- _ => rename R into RQ end.
    match goal with L : ring_ret _ _ _ _ _ |- _ => rename L into RR end. match goal with R : nth_error (w_events r) _ = Some _ |- _ => rename R into EV end.
    match goal with R : nth_error (w_threads r) t = Some Idle |- _ => rename R into RI end.
    inversion RR; subst; try (destruct PC; fail); cbn [prog] in P.
    + destruct P as (P1 & P2 & P3 & P4 & P5 & [[P6 _]|(w & P6 & P7)]); [unfold ring_pc in P6; congruence|]. unfold ring_pc in P6. rewrite RQ in P6. injection P6 as <-.
      destruct (enq_step b (k_ring s) t (save_ring (alc a)) (mn, mx) q fails picks r RQ Lr (proj2 K) P7 RS) as (R1 & R2 & p' & R3 & R4).
      pose proof (rpc_upd r p' R3) as R5. rewrite RI in R5. injection R5 as <-.
      destruct R4 as [R4|[[_ (qq & R4 & R6)]|[e' ?]]]; [destruct R4| |discriminate].
      split; [apply (know_same s); [reflexivity|reflexivity|exact R1|exact K]|]. split; [exists Idle; exact R3|]. exists SConsumer. split; [apply U|]. left. split; [|reflexivity].
      split; [exact P1|]. split; [exact P4|]. split; [apply (sps_same s); [exact R2|reflexivity|exact P5]|]. exists qq. subst mn mx. split; [exact R4|]. split; [exact R6|left; exact RI].
    + destruct P as (P1 & P2 & P3 & qq & P4 & P5 & [P6|P6]); unfold ring_pc in P6; [congruence|].
      destruct (cons_step b (k_ring s) t qq fails picks r P6 Lr (proj2 K) P5 RS) as (R1 & R2 & R3 & m & R4 & R5 & R6).
      rewrite R6 in EV. apply last_event in EV. injection EV as -> ->.
      split; [apply (know_same s); [reflexivity|reflexivity|exact R1|exact K]|]. split; [exists Idle; exact R3|].
      eexists. split; [apply U|]. left. split; [|reflexivity]. cbn [prog]. split; [exact P1|]. split; [exact P2|]. split; [apply (sps_heads s _ a [[m]]); [exact R4|reflexivity|exact P3]|].
      split; [exact RI|]. exists qq. split; [exact P4|]. split; [exact R2|]. unfold head_at. kfld. rewrite Nat2Z.id. exists m. split; [|exact R5].
      rewrite R4, nth_error_app2, Nat.sub_diag by lia. reflexivity.
Qed.

Lemma asked_goto s' k sp : mem_is s' (kvalue s) -> rrel (k_ring s') (save_ring (alc a)) -> w_heads (k_ring s') = w_heads (k_ring s) -> k_sps s' = k_sps s ->
  asked s a k sp -> asked s' a k sp.
Proof.
  intros M R H S [(A1 & A2 & A3) A4]. split; [|exact A4]. split; [intros f; rewrite M; apply A1|]. split; [exact R|]. apply (sps_same s); assumption.
Qed.

Lemma delta_stepped p s1 : nth_error (k_threads s) t = Some p -> kshape b s t p s1 ->
  match p with DPeek _ | DMin _ _ _ | DMax _ _ _ | DLoads _ _ _ _ _ => True | _ => False end ->
  prog b s t a op p -> stepped b s t a op s1.
Proof.
  intros Et SH PC P.
  assert (PEEK : forall k sp q fails picks r, asked s a k sp -> forall ksp, nth_error (k_sps s) k = Some ksp -> nth_error (w_threads (k_ring s)) t = Some q ->
    peek_at (k_ring s) (Z.to_nat (fst ksp)) (consumer_head sp) q -> wstep b (k_ring s) (WStep t fails picks) = Some r ->
    rknow r t /\ rrel r (save_ring (alc a)) /\ w_heads r = w_heads (k_ring s) /\ exists p', w_threads r = upd t p' (w_threads (k_ring s)) /\
    (peek_at r (Z.to_nat (fst ksp)) (consumer_head sp) p' \/ (p' = Idle /\ exists e, peek_event b (save_ring (alc a)) (Z.to_nat (fst ksp)) (consumer_head sp) = Val e /\ w_events r = w_events (k_ring s) ++ [e]) \/ exists e, p' = Panicked e)).
  { intros k sp q fails picks r [(A1 & A2 & A3) A4] ksp SK RQ PA RS. destruct (Forall2_nth' _ _ _ _ _ A3 SK) as (sp' & E' & (m & HM & VM) & _).
    rewrite A4 in E'. injection E' as <-. exact (peek_step b (k_ring s) t (save_ring (alc a)) (Z.to_nat (fst ksp)) (consumer_head sp) m q fails picks r RQ Lr (proj2 K) A2 HM VM PA RS). }
  inversion SH; subst; try (destruct PC; fail).
  - match goal with C : can_load _ _ _ _ _ |- _ => rename C into CL end. match goal with C : load_kind _ _ _ |- _ => rename C into LK end.
    assert (SR : forall k' sp, asked s a k' sp -> asked (kput (loaded s t f k) t (next v)) a k' sp) by (intros k' sp; apply asked_same; reflexivity).
    assert (RI : ring_pc s t Idle) by (destruct LK; try (destruct PC; fail); cbn [prog] in P; tauto).
    apply (load_prog p f next k v RI LK CL). intros EV.
    destruct LK; try (destruct PC; fail); cbn [prog] in *.
    + destruct P as (P1 & _ & sp & s1 & s2 & P3 & P4 & P5). split; [exact P1|]. split; [exact RI|]. exists sp, s1, s2, mn. split; [apply SR, P3|]. split; [exact P4|]. split; [exact P5|].
      rewrite EV. f_equal. apply P3.
    + destruct P as (P1 & _ & sp & s1 & s2 & mn0 & P3 & P4 & P5 & P6). split; [exact P1|]. split; [exact RI|]. exists sp, s1, s2, mn0, mx, []. split; [apply SR, P3|]. split; [exact P4|]. split; [exact P5|].
      split; [exact P6|]. split; [rewrite EV; f_equal; apply P3|]. split; reflexivity.
  - match goal with R : wstep _ _ _ = Some _ |- _ => rename R into RS end. match goal with R : nth_error (w_threads (k_ring s)) t = Some _ |- _ => rename R into RQ end.
    apply ring_start_shape in RS; [|exact RQ]. split; [apply ring_step_know; subst r; apply rknow_start|].
    split; [exists (first_pc op0); subst r; reflexivity|]. exists p. split; [exact Et|]. left. split; [|reflexivity].
    match goal with R : ring_op _ _ _ |- _ => destruct R as [| |k ksp SK]; try (destruct PC; fail) end; cbn [prog] in *; kfld.
    destruct P as (P1 & sp & ksp' & P3 & P4 & P5). rewrite SK in P4. injection P4 as <-. split; [exact P1|]. exists sp, ksp. split.
    { apply (asked_goto _ k sp); [intros f; reflexivity|subst r; apply rrel_goto; apply P3|subst r; reflexivity|reflexivity|exact P3]. }
    split; [exact SK|]. right. exists (PeekLoadHead (Z.to_nat (fst ksp))). split; [apply (rpc_upd r); subst r; reflexivity|reflexivity].
  - match goal with R : wstep _ _ _ = Some _ |- _ => rename R into RS end. match goal with R : nth_error (w_threads (k_ring s)) t = Some _ |- _ => rename R into RQ end.
    match goal with R : ring_op _ _ _ |- _ => destruct R as [| |k ksp SK]; try (destruct PC; fail) end; cbn [prog] in *; kfld.
    destruct P as (P1 & sp & ksp' & P3 & P4 & [P5|(w & P5 & P6)]); unfold ring_pc in P5; [congruence|]. rewrite SK in P4. injection P4 as <-. rewrite RQ in P5. injection P5 as <-.
    destruct (PEEK k sp q fails picks r P3 ksp SK RQ P6 RS) as (R1 & R2 & R3 & p' & R4 & R6). pose proof (rpc_upd r p' R4) as R5.
    match goal with R : nth_error (w_threads r) t = Some q', R' : running q' |- _ => rewrite R5 in R; injection R as <-; rename R' into RN end.
    destruct R6 as [R6|[[-> _]|[e ->]]]; [|destruct RN|destruct RN].
    split; [apply ring_step_know; exact R1|]. split; [exists p'; exact R4|]. exists (DPeek k). split; [exact Et|]. left. split; [|reflexivity].
    split; [exact P1|]. exists sp, ksp. split; [apply (asked_goto _ k sp); [intros f; reflexivity|exact R2|exact R3|reflexivity|exact P3]|]. split; [exact SK|]. right. exists p'. split; [exact R5|exact R6].
  - match goal with R : wstep _ _ _ = Some _ |- _ => rename R into RS end. match goal with R : nth_error (w_threads (k_ring s)) t = Some _ |- _ => rename R into RQ end.
    match goal with R : ring_op _ _ _ |- _ => destruct R as [| |k ksp SK]; try (destruct PC; fail) end; cbn [prog] in *; kfld.
    destruct P as (P1 & sp & ksp' & P3 & P4 & [P5|(w & P5 & P6)]); unfold ring_pc in P5; [congruence|]. rewrite SK in P4. injection P4 as <-. rewrite RQ in P5. injection P5 as <-.
    destruct (PEEK k sp q fails picks r P3 ksp SK RQ P6 RS) as (R1 & R2 & R3 & p' & R4 & R6).
    split; [apply (know_same s); [reflexivity|reflexivity|exact R1|exact K]|]. split; [exists p'; exact R4|].
    exists (APanicked e). split; [apply U|]. left. split; [exact I|reflexivity].
  - match goal with R : wstep _ _ _ = Some _ |- _ => rename R into RS end. match goal with R : nth_error (w_threads (k_ring s)) t = Some _ |- _ => rename R into RQ end.
    match goal with L : ring_ret _ _ _ _ _ |- _ => rename L into RR end. match goal with R : nth_error (w_events r) _ = Some _ |- _ => rename R into EV end.
    match goal with R : nth_error (w_threads r) t = Some Idle |- _ => rename R into RI end.
    match goal with R : ring_op _ _ _ |- _ => destruct R as [| |k ksp SK]; try (destruct PC; fail) end; cbn [prog] in P.
    destruct P as (P1 & sp & ksp' & P3 & P4 & [P5|(w & P5 & P6)]); unfold ring_pc in P5; [congruence|]. rewrite SK in P4. injection P4 as <-. rewrite RQ in P5. injection P5 as <-.
    destruct (PEEK k sp q fails picks r P3 ksp SK RQ P6 RS) as (R1 & R2 & R3 & p' & R4 & R6). pose proof (rpc_upd r p' R4) as R5. rewrite RI in R5. injection R5 as <-.
    destruct R6 as [R6|[[_ (ev & R6 & R7)]|[e' ?]]]; [destruct R6| |discriminate]. rewrite R7 in EV. apply last_event in EV. subst ev.
    unfold peek_event in R6. destruct (peek_all b (save_ring (alc a)) (consumer_head sp)) as [o| |] eqn:PA; cbn [bind] in R6; try discriminate. injection R6 as R6. symmetry in R6.
    assert (AS : forall s', mem_is s' (kvalue s) -> k_ring s' = r -> k_sps s' = k_sps s -> asked s' a k sp).
    { intros s' M' R' S'. apply (asked_goto s' k sp M'); [rewrite R'; exact R2|rewrite R'; exact R3|exact S'|exact P3]. }
    revert R6. inversion RR; subst; intros R6.
    + destruct o as [[s1 s2]|]; [discriminate|].
      split; [apply (know_same s); [reflexivity|reflexivity|exact R1|exact K]|]. split; [exists Idle; exact R4|]. exists AIdle. split; [apply U|]. right. split; [reflexivity|]. split; [exact RI|].
      exists a, (ADelta None). split; [cbn [astep]; rewrite (proj2 P3); unfold delta_statistics; rewrite PA; reflexivity|].
      split; [apply AS; [intros f; reflexivity|reflexivity|reflexivity]|reflexivity].
    + destruct o as [[s1 s2]|]; [|discriminate]. injection R6; intros -> _ _ _ _.
      split; [apply (know_same s); [reflexivity|reflexivity|exact R1|exact K]|]. split; [exists Idle; exact R4|]. eexists. split; [apply U|]. left. split; [|reflexivity].
      cbn [prog]. split; [reflexivity|]. split; [exact RI|]. exists sp, s1, s2. split; [apply AS; [intros f; reflexivity|reflexivity|reflexivity]|]. split; [exact PA|assumption].
    + split; [apply (know_same s); [reflexivity|reflexivity|exact R1|exact K]|]. split; [exists Idle; exact R4|]. eexists. split; [apply U|]. left. split; [exact I|reflexivity].
  - match goal with C : can_load _ _ _ _ _ |- _ => rename C into CL end. match goal with C : usize_sub _ _ _ = Val _ |- _ => rename C into SUB end.
    cbn [prog] in P. destruct P as (P1 & RI & sp & s1 & s2 & mn0 & mx0 & done & P3 & P4 & P5 & P6 & P7 & P8 & P9).
    split; [apply (know_loaded s t f i v Lv CL K)|]. split; [exists Idle; apply upd_self; exact RI|]. eexists. split; [apply U|]. left. split; [|reflexivity].
    cbn [prog]. split; [exact P1|]. split; [exact RI|]. exists sp, s1, s2, mn0, mx0, (done ++ [f]). split; [apply (asked_same s); try reflexivity; exact P3|].
    split; [exact P4|]. split; [exact P5|]. split; [exact P6|]. split; [exact P7|]. split; [rewrite <- app_assoc; exact P8|].
    apply subs_snoc; [exact P9|]. rewrite <- SUB. rewrite (know_value s t f i v K CL). destruct P3 as [(A1 & A2 & A3) A4]. rewrite (A1 f). f_equal.
    destruct (Forall2_nth _ _ _ _ _ A3 A4) as (ksp & E' & _ & SL). match goal with X : nth_error (k_sps s) k = Some _ |- _ => rewrite X in E'; injection E' as -> end.
    unfold snap_at. rewrite SL. unfold stats_list. rewrite (subs_len _ _ _ _ _ P9). unfold snapshot_fields. rewrite P8, <- app_assoc, map_app.
    rewrite app_nth2 by (rewrite map_length; lia). rewrite map_length, Nat.sub_diag. reflexivity.
  - match goal with C : can_load _ _ _ _ _ |- _ => rename C into CL end. cbn [prog] in P. destruct P as (P1 & RI & _).
    split; [apply (know_loaded s t f i v Lv CL K)|]. split; [exists Idle; apply upd_self; exact RI|]. eexists. split; [apply U|]. left. split; [exact I|reflexivity].
  - match goal with C : can_load _ _ _ _ _ |- _ => rename C into CL end.
    cbn [prog] in P. destruct P as (P1 & RI & sp & s1 & s2 & mn0 & mx0 & done & P3 & P4 & P5 & P6 & P7 & P8 & P9). rewrite app_nil_r in P8. subst done.
    split; [apply (know_loaded s t FCur i v Lv CL K)|]. split; [exists Idle; apply upd_self; exact RI|]. exists AIdle. split; [apply U|]. right. split; [reflexivity|]. split; [exact RI|].
    destruct (subs_delta b (alc a) sp s1 s2 mn0 mx0 acc P4 P5 P9) as (r & D1 & D2).
    exists a, (ADelta (Some r)). subst op. split; [cbn [astep]; rewrite (proj2 P3), D1; reflexivity|]. split; [apply (srel_same s); try reflexivity; apply P3|].
    kfld. cbn [ans option_map]. rewrite D2, (know_value s t FCur i v K CL), P6, P7. replace (current_used (st (alc a))) with (kvalue s FCur) by apply P3. reflexivity.
Qed.

Theorem prog_step p s1 : nth_error (k_threads s) t = Some p -> kshape b s t p s1 -> prog b s t a op p -> stepped b s t a op s1.
Proof.
  intros Et SH P. destruct p eqn:Ep; try (eapply call_stepped; [exact Et|exact SH|exact I|exact P]); try (eapply save_stepped; [exact Et|exact SH|exact I|exact P]);
    try (eapply delta_stepped; [exact Et|exact SH|exact I|exact P]).
  - destruct P.
  - inversion SH; subst; match goal with R : load_kind _ _ _ |- _ => inversion R | R : ring_op _ _ _ |- _ => inversion R end.
Qed.
End Step.
