(** * Proofs about the allocator under relaxed memory (model: AllocWeak.v): steps, and the counters. *)
From Coq Require Import List ZArith Lia Bool Arith.
From Verif Require Import Machine Ring RingSeq RingConc Alloc AllocSpec AllocProofs AllocConc AllocConcSpec AllocConcProofs
  RingWeak RingWeakSpec RingWeakProofs RingWeakProofs3 AllocWeak AllocWeakSpec.
Import ListNotations.
Open Scope Z_scope.

(** ** Shapes of steps *)
Definition loaded (s : kst) (t : nat) (f : field) (k : nat) : kst := kput_view s t (kv_set (kview_of s t) f k).
Definition can_load (s : kst) (t : nat) (f : field) (k : nat) (v : Z) : Prop :=
  (exists m, nth_error (k_msgs s f) k = Some m /\ f_val m = v) /\ (kv (kview_of s t) f <= k)%nat.
Definition written (s : kst) (t : nat) (f : field) (k : nat) (v : Z) (rmw : bool) : kst :=
  KSt (fun g => if field_eq_dec g f then insert (S k) (FMsg v rmw (Some (k_clock s))) (k_msgs s f) else k_msgs s g)
      (k_ring s) (k_threads s)
      (upd t (kv_set (kview_of s t) f (S k)) (map (bump f (S k)) (k_views s))) (map (bump f (S k)) (k_sent s))
      (k_sps s) (k_deltas s) (k_started s) (k_clock s).
Definition can_write (s : kst) (t : nat) (f : field) (k : nat) : Prop :=
  (kv (kview_of s t) f <= k)%nat /\ (k < length (k_msgs s f))%nat /\
  forall m, nth_error (k_msgs s f) (S k) = Some m -> f_rmw m = false.

Lemma kload_shape s t f k v s' : kload s t f k = Some (v, s') -> can_load s t f k v /\ s' = loaded s t f k.
Proof.
  unfold kload. destruct (nth_error (k_msgs s f) k) as [m|] eqn:E; [|discriminate].
  destruct (Nat.leb_spec (kv (kview_of s t) f) k); [|discriminate]. intros [= <- <-]. split; [|reflexivity].
  split; [exists m; auto|assumption].
Qed.
Lemma kwrite_shape s t f k v rmw s' : kwrite s t f k v rmw = Some s' -> can_write s t f k /\ s' = written s t f k v rmw.
Proof.
  unfold kwrite. intros H.
  destruct (Nat.leb_spec (kv (kview_of s t) f) k); [|discriminate].
  destruct (Nat.ltb_spec k (length (k_msgs s f))); [|discriminate].
  destruct (nth_error (k_msgs s f) (S k)) as [m|] eqn:E.
  - destruct (f_rmw m) eqn:Er; [discriminate|]. injection H as <-. split; [|reflexivity]. split; [assumption|]. split; [assumption|].
    intros m' E'. rewrite E in E'. injection E' as <-. exact Er.
  - injection H as <-. split; [|reflexivity]. split; [assumption|]. split; [assumption|]. intros m' E'. rewrite E in E'. discriminate.
Qed.

(** plain loads: which field is loaded at [p] and where the thread goes on *)
Inductive load_kind : apc -> field -> (Z -> apc) -> Prop :=
| lk_cur : load_kind ALoadCur FCur ALoadMin
| lk_min c : load_kind (ALoadMin c) FMin (AMin c)
| lk_min_retry c mn : c < mn -> load_kind (AMin c mn) FMin (AMin c)
| lk_max c : load_kind (ALoadMax c) FMax (AMax c)
| lk_max_retry c mx : mx < c -> load_kind (AMax c mx) FMax (AMax c)
| lk_s1 : load_kind SLoadMin FMin SLoadMax
| lk_s2 mn : load_kind (SLoadMax mn) FMax (SEnq mn)
| lk_s3 c : load_kind (SLoadCur1 c) FCur (SStoreMin c)
| lk_s5 c : load_kind (SLoadCur2 c) FCur (SStoreMax c)
| lk_snap c f todo acc : load_kind (SSnap c (f :: todo) acc) f (fun v => SSnap c todo (acc ++ [v]))
| lk_dmin k mn mx : load_kind (DMin k mn mx) FMin (fun v => DMax k (Z.min mn v) mx)
| lk_dmax k mn mx : load_kind (DMax k mn mx) FMax (fun v => DLoads k mn (Z.max mx v) counter_fields []).

(** the ring's method called at [p] *)
Inductive ring_op (s : kst) : apc -> cop (Z * Z) -> Prop :=
| ro_enq mn mx : ring_op s (SEnq mn mx) (CEnqueue (mn, mx))
| ro_cons : ring_op s SConsumer CConsumer
| ro_peek k sp : nth_error (k_sps s) k = Some sp -> ring_op s (DPeek k) (CPeekAll (Z.to_nat (fst sp))).

Definition running (p : pc (Z * Z)) : Prop := match p with Idle | Panicked _ => False | _ => True end.

(** what happens when it returns with event [e] *)
Inductive ring_ret (t : nat) : apc -> event (Z * Z) -> kst -> kst -> Prop :=
| rr_enq mn mx e s : ring_ret t (SEnq mn mx) e s (kput s t SConsumer)
| rr_cons c h s : ring_ret t SConsumer (EvConsumer c h) s (kput s t (SLoadCur1 (Z.of_nat c)))
| rr_over k c h tl s : ring_ret t (DPeek k) (EvPeekOverflow c h tl) s (kput (kput_delta s (k, None)) t AIdle)
| rr_peek k c h tl rs l mn mx s : fold_minmax l (two64 - 1) 0 = Val (mn, mx) ->
    ring_ret t (DPeek k) (EvPeeked c h tl rs l) s (kput s t (DMin k mn mx))
| rr_peek_panic k c h tl rs l q s : fold_minmax l (two64 - 1) 0 = Panic q ->
    ring_ret t (DPeek k) (EvPeeked c h tl rs l) s (kput s t (APanicked q)).

Inductive kshape (b : build) (s : kst) (t : nat) : apc -> kst -> Prop :=
| ks_nil : kshape b s t (AAdds []) (kput s t ALoadCur)
| ks_add f n l k v : can_load s t f k v -> can_write s t f k ->
    kshape b s t (AAdds ((f, n) :: l)) (kput (written s t f k (wrap64 (v + n)) true) t (after_adds l))
| ks_load p f next k v : load_kind p f next -> can_load s t f k v ->
    kshape b s t p (kput (loaded s t f k) t (next v))
| ks_min c mn k : c < mn -> can_load s t FMin k mn -> can_write s t FMin k ->
    kshape b s t (AMin c mn) (kput (written s t FMin k c true) t (ALoadMax c))
| ks_min_skip c mn : mn <= c -> kshape b s t (AMin c mn) (kput s t (ALoadMax c))
| ks_max c mx k : mx < c -> can_load s t FMax k mx -> can_write s t FMax k ->
    kshape b s t (AMax c mx) (kput (written s t FMax k c true) t AIdle)
| ks_max_skip c mx : c <= mx -> kshape b s t (AMax c mx) (kput s t AIdle)
| ks_store_min c v k : can_write s t FMin k ->
    kshape b s t (SStoreMin c v) (kput (written s t FMin k v false) t (SLoadCur2 c))
| ks_store_max c v k : can_write s t FMax k ->
    kshape b s t (SStoreMax c v) (kput (written s t FMax k v false) t (SSnap c snapshot_fields []))
| ks_snap_nil c acc : kshape b s t (SSnap c [] acc) (kput (kput_sp s t (c, acc)) t AIdle)
| ks_ring_start p op r : ring_op s p op -> nth_error (w_threads (k_ring s)) t = Some Idle ->
    wstep b (k_ring s) (WStart t op) = Some r -> kshape b s t p (kput_ring s r)
| ks_ring_step p op q q' r fails picks : ring_op s p op -> nth_error (w_threads (k_ring s)) t = Some q -> q <> Idle ->
    wstep b (k_ring s) (WStep t fails picks) = Some r -> nth_error (w_threads r) t = Some q' -> running q' ->
    kshape b s t p (kput_ring s r)
| ks_ring_panic p op q r fails picks e : ring_op s p op -> nth_error (w_threads (k_ring s)) t = Some q -> q <> Idle ->
    wstep b (k_ring s) (WStep t fails picks) = Some r -> nth_error (w_threads r) t = Some (Panicked e) ->
    kshape b s t p (kput (kput_ring s r) t (APanicked e))
| ks_ring_ret p op q r fails picks e s' : ring_op s p op -> nth_error (w_threads (k_ring s)) t = Some q -> q <> Idle ->
    wstep b (k_ring s) (WStep t fails picks) = Some r -> nth_error (w_threads r) t = Some Idle ->
    nth_error (w_events r) (length (w_events r) - 1) = Some e -> ring_ret t p e (kput_ring s r) s' ->
    kshape b s t p s'
| ks_dload k mn mx f todo acc x d i v : nth_error (k_sps s) k = Some x -> can_load s t f i v ->
    usize_sub b v (snap_at x (length acc)) = Val d ->
    kshape b s t (DLoads k mn mx (f :: todo) acc) (kput (loaded s t f i) t (DLoads k mn mx todo (acc ++ [d])))
| ks_dpanic k mn mx f todo acc x q i v : nth_error (k_sps s) k = Some x -> can_load s t f i v ->
    usize_sub b v (snap_at x (length acc)) = Panic q ->
    kshape b s t (DLoads k mn mx (f :: todo) acc) (kput (loaded s t f i) t (APanicked q))
| ks_dnil k mn mx acc i v : can_load s t FCur i v ->
    kshape b s t (DLoads k mn mx [] acc) (kput (kput_delta (loaded s t FCur i) (k, Some (acc ++ [v; mn; mx]))) t AIdle).

Lemma load_then_shape b s t p f next picks s' : load_kind p f next -> load_then s t f picks next = Some s' -> kshape b s t p s'.
Proof.
  intros L. unfold load_then. destruct picks as [|k [|]]; try discriminate.
  destruct (kload s t f k) as [[v s1]|] eqn:E; [|discriminate]. intros [= <-].
  apply kload_shape in E. destruct E as [C ->]. eapply ks_load; eassumption.
Qed.
Lemma ring_call_shape b s t p op fails picks ret s' : ring_op s p op ->
  (forall e s0 s1, ret e s0 = Some s1 -> ring_ret t p e s0 s1) ->
  ring_call b s t op fails picks ret = Some s' -> kshape b s t p s'.
Proof.
  intros RO RR. unfold ring_call. destruct (nth_error (w_threads (k_ring s)) t) as [q|] eqn:Et; [|discriminate].
  assert (forall (N : q <> Idle), match wstep b (k_ring s) (WStep t fails picks) with
      | None => None
      | Some r =>
          match nth_error (w_threads r) t with
          | Some Idle => match nth_error (w_events r) (length (w_events r) - 1) with
                         | Some e => ret e (kput_ring s r)
                         | None => None
                         end
          | Some (Panicked q) => Some (kput (kput_ring s r) t (APanicked q))
          | _ => Some (kput_ring s r)
          end
      end = Some s' -> kshape b s t p s') as K.
  { intros N. destruct (wstep b (k_ring s) (WStep t fails picks)) as [r|] eqn:Er; [|discriminate].
    destruct (nth_error (w_threads r) t) as [q'|] eqn:Eq.
    - destruct q'; try (intros [= <-]; eapply ks_ring_step; [exact RO|exact Et|exact N|exact Er|exact Eq|exact I]).
      + destruct (nth_error (w_events r) (length (w_events r) - 1)) as [e|] eqn:Ee; [|discriminate]. intros H.
        eapply ks_ring_ret; [exact RO|exact Et|exact N|exact Er|exact Eq|exact Ee|apply RR, H].
      + intros [= <-]. eapply ks_ring_panic; [exact RO|exact Et|exact N|exact Er|exact Eq].
    - exfalso. assert (L : length (w_threads r) = length (w_threads (k_ring s))).
      { clear - Er Et. cbn [wstep] in Er. rewrite Et in Er.
        destruct q; cbn [wthread_step] in Er; try discriminate;
        repeat match type of Er with
               | context [match ?x with _ => _ end] => destruct x; try discriminate
               end; injection Er as <-; cbn [race wlog lose goto w_threads]; apply upd_length. }
      apply nth_error_None in Eq. assert (t < length (w_threads (k_ring s)))%nat by (apply nth_error_Some; congruence). lia. }
  destruct q; try (apply K; discriminate).
  destruct (wstep b (k_ring s) (WStart t op)) as [r|] eqn:Er; [|discriminate]. intros [= <-].
  eapply ks_ring_start; eassumption.
Qed.

Lemma kstep_shapes b s t p fails picks s' : kthread_step b s t p fails picks = Some s' -> kshape b s t p s'.
Proof.
  destruct p; cbn [kthread_step]; try discriminate;
    try (apply load_then_shape; constructor; fail).
  - destruct l as [|[f n] l]; [intros [= <-]; constructor|].
    destruct picks as [|k [|]]; try discriminate. unfold kadd.
    destruct (nth_error (k_msgs s f) k) as [m|] eqn:E; [|discriminate].
    destruct (kwrite s t f k (wrap64 (f_val m + n)) true) as [s1|] eqn:E1; [|discriminate]. intros [= <-].
    apply kwrite_shape in E1. destruct E1 as [C ->]. apply ks_add; [|exact C]. split; [eauto|apply C].
  - destruct (Z.ltb_spec cur mn); [|intros [= <-]; apply ks_min_skip; assumption].
    destruct picks as [|k [|]]; try discriminate. unfold kcas.
    destruct (nth_error (k_msgs s FMin) k) as [m|] eqn:E; [|discriminate].
    destruct (negb fails && (f_val m =? mn)) eqn:B.
    + destruct (kwrite s t FMin k cur true) as [s1|] eqn:E1; [|discriminate]. intros [= <-].
      apply kwrite_shape in E1. destruct E1 as [C ->]. apply andb_true_iff in B. destruct B as [_ B]. apply Z.eqb_eq in B.
      apply (ks_min b s t cur mn k); [assumption| |exact C]. split; [eauto|apply C].
    + destruct (kload s t FMin k) as [[v s1]|] eqn:E1; [|discriminate]. intros [= <-].
      apply kload_shape in E1. destruct E1 as [C ->]. apply (ks_load b s t _ FMin (AMin cur)); [constructor; assumption|exact C].
  - destruct (Z.gtb_spec cur mx); [|intros [= <-]; apply ks_max_skip; assumption].
    destruct picks as [|k [|]]; try discriminate. unfold kcas.
    destruct (nth_error (k_msgs s FMax) k) as [m|] eqn:E; [|discriminate].
    destruct (negb fails && (f_val m =? mx)) eqn:B.
    + destruct (kwrite s t FMax k cur true) as [s1|] eqn:E1; [|discriminate]. intros [= <-].
      apply kwrite_shape in E1. destruct E1 as [C ->]. apply andb_true_iff in B. destruct B as [_ B]. apply Z.eqb_eq in B.
      apply (ks_max b s t cur mx k); [lia| |exact C]. split; [eauto|apply C].
    + destruct (kload s t FMax k) as [[v s1]|] eqn:E1; [|discriminate]. intros [= <-].
      apply kload_shape in E1. destruct E1 as [C ->]. apply (ks_load b s t _ FMax (AMax cur)); [constructor; lia|exact C].
  - apply ring_call_shape; [constructor|]. intros e s0 s1 [= <-]. constructor.
  - apply ring_call_shape; [constructor|]. intros e s0 s1. destruct e; try discriminate. intros [= <-]. constructor.
  - unfold store_then. destruct picks as [|k [|]]; try discriminate.
    destruct (kwrite s t FMin k v false) as [s1|] eqn:E1; [|discriminate]. intros [= <-].
    apply kwrite_shape in E1. destruct E1 as [C ->]. constructor. exact C.
  - unfold store_then. destruct picks as [|k [|]]; try discriminate.
    destruct (kwrite s t FMax k v false) as [s1|] eqn:E1; [|discriminate]. intros [= <-].
    apply kwrite_shape in E1. destruct E1 as [C ->]. constructor. exact C.
  - destruct todo as [|f todo]; [intros [= <-]; constructor|].
    apply load_then_shape. apply (lk_snap head f todo acc).
  - destruct (nth_error (k_sps s) k) as [x|] eqn:E; [|discriminate].
    apply ring_call_shape; [constructor; exact E|]. intros e s0 s1. destruct e; try discriminate.
    + intros H. destruct (fold_minmax contents (two64 - 1) 0) as [[mn mx]|q|] eqn:F; [| |discriminate]; injection H as <-.
      * apply rr_peek. exact F.
      * apply rr_peek_panic. exact F.
    + intros [= <-]. constructor.
  - destruct todo as [|f todo].
    + destruct picks as [|i [|]]; try discriminate. destruct (kload s t FCur i) as [[v s1]|] eqn:E1; [|discriminate].
      intros [= <-]. apply kload_shape in E1. destruct E1 as [C ->]. apply ks_dnil. exact C.
    + destruct (nth_error (k_sps s) k) as [x|] eqn:E; [|discriminate]. destruct picks as [|i [|]]; try discriminate.
      destruct (kload s t f i) as [[v s1]|] eqn:E1; [|discriminate]. apply kload_shape in E1. destruct E1 as [C ->].
      destruct (usize_sub b v (snap_at x (length acc))) as [d|q|] eqn:E2; [| |discriminate]; intros [= <-].
      * eapply ks_dload; eassumption.
      * eapply ks_dpanic; eassumption.
Qed.

(** ** Structure *)
Lemma insert_length p m ms : length (insert p m ms) = S (length ms).
Proof. unfold insert. rewrite app_length. cbn [length]. rewrite <- (firstn_skipn p ms) at 3. rewrite app_length. lia. Qed.
Lemma insert_nth p m ms i : (p <= length ms)%nat ->
  nth_error (insert p m ms) i = if (i <? p)%nat then nth_error ms i else if (i =? p)%nat then Some m else nth_error ms (i - 1).
Proof.
  intros L. unfold insert. assert (LF : length (firstn p ms) = p) by (rewrite firstn_length; lia).
  destruct (Nat.ltb_spec i p).
  - rewrite nth_error_app1 by lia. rewrite <- (firstn_skipn p ms) at 2. rewrite nth_error_app1 by lia. reflexivity.
  - rewrite nth_error_app2 by lia. rewrite LF. destruct (Nat.eqb_spec i p) as [->|N].
    + rewrite Nat.sub_diag. reflexivity.
    + destruct (i - p)%nat as [|d] eqn:E; [lia|]. cbn [nth_error]. rewrite <- (firstn_skipn p ms) at 2.
      rewrite nth_error_app2 by lia. rewrite LF. f_equal. lia.
Qed.
Lemma insert_end m ms : insert (length ms) m ms = ms ++ [m].
Proof. unfold insert. rewrite firstn_all, skipn_all. reflexivity. Qed.

Lemma nth_upd {X} (l : list X) t v u d : nth u (upd t v l) d = if Nat.eqb t u then (if (t <? length l)%nat then v else d) else nth u l d.
Proof. revert t u; induction l as [|x l IH]; intros [|t] [|u]; cbn [upd nth Nat.eqb]; auto. - destruct (Nat.eqb t u); auto. - rewrite IH. reflexivity. Qed.

Lemma view_put s t v u : (t < length (k_views s))%nat -> kview_of (kput_view s t v) u = if Nat.eqb t u then v else kview_of s u.
Proof. intros L. unfold kview_of, kput_view. cbn [k_views]. rewrite nth_upd. apply Nat.ltb_lt in L. rewrite L. reflexivity. Qed.
Lemma view_written s t f k v rmw u : (t < length (k_views s))%nat -> (u < length (k_views s))%nat ->
  kview_of (written s t f k v rmw) u = if Nat.eqb t u then kv_set (kview_of s t) f (S k) else bump f (S k) (kview_of s u).
Proof.
  intros L Lu. unfold kview_of at 1, written. cbn [k_views]. rewrite nth_upd, map_length. pose proof L as L'. apply Nat.ltb_lt in L'. rewrite L'.
  destruct (Nat.eqb t u); [reflexivity|]. rewrite (nth_indep _ no_view (bump f (S k) no_view)) by (rewrite map_length; exact Lu).
  apply map_nth.
Qed.
Lemma view_sp s t sp u : (t < length (k_views s))%nat ->
  kview_of (kput_sp s t sp) u = if Nat.eqb t u then KView (kv (kview_of s t)) (length (k_sps s) :: refs (kview_of s t)) else kview_of s u.
Proof. intros L. unfold kview_of at 1, kput_sp. cbn [k_views]. rewrite nth_upd. apply Nat.ltb_lt in L. rewrite L. reflexivity. Qed.

Lemma ring_lens b (r : wstate (Z * Z)) a r' : wstep b r a = Some r' -> length (w_threads r') = length (w_threads r) /\
  length (w_views r') = length (w_views r).
Proof.
  intros E. destruct a as [t op|t fails picks|t|t k]; cbn [wstep] in E.
  - destruct (nth_error (w_threads r) t) as [[]|]; try discriminate. destruct (wop_ok r t op); [|discriminate]. injection E as <-.
    cbn [goto w_threads w_views]. rewrite !upd_length. auto.
  - destruct (nth_error (w_threads r) t) as [q|]; [|discriminate].
    destruct q; cbn [wthread_step] in E; try discriminate;
        repeat match type of E with
               | context [match ?x with _ => _ end] => destruct x; try discriminate
               end; injection E as <-; cbn [race wlog lose goto w_threads w_views]; rewrite !upd_length; auto.
  - destruct (nth_error (w_threads r) t) as [[]|]; try discriminate. injection E as <-. auto.
  - destruct (nth_error (w_threads r) t) as [[]|]; try discriminate. destruct (nth_error (w_sent r) k); [|discriminate]. injection E as <-.
    cbn [goto w_threads w_views]. rewrite !upd_length. auto.
Qed.

Ltac kfld := cbn [kput kput_view kput_ring kput_sp kput_delta kput_started ktick loaded written
                  k_msgs k_ring k_threads k_views k_sent k_sps k_deltas k_started k_clock] in *.

Record KWf (n : nat) (s : kst) : Prop := {
  W_len : length (k_threads s) = n;
  W_lenv : length (k_views s) = n;
  W_lenr : length (w_threads (k_ring s)) = n;
  W_lenrv : length (w_views (k_ring s)) = n;
  W_lens : length (w_sent (k_ring s)) = length (k_sent s);
  W_msgs : forall f, exists m, nth_error (k_msgs s f) 0 = Some m /\ f_by m = None;
  W_by : forall f i m, nth_error (k_msgs s f) (S i) = Some m -> exists j, f_by m = Some j /\ (j < k_clock s)%nat;
  W_inj : forall f i j m m', nth_error (k_msgs s f) i = Some m -> nth_error (k_msgs s f) j = Some m' -> f_by m = f_by m' -> i = j;
  W_views : forall u f, (u < n)%nat -> (kv (kview_of s u) f < length (k_msgs s f))%nat;
  W_sent : forall j v f, nth_error (k_sent s) j = Some v -> (kv v f < length (k_msgs s f))%nat;
  W_rmw : forall f i m, f <> FMin -> f <> FMax -> nth_error (k_msgs s f) (S i) = Some m -> f_rmw m = true
}.

Lemma KWf_init sz n : KWf n (kinit sz n).
Proof.
  constructor; cbn; rewrite ?repeat_length; auto.
  - intros f. eauto.
  - intros f i m H. destruct i; discriminate.
  - intros f i j m m' Hi Hj _. destruct i as [|[|]], j as [|[|]]; try discriminate. reflexivity.
  - intros u f Hu. unfold kview_of. cbn [kinit k_views]. rewrite nth_repeat. cbn. lia.
  - intros j v f H. destruct j; discriminate.
  - intros f i m _ _ H. destruct i; discriminate.
Qed.

Lemma KWf_loaded n s t f k v : (t < n)%nat -> KWf n s -> can_load s t f k v -> KWf n (loaded s t f k).
Proof.
  intros Ht [] C. destruct C as [(m & Em & _) Ck]. constructor; kfld; try assumption.
  - rewrite upd_length. assumption.
  - intros u g Hu. unfold loaded. rewrite view_put by lia. destruct (Nat.eqb_spec t u) as [<-|]; [|auto].
    cbn [kv kv_set]. destruct (field_eq_dec g f) as [->|]; [apply nth_error_Some; congruence|auto].
Qed.

Lemma bump_lt f p v g ms : (kv v g < length (ms g))%nat -> forall m,
  (kv (bump f p v) g < length (if field_eq_dec g f then insert p m (ms f) else ms g))%nat.
Proof.
  intros H m. cbn [bump kv]. destruct (field_eq_dec g f) as [->|]; [|exact H]. rewrite insert_length. destruct (p <=? kv v f)%nat; lia.
Qed.

Lemma KWf_written n s t f k v rmw : (t < n)%nat -> KWf n s -> can_write s t f k -> (rmw = true \/ f = FMin \/ f = FMax) ->
  KWf n (ktick (written s t f k v rmw)).
Proof.
  intros Ht [] C Hr. destruct C as (Ck & Cl & Cf).
  assert (IN : forall g i, nth_error (if field_eq_dec g f then insert (S k) (FMsg v rmw (Some (k_clock s))) (k_msgs s f) else k_msgs s g) i =
     if field_eq_dec g f then (if (i <? S k)%nat then nth_error (k_msgs s f) i else if (i =? S k)%nat then Some (FMsg v rmw (Some (k_clock s))) else nth_error (k_msgs s f) (i - 1))
     else nth_error (k_msgs s g) i).
  { intros g i. destruct (field_eq_dec g f); [|reflexivity]. apply insert_nth. lia. }
  constructor; kfld; try assumption.
  - rewrite upd_length, map_length. assumption.
  - rewrite map_length. assumption.
  - intros g. rewrite IN. destruct (field_eq_dec g f) as [->|]; apply W_msgs0.
  - intros g i m H. rewrite IN in H. destruct (field_eq_dec g f) as [->|].
    + destruct (Nat.ltb_spec (S i) (S k)).
      * destruct (W_by0 _ _ _ H) as (j & Hj & L). exists j. split; [exact Hj|lia].
      * destruct (Nat.eqb_spec (S i) (S k)).
        -- injection H as <-. exists (k_clock s). split; [reflexivity|lia].
        -- replace (S i - 1)%nat with (S (i - 1)) in H by lia. destruct (W_by0 _ _ _ H) as (j & Hj & L). exists j. split; [exact Hj|lia].
    + destruct (W_by0 _ _ _ H) as (j & Hj & L). exists j. split; [exact Hj|lia].
  - assert (OLD : forall g i m, nth_error (k_msgs s g) i = Some m -> f_by m <> Some (k_clock s)).
    { intros g [|i] m H.
      - destruct (W_msgs0 g) as (m0 & H0 & B0). rewrite H in H0. injection H0 as <-. congruence.
      - destruct (W_by0 _ _ _ H) as (j & Hj & L). rewrite Hj. intros [= ->]. lia. }
    intros g i j m m' Hi Hj HB. rewrite IN in Hi, Hj. destruct (field_eq_dec g f) as [->|]; [|eapply W_inj0; eassumption].
    destruct (Nat.ltb_spec i (S k)), (Nat.ltb_spec j (S k)); 
      destruct (Nat.eqb_spec i (S k)), (Nat.eqb_spec j (S k)); try lia;
      try (injection Hi as <-; cbn [f_by] in HB; exfalso; eapply (OLD _ _ _ Hj); congruence);
      try (injection Hj as <-; cbn [f_by] in HB; exfalso; eapply (OLD _ _ _ Hi); congruence);
      pose proof (W_inj0 _ _ _ _ _ Hi Hj HB); lia.
  - intros u g Hu.
    change (kview_of (ktick (written s t f k v rmw)) u) with (kview_of (written s t f k v rmw) u).
    rewrite view_written by lia. destruct (Nat.eqb_spec t u) as [<-|].
    + cbn [kv kv_set]. destruct (field_eq_dec g f) as [->|]; [rewrite insert_length; lia|auto].
    + apply bump_lt. auto.
  - intros j w g H. rewrite nth_error_map in H. destruct (nth_error (k_sent s) j) as [w0|] eqn:E; [|discriminate]. injection H as <-. apply bump_lt. eauto.
  - intros g i m G1 G2 H. rewrite IN in H. destruct (field_eq_dec g f) as [->|]; [|eauto].
    destruct (Nat.ltb_spec (S i) (S k)); [eauto|]. destruct (Nat.eqb_spec (S i) (S k)).
    + injection H as <-. cbn. destruct Hr as [->|[?|?]]; congruence.
    + replace (S i - 1)%nat with (S (i - 1)) in H by lia. eauto.
Qed.

Lemma KWf_tick n s : KWf n s -> KWf n (ktick s).
Proof.
  intros []. constructor; kfld; try assumption. intros f i m H. destruct (W_by0 f i m H) as (j & Hj & L). exists j. split; [exact Hj|lia].
Qed.
Lemma KWf_put n s t p : KWf n s -> KWf n (kput s t p).
Proof. intros []. constructor; kfld; try assumption. rewrite upd_length. assumption. Qed.
Lemma KWf_delta n s d : KWf n s -> KWf n (kput_delta s d).
Proof. intros []. constructor; kfld; assumption. Qed.
Lemma KWf_started n s op : KWf n s -> KWf n (kput_started s op).
Proof. intros []. constructor; kfld; assumption. Qed.
Lemma KWf_ring n s b a r : KWf n s -> wstep b (k_ring s) a = Some r ->
  (match a with Send _ => False | _ => True end) -> KWf n (kput_ring s r).
Proof.
  intros [] E Ha. pose proof (ring_lens _ _ _ _ E) as [L1 L2]. pose proof (step_sent _ _ _ _ E) as L3.
  constructor; kfld; try assumption; try congruence. rewrite L3, app_length. destruct a; cbn [length]; try lia; contradiction.
Qed.
Lemma KWf_sp n s t sp : (t < n)%nat -> KWf n s -> KWf n (kput_sp s t sp).
Proof.
  intros Ht []. constructor; kfld; try assumption; [rewrite upd_length; assumption|].
  intros u f Hu. rewrite view_sp by lia. destruct (Nat.eqb_spec t u) as [<-|]; [cbn [kv]|]; auto.
Qed.

Lemma tick_put s t p : ktick (kput s t p) = kput (ktick s) t p.
Proof. reflexivity. Qed.

Lemma KWf_step b n s a s' : KWf n s -> kstep b s a = Some s' -> KWf n s'.
Proof.
  intros H E. unfold kstep in E. destruct (kact b s a) as [s1|] eqn:E1; [|discriminate]. injection E as <-.
  destruct a as [t op|t fails picks|t|t k]; cbn [kact] in E1.
  - destruct (nth_error (k_threads s) t) as [[]|]; try discriminate. destruct (kcan_start s t op); [|discriminate].
    injection E1 as <-. apply KWf_tick, KWf_put, KWf_started, H.
  - destruct (nth_error (k_threads s) t) as [p|] eqn:Et; [|discriminate].
    assert (Ht : (t < n)%nat) by (rewrite <- (W_len _ _ H); apply nth_error_Some; congruence).
    apply kstep_shapes in E1.
    inversion E1; subst;
      try (apply KWf_tick, KWf_put, H);
      try (rewrite tick_put; apply KWf_put; apply KWf_written; auto; fail);
      try (apply KWf_tick, KWf_put; eapply KWf_loaded; eassumption);
      try (apply KWf_tick; eapply KWf_ring; [eassumption|eassumption|exact I]);
      try (apply KWf_tick, KWf_put; eapply KWf_ring; [eassumption|eassumption|exact I]).
    + apply KWf_tick, KWf_put, KWf_sp; assumption.
    + apply KWf_tick. assert (KWf n (kput_ring s r)) as HR by (eapply KWf_ring; [eassumption|eassumption|exact I]).
      inversion H6; subst; try (apply KWf_put, HR). apply KWf_put, KWf_delta, HR.
    + apply KWf_tick, KWf_put, KWf_delta. eapply KWf_loaded; eassumption.
  - destruct (nth_error (k_threads s) t) as [[]|] eqn:Et; try discriminate.
    assert (Ht : (t < n)%nat) by (rewrite <- (W_len _ _ H); apply nth_error_Some; congruence).
    destruct (wstep b (k_ring s) (Send t)) as [r|] eqn:Er; [|discriminate]. injection E1 as <-. apply KWf_tick.
    pose proof (ring_lens _ _ _ _ Er) as [L1 L2]. pose proof (step_sent _ _ _ _ Er) as L3.
    destruct H. constructor; kfld; try assumption; try congruence.
    + rewrite L3, !app_length. cbn [length]. lia.
    + intros j v f H. destruct (Nat.lt_ge_cases j (length (k_sent s))).
      * rewrite nth_error_app1 in H by assumption. eauto.
      * rewrite nth_error_app2 in H by assumption. destruct (j - length (k_sent s))%nat as [|[|]]; try discriminate. injection H as <-. auto.
  - destruct (nth_error (k_threads s) t) as [[]|] eqn:Et; try discriminate.
    assert (Ht : (t < n)%nat) by (rewrite <- (W_len _ _ H); apply nth_error_Some; congruence).
    destruct (nth_error (k_sent s) k) as [v|] eqn:Ek; [|discriminate].
    destruct (wstep b (k_ring s) (Recv t k)) as [r|] eqn:Er; [|discriminate]. injection E1 as <-. apply KWf_tick.
    assert (KWf n (kput_ring s r)) as HR by (eapply KWf_ring; [eassumption|eassumption|exact I]).
    pose proof (W_sent _ _ H k v) as HS. pose proof (fun f => W_views _ _ H t f Ht) as HV. destruct HR. constructor; kfld; try assumption.
    + rewrite upd_length. assumption.
    + intros u f Hu. change (kview_of (kput_view (kput_ring s r) t (kv_join v (kview_of s t))) u) with (kview_of (kput_view s t (kv_join v (kview_of s t))) u).
      rewrite view_put by lia. destruct (Nat.eqb_spec t u) as [<-|]; [|apply W_views0; assumption]. cbn [kv_join kv].
      specialize (HS f Ek). specialize (HV f). apply Nat.max_lub_lt; assumption.
Qed.

(** ** Counters: what is still to be added *)
Lemma krun_app b s p q : krun b s (p ++ q) = match krun b s p with Some s1 => krun b s1 q | None => None end.
Proof. revert s; induction p as [|a p IH]; intros s; cbn [app krun]; [reflexivity|]. destruct (kstep b s a); auto. Qed.

Lemma krun_inv b (P : kst -> Prop) : (forall s a s', P s -> kstep b s a = Some s' -> P s') ->
  forall sched s s', P s -> krun b s sched = Some s' -> P s'.
Proof.
  intros HP. induction sched as [|a sched IH]; intros s s' H; cbn [krun].
  - intros [= <-]. exact H.
  - destruct (kstep b s a) as [s1|] eqn:E; [|discriminate]. intros R. eapply IH; [|exact R]. eapply HP; eassumption.
Qed.

Lemma last_nth (ms : list fmsg) d : last ms d = nth (length ms - 1) ms d.
Proof.
  induction ms as [|a ms IH]; [reflexivity|]. destruct ms as [|c ms]; [reflexivity|]. change (last (a :: c :: ms) d) with (last (c :: ms) d).
  rewrite IH. cbn [length]. replace (S (S (length ms)) - 1)%nat with (S (S (length ms) - 1)) by lia. reflexivity.
Qed.
Lemma kvalue_nth s f m : nth_error (k_msgs s f) (length (k_msgs s f) - 1) = Some m -> kvalue s f = f_val m.
Proof. intros H. unfold kvalue. rewrite last_nth. erewrite nth_error_nth by exact H. reflexivity. Qed.

(** fields all of whose writes are read-modify-writes only grow at the end *)
Lemma rmw_end n s t f k : KWf n s -> can_write s t f k ->
  (forall i m, nth_error (k_msgs s f) (S i) = Some m -> (k <= i)%nat -> f_rmw m = true) -> S k = length (k_msgs s f).
Proof.
  intros HW (C1 & C2 & C3) R. destruct (nth_error (k_msgs s f) (S k)) as [m|] eqn:E.
  - specialize (C3 m eq_refl). rewrite (R k m E) in C3 by lia. discriminate.
  - apply nth_error_None in E. lia.
Qed.
Lemma counter_end n s t f k : KWf n s -> can_write s t f k -> f <> FMin -> f <> FMax -> S k = length (k_msgs s f).
Proof. intros HW C F1 F2. eapply rmw_end; [eassumption..|]. intros i m H _. eapply W_rmw; eassumption. Qed.

Lemma written_end s t f k v rmw : S k = length (k_msgs s f) -> k_msgs (written s t f k v rmw) f = k_msgs s f ++ [FMsg v rmw (Some (k_clock s))].
Proof. intros H. kfld. destruct (field_eq_dec f f); [|congruence]. rewrite H. apply insert_end. Qed.
Lemma written_other s t f k v rmw g : g <> f -> k_msgs (written s t f k v rmw) g = k_msgs s g.
Proof. intros H. kfld. destruct (field_eq_dec g f); [congruence|reflexivity]. Qed.
Lemma kvalue_written s t f k v rmw : S k = length (k_msgs s f) -> kvalue (written s t f k v rmw) f = v.
Proof. intros H. unfold kvalue. rewrite written_end by exact H. rewrite last_last. reflexivity. Qed.

(** messages of other fields than the one written do not move *)
Definition KC (n : nat) (s : kst) : Prop :=
  KWf n s /\ Forall wf_pc (k_threads s) /\
  (forall f, f <> FMin -> f <> FMax -> kvalue s f = wrap64 (total (contrib f) (k_started s) - pend f (k_threads s))).

Lemma load_kind_pend p f next : load_kind p f next -> forall g v, pend1 g (next v) = pend1 g p /\ wf_pc (next v).
Proof. intros []; intros; split; reflexivity || exact I. Qed.
Lemma ring_op_pend s p op : ring_op s p op -> forall g, pend1 g p = 0.
Proof. intros []; reflexivity. Qed.
Lemma ring_ret_msgs t p e s s' : ring_ret t p e s s' -> k_msgs s' = k_msgs s /\ k_started s' = k_started s /\
  exists p', k_threads s' = upd t p' (k_threads s) /\ (forall g, pend1 g p' = 0) /\ wf_pc p'.
Proof. intros []; (split; [reflexivity|split; [reflexivity|eexists; split; [reflexivity|split; [reflexivity|exact I]]]]). Qed.

Lemma KC_init sz n : KC n (kinit sz n).
Proof.
  split; [apply KWf_init|]. split.
  - apply Forall_forall. intros p Hp. apply repeat_spec in Hp. subst. exact I.
  - intros f _ _. cbn [kinit k_started k_threads]. unfold pend. assert (sum (map (pend1 f) (repeat AIdle n)) = 0) as ->; [|reflexivity].
    induction n; [reflexivity|]. unfold sum in *. cbn [repeat map fold_right pend1]. lia.
Qed.

Lemma KC_step b n s a s' : KC n s -> kstep b s a = Some s' -> KC n s'.
Proof.
  intros (HW & HP & HC) E. split; [eapply KWf_step; eassumption|].
  unfold kstep in E. destruct (kact b s a) as [s1|] eqn:E1; [|discriminate]. injection E as <-.
  enough (Forall wf_pc (k_threads s1) /\ forall f, f <> FMin -> f <> FMax ->
            kvalue s1 f = wrap64 (total (contrib f) (k_started s1) - pend f (k_threads s1))) as GOAL by exact GOAL.
  assert (SAME : forall t p p' s1, nth_error (k_threads s) t = Some p -> k_msgs s1 = k_msgs s -> k_started s1 = k_started s ->
            k_threads s1 = upd t p' (k_threads s) -> (forall g, pend1 g p' = pend1 g p) -> wf_pc p' ->
            Forall wf_pc (k_threads s1) /\ forall f, f <> FMin -> f <> FMax ->
            kvalue s1 f = wrap64 (total (contrib f) (k_started s1) - pend f (k_threads s1))).
  { intros t p p' s2 Ht E2 E3 E4 E5 W. rewrite E4, E3. split; [apply Forall_upd; assumption|].
    intros f F1 F2. unfold kvalue. rewrite E2. fold (kvalue s f). rewrite (HC f F1 F2), (pend_upd f _ t p) by exact Ht. rewrite E5. f_equal. lia. }
  assert (MM : forall t p p' f k v rmw, nth_error (k_threads s) t = Some p -> (f = FMin \/ f = FMax) -> (forall g, pend1 g p' = pend1 g p) -> wf_pc p' ->
            Forall wf_pc (k_threads (kput (written s t f k v rmw) t p')) /\ forall g, g <> FMin -> g <> FMax ->
            kvalue (kput (written s t f k v rmw) t p') g = wrap64 (total (contrib g) (k_started s) - pend g (upd t p' (k_threads s)))).
  { intros t p p' f k v rmw Ht Hf E5 W. split; [kfld; apply Forall_upd; assumption|].
    intros g G1 G2. unfold kvalue. kfld. destruct (field_eq_dec g f) as [->|]; [destruct Hf; congruence|].
    fold (kvalue s g). rewrite (HC g G1 G2), (pend_upd g _ t p) by exact Ht. rewrite E5. f_equal. lia. }
  destruct a as [t op|t fails picks|t|t k]; cbn [kact] in E1.
  - destruct (nth_error (k_threads s) t) as [p|] eqn:Et; [|discriminate]. destruct p; try discriminate.
    destruct (kcan_start s t op); [|discriminate]. injection E1 as <-. kfld.
    split; [apply Forall_upd; [exact HP|apply wf_first]|].
    intros f F1 F2. change (kvalue (kput (kput_started s op) t (first_apc op)) f) with (kvalue s f).
    rewrite (HC f F1 F2), total_snoc, (pend_upd f _ t AIdle) by exact Et. rewrite pend1_first by assumption. cbn [pend1]. f_equal. lia.
  - destruct (nth_error (k_threads s) t) as [p|] eqn:Et; [|discriminate].
    apply kstep_shapes in E1. pose proof (Forall_nth _ _ _ _ HP Et) as Hp.
    assert (Ht : (t < n)%nat) by (rewrite <- (W_len _ _ HW); apply nth_error_Some; congruence).
    inversion E1; subst; try (eapply SAME; [exact Et|reflexivity..|exact I]);
      try (eapply MM; [exact Et|auto|intros; reflexivity|exact I]).
    + (* add *)
      apply cur_last_tl in Hp. destruct Hp as (W & F1 & F2 & _). pose proof (counter_end _ _ _ _ _ HW H0 F1 F2) as EK.
      split; [kfld; apply Forall_upd; [assumption|apply wf_after; exact W]|].
      intros g G1 G2. kfld. rewrite (pend_upd g _ t (AAdds ((f, n0) :: l))) by exact Et. rewrite pend1_after. cbn [pend1].
      destruct (field_eq_dec g f) as [->|Hne].
      * change (kvalue (kput (written s t f k (wrap64 (v + n0)) true) t (after_adds l)) f) with (kvalue (written s t f k (wrap64 (v + n0)) true) f).
        rewrite kvalue_written by exact EK.
        destruct H as [(m & Em & <-) _]. replace k with (length (k_msgs s f) - 1)%nat in Em by lia. apply kvalue_nth in Em. rewrite <- Em.
        rewrite (HC f F1 F2), wrap64_add. f_equal. unfold sum_for, sum. cbn [map fst snd fold_right].
        destruct (field_eq_dec f f); [lia|congruence].
      * change (kvalue (kput (written s t f k (wrap64 (v + n0)) true) t (after_adds l)) g) with (f_val (last (k_msgs (written s t f k (wrap64 (v + n0)) true) g) (FMsg 0 false None))).
        rewrite written_other by exact Hne. fold (kvalue s g).
        rewrite (HC g G1 G2). f_equal. unfold sum_for, sum. cbn [map fst snd fold_right].
        destruct (field_eq_dec f g); [congruence|lia].
    + match goal with L : load_kind _ _ _ |- _ => rename L into LK end. destruct (load_kind_pend _ _ _ LK FCur v) as [_ L2].
      eapply SAME; [exact Et|reflexivity..| |exact L2]. intros g. apply (load_kind_pend _ _ _ LK g v).
    + (* ring start *) split; [exact HP|exact HC].
    + split; [exact HP|exact HC].
    + eapply SAME; [exact Et|reflexivity..| |exact I]. match goal with L : ring_op _ _ _ |- _ => rename L into RO end.
      intros g. rewrite (ring_op_pend _ _ _ RO). reflexivity.
    + match goal with L : ring_op _ _ _ |- _ => rename L into RO end. match goal with L : ring_ret _ _ _ _ _ |- _ => rename L into RR end.
      destruct (ring_ret_msgs _ _ _ _ _ RR) as (M1 & M2 & p' & M3 & M4 & M5).
      eapply (SAME t p p'); [exact Et|exact M1|exact M2|exact M3| |exact M5]. intros g. rewrite (ring_op_pend _ _ _ RO). apply M4.
  - destruct (nth_error (k_threads s) t) as [[]|]; try discriminate. destruct (wstep b (k_ring s) (Send t)); [|discriminate].
    injection E1 as <-. split; [exact HP|exact HC].
  - destruct (nth_error (k_threads s) t) as [[]|]; try discriminate. destruct (nth_error (k_sent s) k); [|discriminate].
    destruct (wstep b (k_ring s) (Recv t k)); [|discriminate]. injection E1 as <-. split; [exact HP|exact HC].
Qed.

Lemma kstarted_step b s a s' : kstep b s a = Some s' -> k_started s' = k_started s ++ kcalls [a].
Proof.
  unfold kstep. destruct (kact b s a) as [s1|] eqn:E1; [|discriminate]. intros [= <-]. kfld.
  destruct a as [t op|t fails picks|t|t k]; cbn [kact] in E1.
  - destruct (nth_error (k_threads s) t) as [[]|]; try discriminate. destruct (kcan_start s t op); [|discriminate].
    injection E1 as <-. reflexivity.
  - destruct (nth_error (k_threads s) t) as [p|]; [|discriminate]. apply kstep_shapes in E1. cbn [kcalls flat_map app]. rewrite app_nil_r.
    inversion E1; subst; try reflexivity. match goal with L : ring_ret _ _ _ _ _ |- _ => rename L into RR end. destruct (ring_ret_msgs _ _ _ _ _ RR) as (_ & M & _). exact M.
  - destruct (nth_error (k_threads s) t) as [[]|]; try discriminate. destruct (wstep b (k_ring s) (Send t)); [|discriminate].
    injection E1 as <-. cbn. rewrite app_nil_r. reflexivity.
  - destruct (nth_error (k_threads s) t) as [[]|]; try discriminate. destruct (nth_error (k_sent s) k); [|discriminate].
    destruct (wstep b (k_ring s) (Recv t k)); [|discriminate]. injection E1 as <-. cbn. rewrite app_nil_r. reflexivity.
Qed.
Lemma kcalls_app p q : kcalls (p ++ q) = kcalls p ++ kcalls q.
Proof. apply flat_map_app. Qed.
Lemma kstarted_run b sched : forall s s', krun b s sched = Some s' -> k_started s' = k_started s ++ kcalls sched.
Proof.
  induction sched as [|a sched IH]; intros s s'; cbn [krun].
  - intros [= <-]. cbn. rewrite app_nil_r. reflexivity.
  - destruct (kstep b s a) as [s1|] eqn:E; [|discriminate]. intros R. rewrite (IH _ _ R), (kstarted_step _ _ _ _ E).
    rewrite <- app_assoc. f_equal. change (a :: sched) with ([a] ++ sched). rewrite kcalls_app. reflexivity.
Qed.

Lemma kpend_idle f s : k_idle s -> pend f (k_threads s) = 0.
Proof.
  unfold k_idle, pend, sum. induction (k_threads s) as [|p ts IH]; [reflexivity|]. intros H. inversion H; subst. cbn. rewrite IH by assumption. reflexivity.
Qed.

Lemma kcounters_exact b sz n sched s f : f <> FMin -> f <> FMax ->
  krun b (kinit sz n) sched = Some s -> k_idle s ->
  kvalue s f = total (contrib f) (kcalls sched) mod two64.
Proof.
  intros H1 H2 R HI. destruct (krun_inv b (KC n) (fun s a s' => KC_step b n s a s') _ _ _ (KC_init sz n) R) as (_ & _ & HC).
  rewrite (HC f H1 H2), (kstarted_run _ _ _ _ R), kpend_idle by exact HI. cbn [kinit k_started app]. rewrite Z.sub_0_r. reflexivity.
Qed.
