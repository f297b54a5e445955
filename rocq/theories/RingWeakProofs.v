(** * The ring buffer under relaxed memory: what the counters still guarantee. *)
From Coq Require Import List ZArith Lia Bool Arith Permutation.
From Coq Require Import ZifyBool ZifyNat ZifyN.
From Verif Require Import Machine Ring RingSpec RingSeq RingConc RingConc2 RingConc3 RingWeak RingWeakSpec.
Import ListNotations.
Open Scope Z_scope.

(** ** Message lists that count *)
Lemma zseq_nth a n i : nth_error (zseq a n) i = if (i <? n)%nat then Some (a + Z.of_nat i) else None.
Proof.
  revert a i; induction n as [|n IH]; intros a i; cbn [zseq].
  - destruct i; reflexivity.
  - destruct i as [|i]; cbn [nth_error].
    + cbn. f_equal. lia.
    + rewrite IH. change (S i <? S n)%nat with (i <? n)%nat. destruct (i <? n)%nat; auto. f_equal. lia.
Qed.

Lemma vals_nth ms a N i m : map m_val ms = zseq a N -> nth_error ms i = Some m -> m_val m = a + Z.of_nat i /\ (i < N)%nat.
Proof.
  intros H E. pose proof (map_nth_error m_val i ms E) as H'. rewrite H, zseq_nth in H'.
  destruct (Nat.ltb_spec i N); [|discriminate]. injection H' as <-. auto.
Qed.

Lemma read_val ms a N k i m : map m_val ms = zseq a N -> read_at ms k i = Some m ->
  m_val m = a + Z.of_nat i /\ (i < N)%nat /\ (k <= S i)%nat.
Proof.
  unfold read_at. intros H E. destruct (Nat.leb_spec k (S i)); [|discriminate].
  destruct (vals_nth ms a N i m H E). auto.
Qed.

Lemma vals_len ms a N : map m_val ms = zseq a N -> length ms = N.
Proof. intros H. rewrite <- (map_length m_val), H. apply zseq_length. Qed.

Lemma newest_val ms a N m : map m_val ms = zseq a (S N) -> newest ms = Some m -> m_val m = a + Z.of_nat N.
Proof.
  unfold newest. intros H E. rewrite (vals_len _ _ _ H) in E. cbn [Nat.sub] in E. rewrite Nat.sub_0_r in E.
  destruct (vals_nth ms a (S N) N m H E). assumption.
Qed.

Lemma newest_ex ms a N : map m_val ms = zseq a (S N) -> exists m, newest ms = Some m /\ m_val m = a + Z.of_nat N.
Proof.
  intros H. destruct (newest ms) as [m|] eqn:E.
  - exists m. split; [reflexivity|]. eapply newest_val; eauto.
  - unfold newest in E. apply nth_error_None in E. rewrite (vals_len _ _ _ H) in E. lia.
Qed.

Lemma vals_snoc ms a N z v : map m_val ms = zseq a N -> z = a + Z.of_nat N -> map m_val (ms ++ [Msg z v]) = zseq a (S N).
Proof. intros H ->. rewrite map_app, H, zseq_snoc. reflexivity. Qed.

Lemma Forall2_upd {X Y} (P : X -> Y -> Prop) i x y l l' : Forall2 P l l' -> P x y -> Forall2 P (upd i x l) (upd i y l').
Proof.
  intros F H. revert i. induction F as [|a b l l' Hab F IH]; intros [|i]; cbn [upd]; constructor; auto.
Qed.
Lemma Forall2_nth {X Y} (P : X -> Y -> Prop) l l' i x : Forall2 P l l' -> nth_error l i = Some x ->
  exists y, nth_error l' i = Some y /\ P x y.
Proof.
  intros F. revert i. induction F as [|a b l l' Hab F IH]; intros [|i] H; cbn in *; try discriminate; eauto.
  injection H as <-. eauto.
Qed.

Section Weak.
Context {A : Type}.
Variable bld : build.
Notation wstate := (wstate A).
Notation cstate := (cstate A).
Notation pc := (pc A).

(** ** Relation to a state with the counters' newest values *)
Definition panicked (p : pc) : bool := match p with Panicked _ => true | _ => false end.
(** a panicked thread is, for the counters, out of the ring or still holding its claim *)
Definition tm (p q : pc) : Prop :=
  match p with
  | Panicked e => e = POverflow /\ (q = Idle \/ exists c h, q = DeqCheck c h)
  | _ => q = p
  end.

Record Rel (sz : nat) (s : wstate) (cs : cstate) : Prop := {
  R_res : map m_val (w_res s) = zseq 0 (S (length (w_hist s)));
  R_pub : map m_val (w_pub s) = zseq 0 (S (Z.to_nat (published cs)));
  R_heads : forall c, match nth_error (w_heads s) c, nth_error (c_starts cs) c, nth_error (c_heads cs) c with
                      | Some hs, Some st, Some cur => map m_val hs = zseq st (S (Z.to_nat (cur - st)))
                      | None, None, None => True
                      | _, _, _ => False
                      end;
  R_hist : c_hist cs = w_hist s;
  R_events : c_events cs = w_events s;
  R_slots : length (w_slots s) = sz;
  R_threads : Forall2 tm (w_threads s) (c_threads cs);
  R_lost : forall c, Permutation (flat_map (checking c) (c_threads cs))
                                 (flat_map (checking c) (w_threads s) ++ wlost c s);
  R_views : length (w_views s) = length (w_threads s);
  R_cons : flat_map cons1 (w_events s) = combine (seq 0 (length (c_starts cs))) (c_starts cs)
}.

Lemma tm_same p q : panicked p = false -> tm p q -> q = p.
Proof. destruct p; cbn; auto; discriminate. Qed.
Lemma tm_refl p : panicked p = false -> tm p p.
Proof. destruct p; cbn; auto; discriminate. Qed.

Lemma R_thread sz s cs t p : Rel sz s cs -> nth_error (w_threads s) t = Some p -> panicked p = false ->
  nth_error (c_threads cs) t = Some p.
Proof.
  intros HR H N. destruct (Forall2_nth tm _ _ t p (R_threads sz s cs HR) H) as (q & Hq & T).
  rewrite (tm_same p q N T) in Hq. exact Hq.
Qed.

Lemma perm_upd2 {X} (f : pc -> list X) (l l' : list pc) (m : list X) t p p' :
  nth_error l t = Some p -> nth_error l' t = Some p ->
  Permutation (flat_map f l') (flat_map f l ++ m) ->
  Permutation (flat_map f (upd t p' l')) (flat_map f (upd t p' l) ++ m).
Proof.
  intros H H' P. pose proof (flat_map_upd f t p p' l H) as Q. pose proof (flat_map_upd f t p p' l' H') as Q'.
  apply Permutation_app_inv_r with (f p).
  transitivity ((flat_map f l ++ m) ++ f p'); [rewrite Q'; apply Permutation_app_tail; exact P|].
  transitivity ((flat_map f l ++ f p') ++ m).
  { rewrite <- !app_assoc. apply Permutation_app_head, Permutation_app_comm. }
  transitivity ((flat_map f (upd t p' l) ++ f p) ++ m); [apply Permutation_app_tail, Permutation_sym; exact Q|].
  rewrite <- !app_assoc. apply Permutation_app_head, Permutation_app_comm.
Qed.

(** a step of thread [t] that changes no message list *)
Lemma Rel_move sz s cs t p p' s' es : Rel sz s cs ->
  nth_error (w_threads s) t = Some p -> panicked p = false -> panicked p' = false ->
  w_res s' = w_res s -> w_pub s' = w_pub s -> w_heads s' = w_heads s -> length (w_slots s') = length (w_slots s) ->
  w_threads s' = upd t p' (w_threads s) -> length (w_views s') = length (w_views s) ->
  w_hist s' = w_hist s -> w_lost s' = w_lost s -> w_events s' = w_events s ++ es -> flat_map cons1 es = [] ->
  Rel sz s' (CState (c_ring cs) (c_heads cs) (upd t p' (c_threads cs)) (c_hist cs) (c_starts cs) (c_claims cs)
                    (c_events cs ++ es)).
Proof.
  intros HR Ht N N' E1 E2 E3 E4 E5 E6 E7 E8 E9 E10. pose proof (R_thread sz s cs t p HR Ht N) as Ht'.
  destruct HR as [H1 H2 H3 H4 H5 H6 H7 H8 H9 H10].
  constructor; unfold published, wlost in *; cbn [c_ring c_heads c_threads c_hist c_starts c_claims c_events];
    rewrite ?E1, ?E2, ?E3, ?E4, ?E5, ?E6, ?E7, ?E8, ?E9; auto.
  - rewrite H5. reflexivity.
  - apply Forall2_upd; [exact H7|]. apply tm_refl; exact N'.
  - intros c. eapply perm_upd2; eauto.
  - rewrite upd_length. exact H9.
  - rewrite flat_map_app, E10, app_nil_r. exact H10.
Qed.

(** ** Views only mention consumers that exist *)
Definition knows (n : nat) (v : view) : Prop := forall c, (1 <= seen v (Head c))%nat -> (c < n)%nat.
Record Known (s : wstate) : Prop := {
  K_views : Forall (knows (length (w_heads s))) (w_views s);
  K_sent : Forall (knows (length (w_heads s))) (w_sent s);
  K_msgs : Forall (Forall (fun m => knows (length (w_heads s)) (m_view m))) (w_heads s)
}.

Lemma seen_cons l n v l' : seen ((l, n) :: v) l' = if loc_eqb l l' then Nat.max n (seen v l') else seen v l'.
Proof. reflexivity. Qed.
Lemma seen_app v v' l : seen (v ++ v') l = Nat.max (seen v l) (seen v' l).
Proof.
  induction v as [|[l0 n] v IH]; [reflexivity|]. cbn [app]. rewrite !seen_cons, IH. destruct (loc_eqb l0 l); lia.
Qed.
Lemma loc_eqb_refl l : loc_eqb l l = true.
Proof. destruct l; cbn; auto using Nat.eqb_refl. Qed.
Lemma loc_eqb_eq l l' : loc_eqb l l' = true -> l = l'.
Proof. destruct l, l'; cbn; intros H; try discriminate; auto; apply Nat.eqb_eq in H; congruence. Qed.

Lemma knows_nil n : knows n [].
Proof. intros c H. cbn in H. lia. Qed.
Lemma knows_mono n n' v : (n <= n')%nat -> knows n v -> knows n' v.
Proof. intros L H c Hc. specialize (H c Hc). lia. Qed.
Lemma knows_cons n l k v : (forall c, l = Head c -> (c < n)%nat) -> knows n v -> knows n ((l, k) :: v).
Proof.
  intros H1 H2 c Hc. rewrite seen_cons in Hc. destruct (loc_eqb l (Head c)) eqn:E; [|auto].
  apply loc_eqb_eq in E. auto.
Qed.
Lemma knows_app n v v' : knows n v -> knows n v' -> knows n (v ++ v').
Proof. intros H H' c Hc. rewrite seen_app in Hc. destruct (Nat.le_gt_cases 1 (seen v (Head c))); [auto|]. apply H'. lia. Qed.

Lemma K_view s t : Known s -> knows (length (w_heads s)) (view_of s t).
Proof.
  intros HK. unfold view_of. destruct (nth_in_or_default t (w_views s) []) as [H|H].
  - exact (proj1 (Forall_forall _ _) (K_views s HK) _ H).
  - rewrite H. apply knows_nil.
Qed.

Lemma Known_move s s' t v : Known s -> w_heads s' = w_heads s -> w_sent s' = w_sent s ->
  w_views s' = upd t v (w_views s) -> knows (length (w_heads s)) v -> Known s'.
Proof.
  intros [H1 H2 H3] E1 E2 E3 Hv. constructor; rewrite ?E1, ?E2, ?E3; auto. apply Forall_upd; assumption.
Qed.

Lemma Forall_nth_error {X} (P : X -> Prop) l i x : Forall P l -> nth_error l i = Some x -> P x.
Proof. intros F H. apply nth_error_In in H. exact (proj1 (Forall_forall _ _) F x H). Qed.

Lemma knows_other n l k v : (forall c, l <> Head c) -> knows n v -> knows n ((l, k) :: v).
Proof. intros H. apply knows_cons. intros c E. destruct (H c E). Qed.

Lemma Known_step s a s' : Known s -> wstep bld s a = Some s' -> Known s'.
Proof.
  intros HK E. pose proof (fun t => K_view s t HK) as KV.
  destruct a as [t op|t fails picks|t|t k]; cbn [wstep] in E.
  - destruct (nth_error _ _) as [[]|]; try discriminate. destruct (wop_ok _ _ _); try discriminate. injection E as <-.
    eapply Known_move; [exact HK|reflexivity..|apply KV].
  - destruct (nth_error _ _) as [p|]; try discriminate.
    destruct p as [|x|rt x|rt x|c|c h|c h|c h|c|c h| |q]; cbn [wthread_step] in E; try discriminate;
    repeat match type of E with
    | match ?x with _ => _ end = _ => let Q := fresh "Q" in destruct x eqn:Q; try discriminate
    | (if ?x then _ else _) = _ => let Q := fresh "Q" in destruct x eqn:Q; try discriminate
    end; injection E as <-;
    try (eapply (Known_move s); [exact HK|reflexivity..|];
         repeat first [apply KV | apply knows_other; [intros; discriminate|] | apply knows_cons;
            [let E := fresh in intros ? E; injection E as <-; apply nth_error_Some; congruence|]]).
    + (* DeqCas *)
      destruct HK as [H1 H2 H3].
      match goal with Q : nth_error (w_heads s) c = Some ?hs |- _ => rename hs into hs0; rename Q into Qh end.
      assert (Hc : (c < length (w_heads s))%nat) by (apply nth_error_Some; congruence).
      pose proof (Forall_nth_error _ _ _ _ H3 Qh) as Fh.
      match goal with Q : newest hs0 = Some ?m0 |- _ => pose proof (Forall_nth_error _ _ _ _ Fh Q) as Fm end.
      assert (KM : knows (length (w_heads s)) ((Head c, S (length hs0)) :: m_view m)).
      { apply knows_cons; [|exact Fm]. intros c' Ec; injection Ec as <-; exact Hc. }
      constructor; cbn [goto w_views w_sent w_heads]; rewrite upd_length; auto.
      * apply Forall_upd; [exact H1|].
        apply (knows_app _ ((Head c, S (length hs0)) :: m_view m)); [exact KM|apply KV].
      * apply Forall_upd; [exact H3|]. apply Forall_app. split; [exact Fh|]. constructor; [exact KM|constructor].
    + (* ConsLoad *)
      destruct HK as [H1 H2 H3].
      assert (L : (length (w_heads s) <= length (w_heads s ++ [[Msg (m_val m) []]]))%nat) by (rewrite app_length; lia).
      constructor; cbn [wlog goto w_views w_sent w_heads].
      * apply Forall_upd; [eapply Forall_impl; [|exact H1]; intros v; apply knows_mono; exact L|].
        apply knows_cons; [intros c Ec; injection Ec as <-; rewrite app_length; cbn; lia|].
        apply knows_other; [discriminate|]. eapply knows_mono; [exact L|apply KV].
      * eapply Forall_impl; [|exact H2]. intros v. apply knows_mono; exact L.
      * apply Forall_app. split.
        -- eapply Forall_impl; [|exact H3]. intros ms0 Hl. eapply Forall_impl; [|exact Hl]. intros m0. apply knows_mono; exact L.
        -- constructor; [|constructor]. constructor; [|constructor]. apply knows_nil.
  - destruct (nth_error _ _) as [[]|]; try discriminate. injection E as <-.
    destruct HK as [H1 H2 H3]. constructor; cbn [w_views w_sent w_heads]; auto.
    apply Forall_app. split; [exact H2|]. constructor; [apply KV|constructor].
  - destruct (nth_error (w_threads s) t) as [[]|]; try discriminate.
    destruct (nth_error (w_sent s) k) as [v|] eqn:Q; try discriminate. injection E as <-.
    eapply (Known_move s); [exact HK|reflexivity..|]. apply knows_app; [|apply KV].
    exact (Forall_nth_error _ _ _ _ (K_sent s HK) Q).
Qed.
End Weak.
