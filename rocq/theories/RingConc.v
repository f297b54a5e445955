(** * Invariants of the concurrent ring buffer. *)
From Coq Require Import List ZArith Lia Bool Arith Permutation.
From Coq Require Import ZifyBool ZifyNat ZifyN.
From Verif Require Import Machine Ring RingSpec RingSeq.
Import ListNotations.
Open Scope Z_scope.

(** Provide the state reached by a concrete schedule. *)
Ltac reached := match goal with |- exists s, ?c = Some s /\ _ =>
    let v := eval vm_compute in c in
    match v with Some ?s => exists s; split; [vm_cast_no_check (eq_refl v)|] end
  end.

(** ** Lists and permutations *)
Lemma nth_error_upd_same {X} i (x y : X) l : nth_error l i = Some y -> nth_error (upd i x l) i = Some x.
Proof. intros H. apply nth_error_upd_eq. apply nth_error_Some. congruence. Qed.

Lemma flat_map_upd {X Y} (f : X -> list Y) i x x' l : nth_error l i = Some x ->
  Permutation (flat_map f (upd i x' l) ++ f x) (flat_map f l ++ f x').
Proof.
  revert i; induction l as [|y l IH]; intros [|i] H; cbn [nth_error upd flat_map] in *; try discriminate.
  - injection H as ->. rewrite <- !app_assoc. 
    transitivity (f x ++ flat_map f l ++ f x').
    + rewrite (Permutation_app_comm (f x')). rewrite <- app_assoc.
      rewrite (Permutation_app_comm (flat_map f l) (f x ++ f x')). rewrite <- app_assoc.
      apply Permutation_app_head. apply Permutation_app_comm.
    + reflexivity.
  - rewrite <- !app_assoc. apply Permutation_app_head. apply IH. exact H.
Qed.

Lemma flat_map_upd_same {X Y} (f : X -> list Y) i x x' l : nth_error l i = Some x -> f x = f x' ->
  flat_map f (upd i x' l) = flat_map f l.
Proof.
  revert i; induction l as [|y l IH]; intros [|i] H E; cbn [nth_error upd flat_map] in *; try discriminate; auto.
  - injection H as ->. rewrite E. reflexivity.
  - f_equal. apply IH; assumption.
Qed.

Lemma in_flat_map_nth {X Y} (f : X -> list Y) l y : In y (flat_map f l) <->
  exists i x, nth_error l i = Some x /\ In y (f x).
Proof.
  rewrite in_flat_map. split.
  - intros (x & H1 & H2). apply In_nth_error in H1. destruct H1 as (i & H1). eauto.
  - intros (i & x & H1 & H2). exists x. split; [eapply nth_error_In; exact H1|exact H2].
Qed.

Lemma flat_map_length_le {X Y} (f : X -> list Y) l : (forall x, (length (f x) <= 1)%nat) ->
  (length (flat_map f l) <= length l)%nat.
Proof.
  intros H. induction l as [|x l IH]; cbn [flat_map length]; [lia|].
  rewrite app_length. specialize (H x). lia.
Qed.

Lemma zseq_cons a n : (0 < n)%nat -> zseq a n = a :: zseq (a + 1) (n - 1).
Proof. destruct n as [|n]; [lia|]. intros _. cbn [zseq]. do 2 f_equal. lia. Qed.

Section Conc.
Context {A : Type}.
Variable bld : build.
Notation cstate := (cstate A).
Notation pc := (pc A).

Definition inflight (p : pc) : list Z :=
  match p with EnqWrite rt _ => [rt] | EnqPublish rt _ => [rt] | _ => [] end.
Definition inflights (s : cstate) : list Z := flat_map inflight (c_threads s).

Definition reserved (s : cstate) : Z := reserved_tail (c_ring s).
Definition published (s : cstate) : Z := published_tail (c_ring s).
Definition nhist (s : cstate) : Z := Z.of_nat (length (c_hist s)).

Definition checking (c : nat) (p : pc) : list Z :=
  match p with DeqCheck c' h => if Nat.eqb c' c then [h] else [] | _ => [] end.
Definition claimed (c : nat) (s : cstate) : list Z :=
  flat_map (fun q => if Nat.eqb (fst q) c then [snd q] else []) (c_claims s).
(** consumer [c] was created with head [st] and is now at [cur] *)
Definition cpos (s : cstate) (c : nat) (st cur : Z) : Prop :=
  nth_error (c_starts s) c = Some st /\ nth_error (c_heads s) c = Some cur.

Definition pc_ok (s : cstate) (p : pc) : Prop :=
  match p with
  | Idle | EnqReserve _ | ConsLoad => True
  | EnqWrite rt x | EnqPublish rt x => nth_error (c_hist s) (Z.to_nat rt) = Some x /\ 0 <= rt
  | DeqLoadHead c | PeekLoadHead c => exists st cur, cpos s c st cur
  | DeqLoadTail c h | PeekLoadTail c h => exists st cur, cpos s c st cur /\ st <= h <= cur
  | DeqCas c h => exists st cur, cpos s c st cur /\ st <= h <= cur /\ h < published s
  | DeqCheck c h => exists st cur, cpos s c st cur /\ st <= h < cur
  | Panicked _ => False
  end.

Record Inv (sz : nat) (s : cstate) : Prop := {
  I_len : length (slots (c_ring s)) = sz;
  I_res : reserved s = nhist s;
  I_bound : nhist s < two32;
  I_pub : 0 <= published s <= reserved s;
  I_perm : Permutation (inflights s) (zseq (published s) (Z.to_nat (reserved s - published s)));
  I_heads : forall c, match nth_error (c_starts s) c, nth_error (c_heads s) c with
                      | Some st, Some cur => 0 <= st <= cur /\ cur <= published s /\
                            claimed c s = zseq st (Z.to_nat (cur - st))
                      | None, None => claimed c s = []
                      | _, _ => False
                      end;
  I_pcs : forall t p, nth_error (c_threads s) t = Some p -> pc_ok s p;
  I_ret : forall c, Permutation (returned c s ++ flat_map (checking c) (c_threads s)) (claimed c s);
  I_enq : flat_map enq1 (c_events s) =
          combine (zseq 0 (Z.to_nat (published s))) (firstn (Z.to_nat (published s)) (c_hist s))
}.

Lemma I_cpos sz s c st cur : Inv sz s -> cpos s c st cur ->
  0 <= st <= cur /\ cur <= published s /\ claimed c s = zseq st (Z.to_nat (cur - st)).
Proof. intros HI [H1 H2]. pose proof (I_heads sz s HI c) as H. rewrite H1, H2 in H. exact H. Qed.

Lemma I_cpos_ex sz s c cur : Inv sz s -> nth_error (c_heads s) c = Some cur -> exists st, cpos s c st cur.
Proof.
  intros HI H. pose proof (I_heads sz s HI c) as P. rewrite H in P.
  destruct (nth_error (c_starts s) c) as [st|] eqn:E; [|contradiction]. exists st. split; assumption.
Qed.

Lemma inflight_range sz s rt : Inv sz s -> In rt (inflights s) -> published s <= rt < reserved s.
Proof.
  intros HI H. pose proof (Permutation_in _ (I_perm sz s HI) H) as H'. apply in_zseq in H'.
  pose proof (I_pub sz s HI). lia.
Qed.

Lemma in_inflights s t p rt : nth_error (c_threads s) t = Some p -> In rt (inflight p) -> In rt (inflights s).
Proof. intros H1 H2. apply in_flat_map_nth. eauto. Qed.

Lemma Inv_init sz n : Inv sz (cinit sz n).
Proof.
  assert (RI : forall Y (f : pc -> list Y), f Idle = [] -> flat_map f (repeat Idle n) = []).
  { intros Y f Hf. induction n as [|k IH]; cbn [repeat flat_map]; auto. rewrite Hf. exact IH. }
  constructor; unfold reserved, published, nhist, inflights, returned, claimed;
    cbn [cinit c_ring c_heads c_threads c_hist c_starts c_claims c_events ring_new reserved_tail published_tail slots
         length flat_map firstn].
  - apply repeat_length.
  - reflexivity.
  - rewrite two32_val. lia.
  - lia.
  - rewrite RI by reflexivity. constructor.
  - intros [|c]; reflexivity.
  - intros t p H. apply nth_error_In, repeat_spec in H. subst p. exact I.
  - intros c. rewrite RI by reflexivity. constructor.
  - reflexivity.
Qed.

(** pc_ok is preserved by anything that only lets counters and lists grow *)
Definition grows (s s' : cstate) : Prop :=
  published s <= published s' /\
  (exists l, c_hist s' = c_hist s ++ l) /\
  (forall c st cur, cpos s c st cur -> exists cur', cpos s' c st cur' /\ cur <= cur').

Lemma grows_refl s : grows s s.
Proof. repeat split; [lia|exists []; rewrite app_nil_r; reflexivity|]. intros c st cur H. exists cur. split; [exact H|lia]. Qed.

Lemma pc_ok_grows s s' p : grows s s' -> pc_ok s p -> pc_ok s' p.
Proof.
  intros (G1 & (l & G2) & G3) H. destruct p; cbn [pc_ok] in *; auto.
  - destruct H as [H H0]. split; [|exact H0]. rewrite G2, nth_error_app1; [exact H|apply nth_error_Some; congruence].
  - destruct H as [H H0]. split; [|exact H0]. rewrite G2, nth_error_app1; [exact H|apply nth_error_Some; congruence].
  - destruct H as (st & cur & H). destruct (G3 _ _ _ H) as (cur' & H' & _). eauto.
  - destruct H as (st & cur & H & L). destruct (G3 _ _ _ H) as (cur' & H' & L'). exists st, cur'. split; [exact H'|lia].
  - destruct H as (st & cur & H & L & L2). destruct (G3 _ _ _ H) as (cur' & H' & L').
    exists st, cur'. split; [exact H'|lia].
  - destruct H as (st & cur & H & L). destruct (G3 _ _ _ H) as (cur' & H' & L'). exists st, cur'. split; [exact H'|lia].
  - destruct H as (st & cur & H). destruct (G3 _ _ _ H) as (cur' & H' & _). eauto.
  - destruct H as (st & cur & H & L). destruct (G3 _ _ _ H) as (cur' & H' & L'). exists st, cur'. split; [exact H'|lia].
Qed.

(** threads after an update *)
Lemma pcs_upd s s' t p p' : nth_error (c_threads s) t = Some p -> grows s s' ->
  (forall t0 p0, nth_error (c_threads s) t0 = Some p0 -> pc_ok s p0) -> pc_ok s' p' ->
  forall t0 p0, nth_error (upd t p' (c_threads s)) t0 = Some p0 -> pc_ok s' p0.
Proof.
  intros Ht G H Hp t0 p0 H0. destruct (Nat.eq_dec t t0) as [<-|N].
  - rewrite (nth_error_upd_same _ _ p) in H0 by exact Ht. injection H0 as <-. exact Hp.
  - rewrite nth_error_upd_neq in H0 by exact N. eapply pc_ok_grows; [exact G|]. eapply H; exact H0.
Qed.

(** A step that only changes thread [t]'s pc (and maybe logs [es]). *)
Lemma Inv_quiet sz s t p p' es :
  Inv sz s -> nth_error (c_threads s) t = Some p ->
  inflight p = inflight p' ->
  pc_ok s p' ->
  (forall c, flat_map (ret1 c) es ++ checking c p' = checking c p) ->
  flat_map enq1 es = [] ->
  Inv sz (CState (c_ring s) (c_heads s) (upd t p' (c_threads s)) (c_hist s) (c_starts s) (c_claims s)
                 (c_events s ++ es)).
Proof.
  intros HI Ht Hif Hok Hret Henq. destruct HI as [H1 H2 H3 H4 H5 H6 H7 H8 H9].
  constructor; unfold reserved, published, nhist, inflights, returned, claimed in *;
    cbn [c_ring c_heads c_threads c_hist c_starts c_claims c_events]; auto.
  - rewrite (flat_map_upd_same _ _ _ _ _ Ht Hif). exact H5.
  - eapply (pcs_upd s); [exact Ht| |exact H7|].
    + repeat split; [reflexivity|exists []; cbn; rewrite app_nil_r; reflexivity|].
      intros c st cur H. exists cur. split; [exact H|lia].
    + destruct p'; exact Hok.
  - intros c. rewrite <- (H8 c). rewrite flat_map_app, <- app_assoc.
    apply Permutation_app_head.
    pose proof (flat_map_upd (checking c) t p p' (c_threads s) Ht) as P.
    rewrite <- (Hret c) in P.
    (* P : new ++ (rets ++ chk p') ~ old ++ chk p' *)
    rewrite app_assoc in P. apply Permutation_app_inv_r in P. rewrite <- P. apply Permutation_app_comm.
  - rewrite flat_map_app, Henq, app_nil_r. exact H9.
Qed.

Lemma set_pc_eq (s : cstate) t p' : set_pc s t p' =
  CState (c_ring s) (c_heads s) (upd t p' (c_threads s)) (c_hist s) (c_starts s) (c_claims s) (c_events s ++ []).
Proof. unfold set_pc. rewrite app_nil_r. reflexivity. Qed.

Lemma Inv_set_pc sz s t p p' : Inv sz s -> nth_error (c_threads s) t = Some p ->
  inflight p = inflight p' -> pc_ok s p' -> (forall c, checking c p' = checking c p) -> Inv sz (set_pc s t p').
Proof. intros. rewrite set_pc_eq. eapply Inv_quiet; eauto. Qed.

Lemma Inv_log sz s t p e : Inv sz s -> nth_error (c_threads s) t = Some p ->
  inflight p = [] -> (forall c, ret1 c e = checking c p) -> enq1 e = [] -> Inv sz (log (set_pc s t Idle) e).
Proof.
  intros HI Ht Hi Hr He. unfold log, set_pc. cbn [c_ring c_heads c_threads c_hist c_starts c_claims c_events].
  eapply Inv_quiet; eauto; cbn [flat_map inflight pc_ok checking app]; auto.
  - intros c. rewrite !app_nil_r. apply Hr.
  - rewrite app_nil_r. exact He.
Qed.

(** ** Preservation *)
Lemma peek_event_ok sz s c h st cur : (1 <= sz)%nat -> Z.of_nat sz < two32 -> Inv sz s -> cpos s c st cur -> st <= h <= cur ->
  exists e, peek_event bld (c_ring s) c h = Val e /\ (forall c', ret1 c' e = []) /\ enq1 e = [].
Proof.
  intros HS HSB HI Hc Hh. destruct (I_cpos sz s c st cur HI Hc) as (H1 & H2 & _).
  pose proof (I_len sz s HI) as HL. pose proof (I_bound sz s HI) as HB. pose proof (I_pub sz s HI) as HP.
  pose proof (I_res sz s HI) as HR.
  destruct (peek_all_spec bld (c_ring s) (Z.to_nat h) (Z.to_nat (published s - h))) as (s1 & s2 & E & _);
    try lia.
  - unfold published. rewrite Nat2Z.inj_add, !Z2Nat.id by lia. unfold published in *. lia.
  - rewrite Z2Nat.id in E by lia. unfold peek_event. rewrite E. cbn [bind]. eexists. split; [reflexivity|].
    destruct (_ <? _)%nat; split; reflexivity.
Qed.

Lemma hist_mono (s : cstate) a s' : cstep bld s a = Some s' -> exists l, c_hist s' = c_hist s ++ l.
Proof.
  assert (N : exists l, c_hist s = c_hist s ++ l) by (exists []; rewrite app_nil_r; reflexivity).
  destruct a as [t op|t sp]; cbn [cstep].
  - destruct (nth_error _ _) as [[]|]; try discriminate. destruct (cop_ok _ _); try discriminate.
    intros E; injection E as <-. exact N.
  - destruct (nth_error _ _) as [p|]; try discriminate.
    destruct p; cbn [thread_step]; intros E; try discriminate;
    repeat match type of E with
    | match ?x with _ => _ end = _ => destruct x; try discriminate
    | (if ?x then _ else _) = _ => destruct x; try discriminate
    end; injection E as <-; try exact N.
    cbn [set_pc push_hist set_ring c_hist]. eexists; reflexivity.
Qed.

Lemma grows_same s s' : c_hist s' = c_hist s -> c_heads s' = c_heads s -> c_starts s' = c_starts s ->
  published s <= published s' -> grows s s'.
Proof.
  intros E1 E2 E3 L. split; [exact L|]. split; [exists []; rewrite app_nil_r; exact E1|].
  intros c st cur [H1 H2]. exists cur. split; [split; congruence|lia].
Qed.

Lemma Inv_step sz s a s' : (1 <= sz)%nat -> Z.of_nat sz < two32 ->
  Inv sz s -> cstep bld s a = Some s' -> nhist s' < two32 -> Inv sz s'.
Proof.
  intros HS HSB HI E HB'. destruct a as [t op|t sp]; cbn [cstep] in E.
  - (* Start *)
    destruct (nth_error (c_threads s) t) as [[]|] eqn:Ht; try discriminate.
    destruct (cop_ok s op) eqn:Hok; try discriminate. injection E as <-.
    eapply Inv_set_pc; eauto; destruct op as [x|c|c|]; cbn [first_pc inflight pc_ok checking]; auto;
      cbn [cop_ok] in Hok; apply Nat.ltb_lt in Hok;
      (destruct (nth_error (c_heads s) c) as [cur|] eqn:Hc; [|apply nth_error_None in Hc; lia]);
      destruct (I_cpos_ex sz s c cur HI Hc) as (st & Hp); eauto.
  - destruct (nth_error (c_threads s) t) as [p|] eqn:Ht; try discriminate.
    pose proof (I_pcs sz s HI t p Ht) as Hp. pose proof (I_len sz s HI) as HL.
    pose proof (I_bound sz s HI) as HB. pose proof (I_pub sz s HI) as HP. pose proof (I_res sz s HI) as HR.
    destruct p as [|x|rt x|rt x|c|c h|c h|c h|c|c h| |q]; cbn [thread_step] in E; try discriminate; cbn [pc_ok] in Hp.
    + (* EnqReserve *)
      injection E as <-. unfold nhist in HB'. cbn [set_pc push_hist set_ring c_hist] in HB'.
      rewrite app_length in HB'. cbn [length] in HB'.
      destruct HI as [H1 H2 H3 H4 H5 H6 H7 H8 H9].
      assert (RW : wrap32 (reserved_tail (c_ring s) + 1) = reserved s + 1).
      { unfold wrap32. rewrite Z.mod_small; [reflexivity|]. fold (reserved s). rewrite two32_val in *. unfold nhist in *. lia. }
      constructor; unfold reserved, published, nhist, inflights, returned, claimed in *;
        cbn [set_pc push_hist set_ring c_ring c_heads c_threads c_hist c_starts c_claims c_events
             reserved_tail published_tail slots]; auto.
      * rewrite RW, app_length. cbn [length]. lia.
      * rewrite app_length. cbn [length]. lia.
      * rewrite RW. lia.
      * rewrite RW.
        pose proof (flat_map_upd inflight t (EnqReserve x) (EnqWrite (reserved_tail (c_ring s)) x) (c_threads s) Ht) as P.
        cbn [inflight] in P. rewrite app_nil_r in P. rewrite P, H5.
        replace (Z.to_nat (reserved_tail (c_ring s) + 1 - published_tail (c_ring s)))
          with (S (Z.to_nat (reserved_tail (c_ring s) - published_tail (c_ring s)))) by lia.
        rewrite zseq_snoc. apply Permutation_app_head. rewrite Z2Nat.id by lia.
        replace (published_tail (c_ring s) + (reserved_tail (c_ring s) - published_tail (c_ring s)))
          with (reserved_tail (c_ring s)) by lia. apply Permutation_refl.
      * eapply (pcs_upd s); [exact Ht| |exact H7|].
        -- split; [unfold published; cbn; lia|]. split; [eexists; reflexivity|].
           intros c st cur Hc. exists cur. split; [exact Hc|lia].
        -- cbn [pc_ok set_pc push_hist set_ring c_hist]. split; [|lia].
           rewrite H2, Nat2Z.id, nth_error_app2, Nat.sub_diag by lia. reflexivity.
      * intros c. rewrite (flat_map_upd_same (checking c) t (EnqReserve x)); auto.
      * rewrite firstn_app. replace (Z.to_nat (published_tail (c_ring s)) - length (c_hist s))%nat with 0%nat by lia.
        cbn [firstn]. rewrite app_nil_r. exact H9.
    + (* EnqWrite *)
      injection E as <-. destruct HI as [H1 H2 H3 H4 H5 H6 H7 H8 H9].
      constructor; unfold reserved, published, nhist, inflights, returned, claimed in *;
        cbn [set_pc set_ring store c_ring c_heads c_threads c_hist c_starts c_claims c_events
             reserved_tail published_tail slots]; auto.
      * rewrite upd_length. exact H1.
      * rewrite (flat_map_upd_same inflight t (EnqWrite rt x)); auto.
      * eapply (pcs_upd s); [exact Ht| |exact H7|].
        -- apply grows_same; try reflexivity; unfold published; cbn; lia.
        -- exact Hp.
      * intros c. rewrite (flat_map_upd_same (checking c) t (EnqWrite rt x)); auto.
    + (* EnqPublish *)
      assert (IN : In rt (inflights s)) by (eapply in_inflights; [exact Ht|left; reflexivity]).
      pose proof (inflight_range sz s rt HI IN) as RR.
      unfold u32_add in E. rewrite checked_in in E by (rewrite two32_val in *; lia).
      destruct (negb sp && (published_tail (c_ring s) =? rt)) eqn:C.
      * apply andb_true_iff in C. destruct C as [_ C]. apply Z.eqb_eq in C. injection E as <-.
        destruct HI as [H1 H2 H3 H4 H5 H6 H7 H8 H9].
        constructor; unfold reserved, published, nhist, inflights, returned, claimed in *;
          cbn [log set_pc set_ring c_ring c_heads c_threads c_hist c_starts c_claims c_events
               reserved_tail published_tail slots]; auto; try lia.
        -- pose proof (flat_map_upd inflight t (EnqPublish rt x) Idle (c_threads s) Ht) as P.
           cbn [inflight] in P. rewrite app_nil_r in P. rewrite H5 in P.
           rewrite C, zseq_cons in P by lia.
           replace (Z.to_nat (reserved_tail (c_ring s) - (rt + 1)))
             with (Z.to_nat (reserved_tail (c_ring s) - rt) - 1)%nat by lia.
           apply (Permutation_cons_inv (a := rt)). rewrite <- P. apply Permutation_cons_append.
        -- intros c. specialize (H6 c). destruct (nth_error (c_starts s) c), (nth_error (c_heads s) c); auto.
           destruct H6 as (K1 & K2 & K3). repeat split; auto; lia.
        -- eapply (pcs_upd s); [exact Ht| |exact H7|exact I].
           apply grows_same; try reflexivity; unfold published; cbn; lia.
        -- intros c. rewrite flat_map_app. cbn [flat_map ret1 app]. rewrite app_nil_r.
           rewrite (flat_map_upd_same (checking c) t (EnqPublish rt x)); auto.
        -- rewrite flat_map_app, H9, C. cbn [flat_map enq1 app].
           replace (Z.to_nat (rt + 1)) with (S (Z.to_nat rt)) by lia.
           rewrite zseq_snoc. destruct Hp as [Hp Hp0].
           assert (LT : (Z.to_nat rt < length (c_hist s))%nat) by (apply nth_error_Some; congruence).
           assert (FN : firstn (S (Z.to_nat rt)) (c_hist s) = firstn (Z.to_nat rt) (c_hist s) ++ [x]).
           { clear -Hp. revert Hp. generalize (Z.to_nat rt), (c_hist s).
             induction n as [|n IH]; intros [|y l] N; cbn in N; try discriminate.
             - injection N as ->. reflexivity.
             - rewrite !firstn_cons, (IH l N). reflexivity. }
           rewrite FN.
           assert (CA : forall (l1 : list Z) (m1 : list A) a b, length l1 = length m1 ->
                     combine (l1 ++ [a]) (m1 ++ [b]) = combine l1 m1 ++ [(a, b)]).
           { induction l1 as [|u l1 IH]; intros [|v m1] a b0 Hl; cbn in Hl; try discriminate; auto.
             cbn [app combine]. rewrite IH by lia. reflexivity. }
           rewrite CA by (rewrite zseq_length, firstn_length; lia).
           rewrite Z2Nat.id by lia. replace (0 + rt) with rt by lia. reflexivity.
      * destruct (Z.gtb_spec (published_tail (c_ring s)) rt) as [G|G];
          [unfold published in RR; lia|]. injection E as <-. exact HI.
    + (* DeqLoadHead *)
      destruct Hp as (st & cur & Hc). pose proof Hc as [Hc1 Hc2]. rewrite Hc2 in E. injection E as <-.
      eapply Inv_set_pc; eauto. cbn [pc_ok]. exists st, cur. split; [exact Hc|].
      destruct (I_cpos sz s c st cur HI Hc). lia.
    + (* DeqLoadTail *)
      destruct Hp as (st & cur & Hc & Hh).
      destruct (Z.gtb_spec h (published_tail (c_ring s))) as [G|G].
      { injection E as <-. eapply Inv_set_pc; eauto. cbn [pc_ok]. eauto. }
      destruct (Z.eqb_spec h (published_tail (c_ring s))) as [G'|G'].
      { injection E as <-. eapply Inv_log; eauto. }
      injection E as <-. eapply Inv_set_pc; eauto. cbn [pc_ok]. exists st, cur.
      split; [exact Hc|]. split; [exact Hh|]. unfold published. lia.
    + (* DeqCas *)
      destruct Hp as (st & cur & Hc & Hh & Hpub). pose proof Hc as [Hc1 Hc2]. rewrite Hc2 in E.
      destruct (I_cpos sz s c st cur HI Hc) as (K1 & K2 & K3).
      unfold u32_add in E. rewrite checked_in in E by (rewrite two32_val in *; lia).
      destruct (negb sp && (cur =? h)) eqn:C.
      * apply andb_true_iff in C. destruct C as [_ C]. apply Z.eqb_eq in C. injection E as <-. subst cur.
        destruct HI as [H1 H2 H3 H4 H5 H6 H7 H8 H9].
        assert (CL : forall c', flat_map (fun q => if Nat.eqb (fst q) c' then [snd q] else []) (c_claims s ++ [(c, h)])
                    = claimed c' s ++ (if Nat.eqb c c' then [h] else [])).
        { intros c'. rewrite flat_map_app. cbn [flat_map fst snd]. rewrite app_nil_r. reflexivity. }
        constructor; unfold reserved, published, nhist, inflights, returned in *;
          cbn [claim set_pc c_ring c_heads c_threads c_hist c_starts c_claims c_events]; auto.
        -- rewrite (flat_map_upd_same inflight t (DeqCas c h)); auto.
        -- intros c'. unfold claimed. cbn [claim set_pc c_claims]. rewrite CL. specialize (H6 c').
           destruct (Nat.eqb_spec c c') as [<-|N].
           ++ rewrite (nth_error_upd_same _ _ h) by exact Hc2. rewrite Hc1 in *. rewrite Hc2 in H6.
              destruct H6 as (_ & _ & H6). repeat split; try lia. rewrite H6.
              replace (Z.to_nat (h + 1 - st)) with (S (Z.to_nat (h - st))) by lia.
              rewrite zseq_snoc. f_equal. rewrite Z2Nat.id by lia. f_equal. lia.
           ++ rewrite nth_error_upd_neq by exact N. rewrite app_nil_r. exact H6.
        -- eapply (pcs_upd s); [exact Ht| |exact H7|].
           ++ split; [unfold published; cbn; lia|]. split; [exists []; cbn; rewrite app_nil_r; reflexivity|].
              intros c' st' cur' [M1 M2]. unfold cpos. cbn [claim set_pc c_starts c_heads].
              destruct (Nat.eq_dec c c') as [<-|N].
              ** exists (h + 1). split; [split; [exact M1|]|].
                 --- apply (nth_error_upd_same _ _ h). exact Hc2.
                 --- rewrite Hc2 in M2. injection M2 as <-. lia.
              ** exists cur'. split; [split; [exact M1|]|lia]. rewrite nth_error_upd_neq by exact N. exact M2.
           ++ cbn [pc_ok]. exists st, (h + 1). unfold cpos. cbn [claim set_pc c_starts c_heads].
              split; [split; [exact Hc1|apply (nth_error_upd_same _ _ h); exact Hc2]|lia].
        -- intros c'. unfold claimed. cbn [claim set_pc c_claims]. rewrite CL. rewrite <- (H8 c').
           rewrite <- app_assoc. apply Permutation_app_head.
           pose proof (flat_map_upd (checking c') t (DeqCas c h) (DeqCheck c h) (c_threads s) Ht) as P.
           cbn [checking] in P. rewrite app_nil_r in P. exact P.
      * injection E as <-. eapply Inv_set_pc; eauto. cbn [pc_ok]. exists st, cur. split; [exact Hc|lia].
    + (* DeqCheck *)
      destruct Hp as (st & cur & Hc & Hh).
      destruct (I_cpos sz s c st cur HI Hc) as (K1 & K2 & K3).
      unfold u32_sub in E. rewrite checked_in in E by (unfold published, reserved, nhist in *; rewrite two32_val in *; lia).
      destruct (_ >? _).
      { injection E as <-. eapply Inv_log; eauto. }
      destruct (nth_error (slots (c_ring s)) (slot_index (c_ring s) h)) as [o|] eqn:N.
      { injection E as <-. eapply Inv_log; eauto. }
      exfalso. apply nth_error_None in N. unfold slot_index, size in N. rewrite HL in N.
      pose proof (Z.mod_pos_bound h (Z.of_nat sz) ltac:(lia)). lia.
    + (* PeekLoadHead *)
      destruct Hp as (st & cur & Hc). pose proof Hc as [Hc1 Hc2]. rewrite Hc2 in E. injection E as <-.
      eapply Inv_set_pc; eauto. cbn [pc_ok]. exists st, cur. split; [exact Hc|].
      destruct (I_cpos sz s c st cur HI Hc). lia.
    + (* PeekLoadTail *)
      destruct Hp as (st & cur & Hc & Hh).
      destruct (peek_event_ok sz s c h st cur HS HSB HI Hc Hh) as (e & Ee & R1 & R2). rewrite Ee in E.
      injection E as <-. eapply Inv_log; eauto.
    + (* ConsLoad *)
      injection E as <-. destruct HI as [H1 H2 H3 H4 H5 H6 H7 H8 H9].
      assert (LEN : length (c_starts s) = length (c_heads s)).
      { pose proof (H6 (length (c_starts s))) as K. pose proof (H6 (length (c_heads s))) as K'.
        rewrite (proj2 (nth_error_None (c_starts s) _)) in K by lia.
        rewrite (proj2 (nth_error_None (c_heads s) _)) in K' by lia.
        destruct (nth_error (c_heads s) (length (c_starts s))) eqn:Q; [contradiction|].
        destruct (nth_error (c_starts s) (length (c_heads s))) eqn:Q'; [contradiction|].
        apply nth_error_None in Q, Q'. lia. }
      constructor; unfold reserved, published, nhist, inflights, returned, claimed in *;
        cbn [add_consumer set_pc c_ring c_heads c_threads c_hist c_starts c_claims c_events]; auto.
      * rewrite (flat_map_upd_same inflight t ConsLoad); auto.
      * intros c. specialize (H6 c). rewrite !RingSeq.nth_error_app, LEN.
        destruct (Nat.ltb_spec c (length (c_heads s))) as [L|L]; [exact H6|].
        rewrite (proj2 (nth_error_None (c_starts s) _)) in H6 by lia.
        rewrite (proj2 (nth_error_None (c_heads s) _)) in H6 by lia.
        destruct (c - length (c_heads s))%nat as [|k]; cbn [nth_error].
        -- unfold consumer. rewrite Z.sub_diag. cbn [Z.to_nat zseq]. repeat split; auto; lia.
        -- destruct k; exact H6.
      * eapply (pcs_upd s); [exact Ht| |exact H7|exact I].
        split; [unfold published; cbn; lia|]. split; [exists []; cbn; rewrite app_nil_r; reflexivity|].
        intros c st cur [M1 M2]. exists cur. unfold cpos. cbn [add_consumer set_pc c_starts c_heads].
        assert (c < length (c_starts s))%nat by (apply nth_error_Some; congruence).
        split; [split; rewrite nth_error_app1; auto; lia|lia].
      * intros c. rewrite flat_map_app. cbn [flat_map ret1 app]. rewrite app_nil_r.
        rewrite (flat_map_upd_same (checking c) t ConsLoad); auto.
      * rewrite flat_map_app. cbn [flat_map enq1 app]. rewrite app_nil_r. exact H9.
Qed.

Lemma crun_hist (s : cstate) sched s' : crun bld s sched = Some s' -> exists l, c_hist s' = c_hist s ++ l.
Proof.
  revert s; induction sched as [|a rest IH]; intros s E; cbn [crun] in E.
  - injection E as <-. exists []. rewrite app_nil_r. reflexivity.
  - destruct (cstep bld s a) as [s1|] eqn:E1; try discriminate.
    destruct (hist_mono s a s1 E1) as (l1 & H1). destruct (IH s1 E) as (l2 & H2).
    exists (l1 ++ l2). rewrite H2, H1, app_assoc. reflexivity.
Qed.

Lemma crun_ind (P : cstate -> Prop) sz n : (1 <= sz)%nat -> Z.of_nat sz < two32 ->
  P (cinit sz n) ->
  (forall s a s', Inv sz s -> P s -> cstep bld s a = Some s' -> Inv sz s' -> P s') ->
  forall sched s', crun bld (cinit sz n) sched = Some s' -> nhist s' < two32 -> Inv sz s' /\ P s'.
Proof.
  intros HS HSB H0 HStep sched.
  assert (G : forall s, Inv sz s -> P s -> forall s', crun bld s sched = Some s' -> nhist s' < two32 -> Inv sz s' /\ P s').
  { induction sched as [|a rest IH]; intros s HI HP s' E HB; cbn [crun] in E.
    - injection E as <-. auto.
    - destruct (cstep bld s a) as [s1|] eqn:E1; try discriminate.
      assert (HB1 : nhist s1 < two32).
      { destruct (crun_hist s1 rest s' E) as (l & Hl). unfold nhist in *. rewrite Hl, app_length in HB. lia. }
      pose proof (Inv_step sz s a s1 HS HSB HI E1 HB1) as HI1. eapply (IH s1); [exact HI1|exact (HStep s a s1 HI HP E1 HI1)|exact E|exact HB]. }
  intros s'. apply G; auto using Inv_init.
Qed.

Lemma Inv_reachable sz n sched s : (1 <= sz)%nat -> Z.of_nat sz < two32 ->
  crun bld (cinit sz n) sched = Some s -> nhist s < two32 -> Inv sz s.
Proof.
  intros HS HSB E HB. destruct (crun_ind (fun _ => True) sz n HS HSB I (fun _ _ _ _ _ _ _ => I) sched s E HB); auto.
Qed.
End Conc.
