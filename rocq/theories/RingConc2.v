(** * Slot contents, returned elements and progress in the concurrent ring. *)
From Coq Require Import List ZArith Lia Bool Arith Permutation.
From Coq Require Import ZifyBool ZifyNat ZifyN.
From Verif Require Import Machine Ring RingSpec RingSeq RingConc.
Import ListNotations.
Open Scope Z_scope.

Section Conc2.
Context {A : Type}.
Variable bld : build.
Notation cstate := (cstate A).
Notation pc := (pc A).

(** every position of the window that nobody is about to write holds its element *)
Definition SlotInv (sz : nat) (s : cstate) : Prop :=
  forall i x, nth_error (c_hist s) i = Some x -> (length (c_hist s) <= i + sz)%nat ->
    (forall t y, nth_error (c_threads s) t <> Some (EnqWrite (Z.of_nat i) y)) ->
    nth_error (slots (c_ring s)) (i mod sz) = Some (Some x).

Definition writing (p : pc) : bool := match p with EnqWrite _ _ => true | _ => false end.

Lemma slot_quiet sz s s' t p p' : SlotInv sz s -> nth_error (c_threads s) t = Some p -> writing p = false ->
  c_hist s' = c_hist s -> slots (c_ring s') = slots (c_ring s) -> c_threads s' = upd t p' (c_threads s) ->
  SlotInv sz s'.
Proof.
  intros HS Ht Hw E1 E2 E3 i x Hi Hl Hn. rewrite E1 in Hi, Hl. rewrite E2. apply HS; auto.
  intros t0 y H0. destruct (Nat.eq_dec t t0) as [<-|N].
  - rewrite Ht in H0. injection H0 as ->. discriminate.
  - apply (Hn t0 y). rewrite E3, nth_error_upd_neq by exact N. exact H0.
Qed.

Lemma inflights_le sz (s : cstate) : Inv sz s -> reserved s - published s <= Z.of_nat (length (c_threads s)).
Proof.
  intros HI. pose proof (Permutation_length (I_perm sz s HI)) as P. rewrite zseq_length in P.
  pose proof (flat_map_length_le inflight (c_threads s)) as L. unfold inflights in P.
  assert (forall x : pc, (length (inflight x) <= 1)%nat) by (intros []; cbn; lia).
  specialize (L H). lia.
Qed.

(** the number of threads never changes *)
Lemma threads_len (s : cstate) a s' : cstep bld s a = Some s' -> length (c_threads s') = length (c_threads s).
Proof.
  destruct a as [t op|t sp]; cbn [cstep].
  - destruct (nth_error _ _) as [[]|]; try discriminate. destruct (cop_ok _ _); try discriminate.
    intros E; injection E as <-. apply upd_length.
  - destruct (nth_error _ _) as [p|]; try discriminate.
    destruct p; cbn [thread_step]; intros E; try discriminate;
    repeat match type of E with
    | match ?x with _ => _ end = _ => destruct x; try discriminate
    | (if ?x then _ else _) = _ => destruct x; try discriminate
    end; injection E as <-; cbn [log set_pc claim add_consumer set_ring push_hist c_threads]; rewrite ?upd_length; reflexivity.
Qed.

Lemma upd_self {X} t (p : X) l : nth_error l t = Some p -> upd t p l = l.
Proof.
  revert t; induction l as [|y l IH]; intros [|t] H; cbn in *; try discriminate; auto.
  - injection H as ->; reflexivity.
  - f_equal; auto.
Qed.

Lemma SlotInv_step sz (s : cstate) a s' : (1 <= sz)%nat -> (length (c_threads s) <= sz)%nat ->
  Inv sz s -> SlotInv sz s -> cstep bld s a = Some s' -> SlotInv sz s'.
Proof.
  intros HS HT HI HSl E. pose proof (inflights_le sz s HI) as HW.
  pose proof (I_res sz s HI) as HR. pose proof (I_len sz s HI) as HL.
  destruct a as [t op|t sp]; cbn [cstep] in E.
  - destruct (nth_error (c_threads s) t) as [[]|] eqn:Ht; try discriminate.
    destruct (cop_ok _ _); try discriminate. injection E as <-.
    eapply slot_quiet; eauto; reflexivity.
  - destruct (nth_error (c_threads s) t) as [p|] eqn:Ht; try discriminate.
    destruct p as [|x|rt x|rt x|c|c h|c h|c h|c|c h| |q]; cbn [thread_step] in E; try discriminate;
    try (repeat match type of E with
    | match ?x with _ => _ end = _ => destruct x; try discriminate
    | (if ?x then _ else _) = _ => destruct x; try discriminate
    end; injection E as <-; eapply slot_quiet; eauto; reflexivity).
    + (* reserve *)
      injection E as <-. intros i y Hi Hl Hn.
      cbn [set_pc push_hist set_ring c_hist c_threads c_ring slots] in *.
      rewrite app_length in Hl. cbn [length] in Hl.
      assert (Hne : i <> length (c_hist s)).
      { intros ->. apply (Hn t x). rewrite (nth_error_upd_same _ _ (EnqReserve x)) by exact Ht.
        do 2 f_equal. unfold reserved, nhist in HR. exact HR. }
      assert (Hi' : nth_error (c_hist s) i = Some y).
      { rewrite RingSeq.nth_error_app in Hi. destruct (Nat.ltb_spec i (length (c_hist s))); [exact Hi|].
        destruct (i - length (c_hist s))%nat as [|k] eqn:K; [lia|]. cbn in Hi. destruct k; discriminate. }
      apply HSl; auto; [lia|]. intros t0 z H0. destruct (Nat.eq_dec t t0) as [<-|N].
      * rewrite Ht in H0. discriminate.
      * apply (Hn t0 z). rewrite nth_error_upd_neq by exact N. exact H0.
    + (* write *)
      injection E as <-. intros i y Hi Hl Hn.
      cbn [set_pc set_ring store c_hist c_threads c_ring slots] in *.
      assert (IN : In rt (inflights s)) by (eapply in_inflights; [exact Ht|left; reflexivity]).
      pose proof (inflight_range sz s rt HI IN) as RR.
      destruct (I_pcs sz s HI t _ Ht) as [Hx H0]. 
      assert (Ert : rt = Z.of_nat (Z.to_nat rt)) by lia.
      rewrite Ert, slot_index_nat, HL. unfold nhist in HR.
      assert (Hi2 : (i < length (c_hist s))%nat) by (apply nth_error_Some; congruence).
      rewrite nth_error_upd, HL. pose proof (Nat.mod_upper_bound (Z.to_nat rt) sz ltac:(lia)) as BM.
      destruct (Nat.eqb_spec (Z.to_nat rt mod sz) (i mod sz)) as [Q|Q].
      * destruct (Nat.ltb_spec (Z.to_nat rt mod sz) sz); [|lia].
        assert (i = Z.to_nat rt).
        { destruct (Nat.le_ge_cases i (Z.to_nat rt)).
          - apply mod_inj_window with sz; lia.
          - symmetry; apply mod_inj_window with sz; lia. }
        subst i. congruence.
      * apply HSl; auto. intros t0 z H1. destruct (Nat.eq_dec t t0) as [<-|N].
        -- rewrite Ht in H1. injection H1 as H1 _. apply Q. f_equal. lia.
        -- apply (Hn t0 z). rewrite nth_error_upd_neq by exact N. exact H1.
    + (* publish *)
      destruct (u32_add bld rt 1); try discriminate.
      * destruct (negb sp && _).
        { injection E as <-. eapply slot_quiet; eauto; reflexivity. }
        destruct (_ >? _); injection E as <-; [eapply slot_quiet; eauto; reflexivity|exact HSl].
      * injection E as <-. eapply slot_quiet; eauto; reflexivity.
Qed.

(** a published position holds its element while it is inside the window *)
Lemma slot_published sz (s : cstate) i x : (1 <= sz)%nat -> Inv sz s -> SlotInv sz s ->
  Z.of_nat i < published s -> nth_error (c_hist s) i = Some x -> (length (c_hist s) <= i + sz)%nat ->
  nth_error (slots (c_ring s)) (i mod sz) = Some (Some x).
Proof.
  intros HS HI HSl Hp Hx Hl. apply HSl; auto. intros t y Ht.
  assert (IN : In (Z.of_nat i) (inflights s)) by (eapply in_inflights; [exact Ht|left; reflexivity]).
  pose proof (inflight_range sz s _ HI IN). lia.
Qed.

(** what each returned value says *)
Definition ev_ok (sz : nat) (hist : list A) (pub : Z) (e : event A) : Prop :=
  match e with
  | EvElement c pos content => 0 <= pos < pub /\
      exists x, nth_error hist (Z.to_nat pos) = Some x /\ content = Some x
  | EvOverflow c pos => 0 <= pos < pub /\ pos + Z.of_nat sz < Z.of_nat (length hist)
  | EvPeeked c head tail rsv contents =>
      0 <= head <= tail /\ tail <= pub /\ tail - head <= Z.of_nat sz /\ tail <= rsv <= Z.of_nat (length hist) /\
      (rsv <= head + Z.of_nat sz ->
       contents = map Some (firstn (Z.to_nat (tail - head)) (skipn (Z.to_nat head) hist)))
  | EvPeekOverflow c head tail => 0 <= head <= tail /\ tail <= pub /\ Z.of_nat sz < tail - head
  | _ => True
  end.

Lemma ev_ok_grows sz hist l pub pub' e : pub <= pub' ->
  ev_ok sz hist pub e -> ev_ok sz (hist ++ l) pub' e.
Proof.
  intros HP H. destruct e as [p x|c h|c|c p o|c p|c hd tl rs cs|c hd tl]; cbn [ev_ok] in *; auto.
  - destruct H as (H1 & x & Hx & Ho). split; [lia|]. exists x. split; [|exact Ho].
    rewrite nth_error_app1; [exact Hx|apply nth_error_Some; congruence].
  - rewrite app_length. lia.
  - destruct H as (H1 & H2 & H3 & H4 & H5). rewrite app_length. repeat split; try lia.
    intros Hr. rewrite (H5 Hr). f_equal. rewrite skipn_app, firstn_app, skipn_length.
    replace (Z.to_nat (tl - hd) - (length hist - Z.to_nat hd))%nat with 0%nat by lia.
    cbn [firstn]. rewrite app_nil_r. reflexivity.
  - lia.
Qed.

Lemma pub_mono sz (s : cstate) a s' : Inv sz s -> cstep bld s a = Some s' -> nhist s' < two32 -> published s <= published s'.
Proof.
  intros HI E HB. destruct a as [t op|t sp]; cbn [cstep] in E.
  - destruct (nth_error (c_threads s) t) as [[]|]; try discriminate. destruct (cop_ok _ _); try discriminate.
    injection E as <-. unfold published; cbn. lia.
  - destruct (nth_error (c_threads s) t) as [p|] eqn:Ht; try discriminate.
    destruct p as [|x|rt x|rt x|c|c h|c h|c h|c|c h| |q]; cbn [thread_step] in E; try discriminate;
    try (repeat match type of E with
    | match ?x with _ => _ end = _ => destruct x; try discriminate
    | (if ?x then _ else _) = _ => destruct x; try discriminate
    end; injection E as <-; unfold published; cbn; lia).
    assert (IN : In rt (inflights s)) by (eapply in_inflights; [exact Ht|left; reflexivity]).
    pose proof (inflight_range sz s rt HI IN) as RR. pose proof (I_res sz s HI). pose proof (I_bound sz s HI).
    pose proof (I_pub sz s HI).
    unfold u32_add in E. rewrite checked_in in E by (rewrite two32_val in *; lia).
    destruct (negb sp && (published_tail (c_ring s) =? rt)) eqn:C.
    + injection E as <-. unfold published in *; cbn. lia.
    + destruct (_ >? _); injection E as <-; unfold published; cbn; lia.
Qed.

(** a step's new event *)
Lemma peek_ev_ok sz (s : cstate) c h st cur e : (1 <= sz)%nat -> Z.of_nat sz < two32 ->
  Inv sz s -> SlotInv sz s -> cpos s c st cur -> st <= h <= cur ->
  peek_event bld (c_ring s) c h = Val e -> ev_ok sz (c_hist s) (published s) e.
Proof.
  intros HS HSB HI HSl Hc Hh E. destruct (I_cpos sz s c st cur HI Hc) as (H1 & H2 & _).
  pose proof (I_len sz s HI) as HL. pose proof (I_bound sz s HI) as HB. pose proof (I_pub sz s HI) as HP.
  pose proof (I_res sz s HI) as HR.
  destruct (peek_all_spec bld (c_ring s) (Z.to_nat h) (Z.to_nat (published s - h))) as (s1 & s2 & E1 & E2); try lia.
  { unfold published. rewrite Nat2Z.inj_add, !Z2Nat.id by lia. unfold published in *. lia. }
  rewrite Z2Nat.id in E1 by lia. unfold peek_event in E. rewrite E1 in E. cbn [bind] in E. rewrite HL in *.
  destruct (Nat.ltb_spec sz (Z.to_nat (published s - h))) as [L|L]; injection E as <-; cbn [ev_ok].
  - unfold published in *. lia.
  - fold (published s) (reserved s). unfold nhist in *. repeat split; try lia.
    intros Hr. rewrite E2 by lia. apply nth_error_ext. intros k.
    rewrite !nth_error_map, nth_error_firstn, nth_error_skipn.
    destruct (Nat.lt_ge_cases k (Z.to_nat (published s - h))) as [Lk|Lk].
    + rewrite (proj2 (Nat.ltb_lt _ _)) by exact Lk.
      rewrite (nth_error_nth' _ 0%nat) by (rewrite seq_length; exact Lk). rewrite seq_nth by exact Lk. cbn [option_map].
      destruct (nth_error (c_hist s) (Z.to_nat h + k)) as [x|] eqn:N; [|apply nth_error_None in N; lia].
      rewrite (slot_published sz s _ x HS HI HSl) by (try assumption; lia). reflexivity.
    + rewrite (proj2 (Nat.ltb_ge _ _)) by exact Lk.
      rewrite (proj2 (nth_error_None _ _)) by (rewrite seq_length; exact Lk). reflexivity.
Qed.

Lemma events_step sz (s : cstate) a s' : (1 <= sz)%nat -> Z.of_nat sz < two32 -> Inv sz s -> SlotInv sz s ->
  cstep bld s a = Some s' -> nhist s' < two32 ->
  exists es, c_events s' = c_events s ++ es /\ Forall (ev_ok sz (c_hist s) (published s)) es.
Proof.
  intros HS HSB HI HSl E HB. destruct a as [t op|t sp]; cbn [cstep] in E.
  - destruct (nth_error (c_threads s) t) as [[]|]; try discriminate. destruct (cop_ok _ _); try discriminate.
    injection E as <-. exists []. rewrite app_nil_r. split; [reflexivity|constructor].
  - destruct (nth_error (c_threads s) t) as [p|] eqn:Ht; try discriminate.
    pose proof (I_pcs sz s HI t p Ht) as Hp.
    assert (N0 : exists es : list (event A), c_events s = c_events s ++ es /\ Forall (ev_ok sz (c_hist s) (published s)) es)
      by (exists []; rewrite app_nil_r; split; [reflexivity|constructor]).
    destruct p as [|x|rt x|rt x|c|c h|c h|c h|c|c h| |q]; cbn [thread_step] in E; try discriminate;
    try (repeat match type of E with
    | match ?x with _ => _ end = _ => destruct x; try discriminate
    | (if ?x then _ else _) = _ => destruct x; try discriminate
    end; injection E as <-; exact N0).
    + destruct (u32_add bld rt 1); try discriminate.
      * destruct (negb sp && _).
        { injection E as <-. eexists. split; [reflexivity|]. repeat constructor. }
        destruct (_ >? _); injection E as <-; exact N0.
      * injection E as <-. exact N0.
    + repeat match type of E with (if ?x then _ else _) = _ => destruct x end; injection E as <-; try exact N0.
      eexists. split; [reflexivity|]. repeat constructor.
    + destruct Hp as (st & cur & Hc & Hh). destruct (I_cpos sz s c st cur HI Hc) as (K1 & K2 & K3).
      pose proof (I_len sz s HI) as HL. pose proof (I_bound sz s HI) as HBo. pose proof (I_pub sz s HI) as HP.
      pose proof (I_res sz s HI) as HR.
      unfold u32_sub in E. rewrite checked_in in E by (unfold published, reserved, nhist in *; rewrite two32_val in *; lia).
      unfold wrap32, size in E. rewrite HL, Z.mod_small in E by lia.
      destruct (Z.gtb_spec (reserved_tail (c_ring s) - h) (Z.of_nat sz)) as [G|G].
      { injection E as <-. eexists. split; [reflexivity|]. constructor; [|constructor]. cbn [ev_ok].
        unfold reserved, published, nhist in *. lia. }
      destruct (nth_error (slots (c_ring s)) (slot_index (c_ring s) h)) as [o|] eqn:N.
      * injection E as <-. eexists. split; [reflexivity|]. constructor; [|constructor]. cbn [ev_ok].
        assert (Eh : h = Z.of_nat (Z.to_nat h)) by lia.
        rewrite Eh, slot_index_nat, HL in N.
        destruct (nth_error (c_hist s) (Z.to_nat h)) as [x|] eqn:Nx.
        2:{ apply nth_error_None in Nx. unfold reserved, published, nhist in *. lia. }
        rewrite (slot_published sz s _ x HS HI HSl) in N
          by (try assumption; unfold reserved, published, nhist in *; lia).
        injection N as <-. split; [unfold published in *; lia|]. eauto.
      * injection E as <-. exact N0.
    + destruct Hp as (st & cur & Hc & Hh).
      destruct (peek_event bld (c_ring s) c h) as [e| |] eqn:Ee; try discriminate; injection E as <-; [|exact N0].
      eexists. split; [reflexivity|]. constructor; [|constructor]. eapply peek_ev_ok; eauto.
    + injection E as <-. eexists. split; [reflexivity|]. repeat constructor.
Qed.

Definition Inv2 (sz : nat) (s : cstate) : Prop :=
  (length (c_threads s) <= sz)%nat /\ SlotInv sz s /\
  Forall (ev_ok sz (c_hist s) (published s)) (c_events s).

Lemma Inv2_reachable sz n sched s : (1 <= sz)%nat -> Z.of_nat sz < two32 -> (n <= sz)%nat ->
  crun bld (cinit sz n) sched = Some s -> nhist s < two32 -> Inv sz s /\ Inv2 sz s.
Proof.
  intros HS HSB Hn. apply crun_ind; auto.
  - split; [cbn; rewrite repeat_length; exact Hn|]. split; [|constructor].
    intros i x H. cbn in H. destruct i; discriminate.
  - intros s0 a s1 HI (HT & HSl & HE) Es HI1. pose proof (I_bound sz s1 HI1) as HB.
    split; [rewrite (threads_len s0 a s1 Es); exact HT|].
    split; [eapply SlotInv_step; eauto|].
    destruct (events_step sz s0 a s1 HS HSB HI HSl Es HB) as (es & E1 & F1).
    destruct (hist_mono bld s0 a s1 Es) as (l & Hl).
    pose proof (pub_mono sz s0 a s1 HI Es HB) as HP.
    rewrite E1, Hl. apply Forall_app. split; (eapply Forall_impl; [|eassumption]; intros e He; eapply ev_ok_grows; eauto).
Qed.
End Conc2.
