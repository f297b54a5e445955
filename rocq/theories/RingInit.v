(** * No uninitialised slot is ever returned, with any number of threads. *)
From Coq Require Import List ZArith Lia Bool Arith Permutation.
From Coq Require Import ZifyBool ZifyNat ZifyN.
From Verif Require Import Machine Ring RingSpec RingSeq RingConc RingConc2 RingConc3.
Import ListNotations.
Open Scope Z_scope.

Section Init.
Context {A : Type}.
Variable bld : build.
Notation cstate := (cstate A).

Definition InitInv (sz : nat) (s : cstate) : Prop :=
  forall i, (i < length (c_hist s))%nat ->
    (forall t y, nth_error (c_threads s) t <> Some (EnqWrite (Z.of_nat i) y)) ->
    exists x, nth_error (slots (c_ring s)) (i mod sz) = Some (Some x).

Lemma init_quiet sz s s' t p p' : InitInv sz s -> nth_error (c_threads s) t = Some p -> writing p = false ->
  c_hist s' = c_hist s -> slots (c_ring s') = slots (c_ring s) -> c_threads s' = upd t p' (c_threads s) ->
  InitInv sz s'.
Proof.
  intros HS Ht Hw E1 E2 E3 i Hl Hn. rewrite E1 in Hl. rewrite E2. apply HS; auto.
  intros t0 y H0. destruct (Nat.eq_dec t t0) as [<-|N].
  - rewrite Ht in H0. injection H0 as ->. discriminate.
  - apply (Hn t0 y). rewrite E3, nth_error_upd_neq by exact N. exact H0.
Qed.

Lemma InitInv_step sz (s : cstate) a s' : (1 <= sz)%nat ->
  Inv sz s -> InitInv sz s -> cstep bld s a = Some s' -> InitInv sz s'.
Proof.
  intros HS HI HSl E.
  pose proof (I_res sz s HI) as HR. pose proof (I_len sz s HI) as HL.
  destruct a as [t op|t sp]; cbn [cstep] in E.
  - destruct (nth_error (c_threads s) t) as [[]|] eqn:Ht; try discriminate.
    destruct (cop_ok _ _); try discriminate. injection E as <-.
    eapply init_quiet; eauto; reflexivity.
  - destruct (nth_error (c_threads s) t) as [p|] eqn:Ht; try discriminate.
    destruct p as [|x|rt x|rt x|c|c h|c h|c h|c|c h| |q]; cbn [thread_step] in E; try discriminate;
    try (repeat match type of E with
    | match ?x with _ => _ end = _ => destruct x; try discriminate
    | (if ?x then _ else _) = _ => destruct x; try discriminate
    end; injection E as <-; eapply init_quiet; eauto; reflexivity).
    + injection E as <-. intros i Hl Hn.
      cbn [set_pc push_hist set_ring c_hist c_threads c_ring slots] in *.
      rewrite app_length in Hl. cbn [length] in Hl.
      assert (Hne : i <> length (c_hist s)).
      { intros ->. apply (Hn t x). rewrite (nth_error_upd_same _ _ (EnqReserve x)) by exact Ht.
        do 2 f_equal. unfold reserved, nhist in HR. exact HR. }
      apply HSl; [lia|]. intros t0 z H0. destruct (Nat.eq_dec t t0) as [<-|N].
      * rewrite Ht in H0. discriminate.
      * apply (Hn t0 z). rewrite nth_error_upd_neq by exact N. exact H0.
    + injection E as <-. intros i Hl Hn.
      cbn [set_pc set_ring store c_hist c_threads c_ring slots] in *.
      destruct (I_pcs sz s HI t _ Ht) as [Hx H0].
      assert (Ert : rt = Z.of_nat (Z.to_nat rt)) by lia.
      rewrite Ert, slot_index_nat, HL.
      rewrite nth_error_upd, HL. pose proof (Nat.mod_upper_bound (Z.to_nat rt) sz ltac:(lia)) as BM.
      destruct (Nat.eqb_spec (Z.to_nat rt mod sz) (i mod sz)) as [Q|Q].
      * destruct (Nat.ltb_spec (Z.to_nat rt mod sz) sz); [|lia]. eauto.
      * apply HSl; auto. intros t0 z H1. destruct (Nat.eq_dec t t0) as [<-|N].
        -- rewrite Ht in H1. injection H1 as H1 _. apply Q. f_equal. lia.
        -- apply (Hn t0 z). rewrite nth_error_upd_neq by exact N. exact H1.
    + destruct (u32_add bld rt 1); try discriminate.
      * destruct (negb sp && _).
        { injection E as <-. eapply init_quiet; eauto; reflexivity. }
        destruct (_ >? _); injection E as <-; [eapply init_quiet; eauto; reflexivity|exact HSl].
      * injection E as <-. eapply init_quiet; eauto; reflexivity.
Qed.

Lemma init_published sz (s : cstate) i : (1 <= sz)%nat -> Inv sz s -> InitInv sz s ->
  Z.of_nat i < published s -> exists x, nth_error (slots (c_ring s)) (i mod sz) = Some (Some x).
Proof.
  intros HS HI HSl Hp. pose proof (I_pub sz s HI). pose proof (I_res sz s HI). unfold nhist in *.
  apply HSl; [lia|]. intros t y Ht.
  assert (IN : In (Z.of_nat i) (inflights s)) by (eapply in_inflights; [exact Ht|left; reflexivity]).
  pose proof (inflight_range sz s _ HI IN). lia.
Qed.

(** no uninitialised content *)
Definition ev_init (e : event A) : Prop :=
  match e with
  | EvElement _ _ o => o <> None
  | EvPeeked _ _ _ _ cs => ~ In None cs
  | _ => True
  end.

Lemma init_events_step sz (s : cstate) a s' : (1 <= sz)%nat -> Z.of_nat sz < two32 -> Inv sz s -> InitInv sz s ->
  cstep bld s a = Some s' -> exists es, c_events s' = c_events s ++ es /\ Forall ev_init es.
Proof.
  intros HS HSB HI HSl E. destruct a as [t op|t sp]; cbn [cstep] in E.
  - destruct (nth_error (c_threads s) t) as [[]|]; try discriminate. destruct (cop_ok _ _); try discriminate.
    injection E as <-. exists []. rewrite app_nil_r. split; [reflexivity|constructor].
  - destruct (nth_error (c_threads s) t) as [p|] eqn:Ht; try discriminate.
    pose proof (I_pcs sz s HI t p Ht) as Hp.
    pose proof (I_len sz s HI) as HL. pose proof (I_bound sz s HI) as HBo. pose proof (I_pub sz s HI) as HP.
    pose proof (I_res sz s HI) as HR.
    assert (N0 : exists es : list (event A), c_events s = c_events s ++ es /\ Forall ev_init es)
      by (exists []; rewrite app_nil_r; split; [reflexivity|constructor]).
    destruct p as [|x|rt x|rt x|c|c h|c h|c h|c|c h| |q]; cbn [thread_step] in E; try discriminate;
    try (repeat match type of E with
    | match ?x with _ => _ end = _ => destruct x; try discriminate
    | (if ?x then _ else _) = _ => destruct x; try discriminate
    end; injection E as <-; exact N0).
    + destruct (u32_add bld rt 1); try discriminate.
      * destruct (negb sp && _).
        { injection E as <-. eexists. split; [reflexivity|]. repeat constructor. }
        destruct (_ >? _); injection E as <-; exact N0.
      * injection E as <-. exact N0.
    + repeat match type of E with (if ?x then _ else _) = _ => destruct x end; injection E as <-; try exact N0.
      eexists. split; [reflexivity|]. repeat constructor.
    + destruct Hp as (st & cur & Hc & Hh). destruct (I_cpos sz s c st cur HI Hc) as (K1 & K2 & K3).
      destruct (u32_sub bld (reserved_tail (c_ring s)) h); try discriminate; [|injection E as <-; exact N0].
      destruct (_ >? _).
      { injection E as <-. eexists. split; [reflexivity|]. repeat constructor. }
      destruct (nth_error (slots (c_ring s)) (slot_index (c_ring s) h)) as [o|] eqn:N.
      * injection E as <-. eexists. split; [reflexivity|]. constructor; [|constructor]. cbn [ev_init].
        assert (Eh : h = Z.of_nat (Z.to_nat h)) by lia.
        rewrite Eh, slot_index_nat, HL in N.
        destruct (init_published sz s (Z.to_nat h) HS HI HSl) as (x & Hx); [lia|]. rewrite Hx in N. congruence.
      * injection E as <-. exact N0.
    + destruct Hp as (st & cur & Hc & Hh). destruct (I_cpos sz s c st cur HI Hc) as (H1 & H2 & _).
      destruct (peek_event bld (c_ring s) c h) as [e| |] eqn:Ee; try discriminate; injection E as <-; [|exact N0].
      eexists. split; [reflexivity|]. constructor; [|constructor].
      destruct (peek_all_spec bld (c_ring s) (Z.to_nat h) (Z.to_nat (published s - h))) as (s1 & s2 & E1 & E2); try lia.
      { unfold published. rewrite Nat2Z.inj_add, !Z2Nat.id by lia. unfold published in *. lia. }
      rewrite Z2Nat.id in E1 by lia. unfold peek_event in Ee. rewrite E1 in Ee. cbn [bind] in Ee. rewrite HL in *.
      destruct (Nat.ltb_spec sz (Z.to_nat (published s - h))) as [L|L]; injection Ee as <-; cbn [ev_init]; [exact I|].
      rewrite E2 by lia. intros HIn. apply in_map_iff in HIn. destruct HIn as (i & Hi & Hs). apply in_seq in Hs.
      destruct (init_published sz s i HS HI HSl) as (x & Hx); [lia|]. rewrite Hx in Hi. discriminate.
    + injection E as <-. eexists. split; [reflexivity|]. repeat constructor.
Qed.

Lemma no_uninit sz n sched (s : cstate) : (1 <= sz)%nat -> Z.of_nat sz < two32 ->
  crun bld (cinit sz n) sched = Some s -> Z.of_nat (length (started sched)) < two32 ->
  Forall ev_init (c_events s).
Proof.
  intros HS HSB E HB0. pose proof (nhist_started bld sz n sched s E HB0) as HB.
  destruct (crun_ind bld (fun s => InitInv sz s /\ Forall ev_init (c_events s)) sz n HS HSB) with (sched := sched) (s' := s)
    as (_ & _ & H); auto.
  - split; [|constructor]. intros i Hi. cbn in Hi. lia.
  - intros s0 a s1 HI (H1 & H2) Es HI1. split; [exact (InitInv_step sz s0 a s1 HS HI H1 Es)|].
    destruct (init_events_step sz s0 a s1 HS HSB HI H1 Es) as (es & EQ & HF). rewrite EQ. apply Forall_app. auto.
Qed.
End Init.
