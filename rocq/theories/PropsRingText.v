(** * C98: what the ring buffer's overflow errors say. *)
From Coq Require Import List ZArith Lia Bool Arith String Ascii.
From Verif Require Import Machine Ring RingSpec RingSeq RingConc RingConc2 RingConc3 Report CrudMsg TextProofs RingText.
Import ListNotations.
Open Scope Z_scope.

(** ** Specification *)
(** the error displayed for [tail], [head] and a ring of [sz] slots *)
Definition overflow_text (tail head : Z) (sz : nat) : string :=
  ("RingBufferOverflowError: Ring-Buffer overflow: published_tail=" ++ dec tail ++ ", head=" ++ dec head ++
   " -- tail could not be farther from head than the ring buffer size of " ++ dec (Z.of_nat sz))%string.
(** one thread: the error of a call, from the list of elements enqueued so far and the consumer's position in it *)
Definition expected_error {A} (sz : nat) (a : sstate A) (op : rop A) : option string :=
  match op with
  | Dequeue c | PeekAll c =>
      match nth_error (s_heads a) c with
      | Some h => if (sz <? length (s_hist a) - h)%nat then Some (overflow_text (Z.of_nat (length (s_hist a))) (Z.of_nat h) sz) else None
      | None => None
      end
  | _ => None
  end.
Fixpoint expected_errors {A} (sz : nat) (a : sstate A) (ops : list (rop A)) : list (option string) :=
  match ops with
  | [] => []
  | op :: rest => expected_error sz a op :: expected_errors sz (fst (sstep sz a op)) rest
  end.

(** ** One thread *)
Lemma overflow_text_eq {A} (r : ring A) tail head sz : length (slots r) = sz ->
  overflow_display (overflow_msg tail head (size r)) = overflow_text tail head sz.
Proof. intros <-. reflexivity. Qed.
Section Seq.
Context {A : Type}.
Lemma rstep_error_ok b sz (s : rstate A) a op : (0 < sz)%nat -> Z.of_nat sz < two32 -> rel sz s a ->
  Z.of_nat (length (s_hist (fst (sstep sz a op)))) < two32 -> rstep_error b s op = Val (expected_error sz a op).
Proof.
  intros HS HSB (HI & HH & HF) HB. pose proof HI as (HR & HP & HL & _).
  assert (POS : forall c h, nth_error (s_heads a) c = Some h -> (h <= length (s_hist a))%nat).
  { intros c h N. rewrite Forall_forall in HF. apply HF. eapply nth_error_In; exact N. }
  destruct op as [x| |c|c]; cbn [rstep_error expected_error]; try reflexivity; rewrite HH, nth_error_map;
    destruct (nth_error (s_heads a) c) as [h|] eqn:N; cbn [option_map]; try reflexivity; specialize (POS c h N).
  - assert (HB' : Z.of_nat (length (s_hist a)) < two32) by (cbn [sstep] in HB; rewrite N in HB; destruct (pending a h); exact HB).
    pose proof (dequeue_ok b sz (s_hist a) (rb s) h HS HSB HI HB' POS) as D. unfold dequeue in D. unfold dequeue_error. cbv zeta.
    destruct (Z.of_nat h >? published_tail (rb s)); [discriminate|].
    assert (SL : length (skipn h (s_hist a)) = (length (s_hist a) - h)%nat) by apply skipn_length.
    destruct (Z.of_nat h =? published_tail (rb s)) eqn:EQ.
    { apply Z.eqb_eq in EQ. destruct (Nat.ltb_spec sz (length (s_hist a) - h)); [exfalso; lia|reflexivity]. }
    destruct (u32_add b (Z.of_nat h) 1); cbn [bind] in D |- *; try discriminate.
    destruct (u32_sub b (reserved_tail (rb s)) (Z.of_nat h)) as [d| |]; cbn [bind] in D |- *; try discriminate.
    destruct (skipn h (s_hist a)) as [|y rest]; [destruct (d >? _); [discriminate|]; destruct (nth_error (slots (rb s)) _); discriminate|].
    rewrite SL in D.
    destruct (d >? wrap32 (size (rb s))).
    + destruct (Nat.ltb_spec sz (length (s_hist a) - h)) as [L|L]; [|discriminate]. rewrite HP. f_equal. f_equal. apply overflow_text_eq, HL.
    + destruct (nth_error (slots (rb s)) _); [|discriminate]. destruct (Nat.ltb_spec sz (length (s_hist a) - h)) as [L|L]; [discriminate|reflexivity].
  - assert (HB' : Z.of_nat (length (s_hist a)) < two32) by (cbn [sstep] in HB; rewrite N in HB; exact HB).
    unfold peek_error. cbv zeta. destruct (peek_ok b sz (s_hist a) (rb s) h HS HSB HI HB' POS) as (s1 & s2 & E1 & _). rewrite E1. cbn [bind].
    rewrite skipn_length. destruct (Nat.ltb_spec sz (length (s_hist a) - h)); [|reflexivity]. rewrite HP. f_equal. f_equal. apply overflow_text_eq, HL.
Qed.
Lemma rrun_errors_ok b sz ops : forall (s : rstate A) a, (0 < sz)%nat -> Z.of_nat sz < two32 -> rel sz s a ->
  Z.of_nat (length (s_hist a) + length (enqueued ops)) < two32 -> rrun_errors b s ops = Val (expected_errors sz a ops).
Proof.
  induction ops as [|op ops IH]; intros s a HS HSB R HB; cbn [rrun_errors expected_errors]; [reflexivity|].
  change (enqueued (op :: ops)) with (enqueued ([op] ++ ops)) in HB. unfold enqueued in HB. rewrite flat_map_app, app_length in HB. fold (enqueued [op]) (enqueued ops) in HB.
  assert (HB1 : Z.of_nat (length (s_hist (fst (sstep sz a op)))) < two32) by (rewrite sstep_hist, app_length; lia).
  rewrite (rstep_error_ok b sz s a op HS HSB R HB1). cbn [bind].
  destruct (rstep_refines b sz s a op HS HSB R HB1) as (s' & E & R'). rewrite E. cbn [bind fst].
  rewrite (IH s' (fst (sstep sz a op)) HS HSB R'); [reflexivity|]. rewrite sstep_hist, app_length. lia.
Qed.
End Seq.

(** Used by one thread: for every history of calls, the calls that fail are exactly those of
    consumers that are more than a ring behind, and the error says how many elements were
    enqueued, where the consumer was, and the size. *)
Theorem C98_errors_of_one_thread : forall (A : Type) (b : build) (sz : nat) (ops : list (rop A)),
  (1 <= sz)%nat -> Z.of_nat sz < two32 -> Z.of_nat (length (enqueued ops)) < two32 ->
  rrun_errors b (rinit sz) ops = Val (expected_errors sz sinit ops).
Proof. intros A b sz ops HS HSB HB. apply rrun_errors_ok; [lia|exact HSB|apply rel_init|cbn [sinit s_hist length]; exact HB]. Qed.
Print Assumptions C98_errors_of_one_thread.
(** a call is given an error iff it fails in the sense of C12 *)
Theorem C98_error_iff_overflow : forall (A : Type) (b : build) (sz : nat) (ops : list (rop A)),
  (1 <= sz)%nat -> Z.of_nat sz < two32 -> Z.of_nat (length (enqueued ops)) < two32 ->
  exists s' outs errors, rrun b (rinit sz) ops = Val (s', outs) /\ rrun_errors b (rinit sz) ops = Val errors /\
    Forall2 (fun o e => o = ROverflow <-> e <> None) outs errors.
Proof.
  intros A b sz ops HS HSB HB. destruct (fifo_refinement b sz ops HS HSB HB) as [s' E].
  exists s', (snd (srun sz sinit ops)), (expected_errors sz sinit ops). split; [exact E|]. split; [apply C98_errors_of_one_thread; assumption|].
  clear. generalize (@sinit A). induction ops as [|op ops IH]; intros a; cbn [srun expected_errors]; [constructor|].
  specialize (IH (fst (sstep sz a op))). destruct (sstep sz a op) as [a1 o] eqn:ES. cbn [fst] in *. destruct (srun sz a1 ops) as [a2 os]. cbn [snd] in *. constructor; [|exact IH].
  destruct op as [x| |c|c]; cbn [sstep expected_error] in ES |- *; try (injection ES as _ <-; split; [discriminate|congruence]);
    (destruct (nth_error (s_heads a) c) as [h|]; [|injection ES as _ <-; split; [discriminate|congruence]]); unfold pending in ES; pose proof (skipn_length h (s_hist a)) as SL.
  - destruct (skipn h (s_hist a)) as [|x rest]; injection ES as _ <-.
    + cbn [length] in SL. destruct (Nat.ltb_spec sz (length (s_hist a) - h)); [lia|]. split; [discriminate|congruence].
    + cbn [length] in SL; rewrite SL. destruct (Nat.ltb_spec sz (length (s_hist a) - h)); split; congruence.
  - injection ES as _ <-. rewrite SL. destruct (Nat.ltb_spec sz (length (s_hist a) - h)); split; congruence.
Qed.
Print Assumptions C98_error_iff_overflow.
Example C98_example :
  let ops := [NewConsumer; Enqueue 10%nat; Enqueue 20%nat; Enqueue 30%nat; PeekAll 0; Dequeue 0; Enqueue 40%nat; Enqueue 50%nat; Dequeue 0] in
  rrun_errors Debug (rinit 2) ops =
  Val [None; None; None; None;
       Some "RingBufferOverflowError: Ring-Buffer overflow: published_tail=3, head=0 -- tail could not be farther from head than the ring buffer size of 2"%string;
       Some "RingBufferOverflowError: Ring-Buffer overflow: published_tail=3, head=0 -- tail could not be farther from head than the ring buffer size of 2"%string;
       None; None;
       Some "RingBufferOverflowError: Ring-Buffer overflow: published_tail=5, head=1 -- tail could not be farther from head than the ring buffer size of 2"%string].
Proof. vm_compute. reflexivity. Qed.

(** ** The text can be read back *)
Theorem C98_unambiguous : forall tail head sz tail' head' sz', 0 <= tail -> 0 <= head -> 0 <= tail' -> 0 <= head' ->
  overflow_text tail head sz = overflow_text tail' head' sz' -> tail = tail' /\ head = head' /\ sz = sz'.
Proof.
  intros tail head sz tail' head' sz' H1 H2 H3 H4 E. unfold overflow_text in E. apply str_app_cancel in E.
  change (", head=" ++ ?d)%string with (String "," (" head=" ++ d)) in E.
  apply (split_char ",") in E; [|apply dec_free; reflexivity|apply dec_free; reflexivity]. destruct E as [E1 E]. apply str_app_cancel in E.
  change (" -- tail could not be farther from head than the ring buffer size of " ++ ?d)%string with (String " " ("-- tail could not be farther from head than the ring buffer size of " ++ d)) in E.
  apply (split_char " ") in E; [|apply dec_free; reflexivity|apply dec_free; reflexivity]. destruct E as [E2 E]. apply str_app_cancel in E.
  apply dec_inj in E1; [|assumption|assumption]. apply dec_inj in E2; [|assumption|assumption]. apply dec_inj in E; [|lia|lia]. split; [assumption|]. split; [assumption|lia].
Qed.
Print Assumptions C98_unambiguous.

(** ** Any number of threads *)
Lemma forall2_impl {X Y} (P Q : X -> Y -> Prop) l l' : (forall x y, P x y -> Q x y) -> Forall2 P l l' -> Forall2 Q l l'.
Proof. intros H. induction 1; constructor; auto. Qed.
Definition failed {A} (e : event A) : bool := match e with EvOverflow _ _ | EvPeekOverflow _ _ _ => true | _ => false end.
Section Conc.
Context {A : Type}.
Variable b : build.
Lemma trun_crun sched : forall (s s' : tstate A), trun b s sched = Some s' -> crun b (t_c s) sched = Some (t_c s').
Proof.
  induction sched as [|a sched IH]; intros s s' E; cbn [trun crun] in *; [injection E as <-; reflexivity|].
  unfold tstep in E. destruct (cstep b (t_c s) a) as [c'|] eqn:EC; [|discriminate]. destruct a; apply IH in E; exact E.
Qed.
Lemma crun_trun sched : forall (s : tstate A) c', crun b (t_c s) sched = Some c' -> exists s', trun b s sched = Some s' /\ t_c s' = c'.
Proof.
  induction sched as [|a sched IH]; intros s c' E; cbn [trun crun] in *; [injection E as <-; eauto|].
  unfold tstep. destruct (cstep b (t_c s) a) as [c1|] eqn:EC; [|discriminate]. destruct a; apply IH; exact E.
Qed.
(** the variable of a thread that is past line 118 of dequeue *)
Definition TInv (s : tstate A) : Prop :=
  length (t_tails s) = length (c_threads (t_c s)) /\
  forall t p, nth_error (c_threads (t_c s)) t = Some p ->
    match p with
    | DeqCas _ h | DeqCheck _ h => h < nth t (t_tails s) 0 <= published (t_c s)
    | _ => True
    end.
Definition told (s : tstate A) (e : event A) (x : nat * string) : Prop :=
  match e with
  | EvOverflow c head => fst x = c /\ exists tail, head < tail <= published (t_c s) /\ snd x = overflow_text tail head (length (slots (c_ring (t_c s))))
  | EvPeekOverflow c head tail => x = (c, overflow_text tail head (length (slots (c_ring (t_c s)))))
  | _ => False
  end.
Lemma nth_upd_same {X} t (x d : X) l : (t < length l)%nat -> nth t (upd t x l) d = x.
Proof. intros L. apply nth_error_nth. apply nth_error_upd_eq. exact L. Qed.
Lemma nth_upd_other {X} t t' (x d : X) l : t <> t' -> nth t' (upd t x l) d = nth t' l d.
Proof.
  intros N. revert t t' N. induction l as [|y l IH]; intros [|t] [|t'] N; cbn; auto; try congruence. 
Qed.
Lemma upd_length' {X} t (x : X) l : length (upd t x l) = length l.
Proof. revert t. induction l; intros [|t]; cbn; auto. Qed.

Lemma TInv_step sz s a s' : (1 <= sz)%nat -> Z.of_nat sz < two32 -> Inv sz (t_c s) -> Inv sz (t_c s') -> nhist (t_c s') < two32 ->
  TInv s -> Forall2 (told s) (filter failed (c_events (t_c s))) (t_errors s) -> tstep b s a = Some s' ->
  TInv s' /\ Forall2 (told s') (filter failed (c_events (t_c s'))) (t_errors s').
Proof.
  intros HS HSB HI HI' HB (TL & TP) TE E. unfold tstep in E. destruct (cstep b (t_c s) a) as [c'|] eqn:EC; [|discriminate].
  assert (ET : t_c s' = c') by (destruct a; injection E as <-; reflexivity). rewrite ET in HI', HB.
  pose proof (pub_mono b sz (t_c s) a c' HI EC HB) as PM.
  pose proof (I_len sz _ HI) as HL. pose proof (I_len sz _ HI') as HL'. pose proof (threads_len b _ _ _ EC) as TLEN.
  assert (TOLD : forall e x, told s e x -> told s' e x).
  { intros e x. unfold told. rewrite ET, HL, HL'. destruct e; auto. intros (H1 & tail & H2 & H3). split; [exact H1|]. exists tail. split; [lia|exact H3]. }
  assert (OTHER : forall t p, nth_error (c_threads (t_c s)) t = Some p -> match p with DeqCas _ h | DeqCheck _ h => h < nth t (t_tails s) 0 <= published c' | _ => True end).
  { intros t p H. specialize (TP t p H). destruct p; auto; lia. }
  destruct a as [t op|t sp].
  - injection E as <-. cbn [t_c t_tails t_errors]. cbn [cstep] in EC. destruct (nth_error (c_threads (t_c s)) t) as [[]|] eqn:NT; try discriminate.
    destruct (cop_ok _ _); [|discriminate]. injection EC as <-. split.
    + split; [cbn [t_c t_tails set_pc c_threads]; rewrite upd_length'; exact TL|]. cbn [t_c t_tails set_pc c_threads]. intros t' p H.
      rewrite nth_error_upd in H. destruct (Nat.eqb_spec t t') as [<-|N]; [destruct (_ <? _)%nat; [|discriminate]; injection H as <-; destruct op; exact I|]. exact (OTHER t' p H).
    + cbn [set_pc c_events]. eapply forall2_impl; [exact TOLD|exact TE].
  - injection E as <-. cbn [t_c t_tails t_errors] in *. cbn [cstep] in EC. destruct (nth_error (c_threads (t_c s)) t) as [p|] eqn:NT; [|discriminate].
    assert (LT : (t < length (c_threads (t_c s)))%nat) by (apply nth_error_Some; congruence).
    pose proof (TP t p NT) as TPt. pose proof (I_pcs sz _ HI t p NT) as PO.
    (* what the step does to the thread, the events and the threads' variables *)
    assert (KEY : exists p' es, c_threads c' = upd t p' (c_threads (t_c s)) /\ c_events c' = c_events (t_c s) ++ es /\
       (match p' with DeqCas _ h | DeqCheck _ h => h < nth t (read_tail (t_c s) t (t_tails s)) 0 <= published c' | _ => True end) /\
       Forall2 (told (TState c' (read_tail (t_c s) t (t_tails s)) (t_errors s ++ step_error b (t_c s) t (t_tails s)))) (filter failed es) (step_error b (t_c s) t (t_tails s))).
    { unfold read_tail, step_error. rewrite NT.
      assert (SELF : forall q, nth_error (c_threads (t_c s)) t = Some q -> c_threads (t_c s) = upd t q (c_threads (t_c s))) by (intros q Hq; symmetry; apply upd_self; exact Hq).
      destruct p as [|x|rt x|rt x|c|c h|c h|c h|c|c h| |q]; cbn [thread_step] in EC; try discriminate.
      - injection EC as <-. eexists. exists []. split; [reflexivity|]. split; [symmetry; apply app_nil_r|]. split; [exact I|constructor].
      - injection EC as <-. eexists. exists []. split; [reflexivity|]. split; [symmetry; apply app_nil_r|]. split; [exact I|constructor].
      - destruct (u32_add b rt 1) as [nxt|q|]; [| |discriminate].
        + destruct (negb sp && _); [injection EC as <-; eexists; eexists; split; [reflexivity|]; split; [reflexivity|]; split; [exact I|constructor]|].
          destruct (_ >? rt); injection EC as <-; [eexists; exists []; split; [reflexivity|]; split; [symmetry; apply app_nil_r|]; split; [exact I|constructor]|].
          exists (EnqPublish rt x), []. split; [apply SELF, NT|]. split; [symmetry; apply app_nil_r|]. split; [exact I|constructor].
        + injection EC as <-. eexists. exists []. split; [reflexivity|]. split; [symmetry; apply app_nil_r|]. split; [exact I|constructor].
      - destruct (nth_error (c_heads (t_c s)) c); [|discriminate]. injection EC as <-. eexists. exists []. split; [reflexivity|]. split; [symmetry; apply app_nil_r|]. split; [exact I|constructor].
      - destruct (Z.gtb_spec h (published_tail (c_ring (t_c s)))) as [G|G]; [injection EC as <-; eexists; exists []; split; [reflexivity|]; split; [symmetry; apply app_nil_r|]; split; [exact I|constructor]|].
        destruct (Z.eqb_spec h (published_tail (c_ring (t_c s)))) as [Q|Q]; injection EC as <-.
        + eexists. exists [EvNothing c]. split; [reflexivity|]. split; [reflexivity|]. split; [exact I|constructor].
        + eexists. exists []. split; [reflexivity|]. split; [symmetry; apply app_nil_r|]. split; [|constructor]. rewrite nth_upd_same by lia. unfold published. cbn [set_pc c_ring]. lia.
      - destruct (nth_error (c_heads (t_c s)) c) as [cur|]; [|discriminate]. destruct (u32_add b h 1) as [nxt|q|]; [| |discriminate].
        + destruct (negb sp && _); injection EC as <-; eexists; exists []; (split; [reflexivity|]); (split; [symmetry; apply app_nil_r|]); (split; [|constructor]); [|exact I]. exact TPt.
        + injection EC as <-. eexists. exists []. split; [reflexivity|]. split; [symmetry; apply app_nil_r|]. split; [exact I|constructor].
      - destruct (u32_sub b (reserved_tail (c_ring (t_c s))) h) as [d|q|]; [| |discriminate].
        + destruct (d >? wrap32 (size (c_ring (t_c s)))).
          * injection EC as <-. eexists. exists [EvOverflow c h]. split; [reflexivity|]. split; [reflexivity|]. split; [exact I|].
            cbn [filter failed]. constructor; [|constructor]. cbn [told fst snd t_c]. split; [reflexivity|]. exists (nth t (t_tails s) 0). split; [exact TPt|].
            apply overflow_text_eq. reflexivity.
          * destruct (nth_error (slots (c_ring (t_c s))) (slot_index (c_ring (t_c s)) h)); injection EC as <-; eexists;
              [exists [EvElement c h o]|exists []]; (split; [reflexivity|]); (split; [first [reflexivity|symmetry; apply app_nil_r]|]); (split; [exact I|constructor]).
        + injection EC as <-. eexists. exists []. split; [reflexivity|]. split; [symmetry; apply app_nil_r|]. split; [exact I|constructor].
      - destruct (nth_error (c_heads (t_c s)) c); [|discriminate]. injection EC as <-. eexists. exists []. split; [reflexivity|]. split; [symmetry; apply app_nil_r|]. split; [exact I|constructor].
      - unfold peek_event in EC. destruct (peek_all b (c_ring (t_c s)) h) as [[[s1 s2]|]|q|]; cbn [bind] in EC; try discriminate; injection EC as <-.
        + eexists. eexists [_]. split; [reflexivity|]. split; [reflexivity|]. split; [exact I|constructor].
        + eexists. eexists [_]. split; [reflexivity|]. split; [reflexivity|]. split; [exact I|]. cbn [filter failed]. constructor; [|constructor].
          cbn [told t_c]. rewrite (overflow_text_eq _ _ _ _ eq_refl). reflexivity.
        + eexists. exists []. split; [reflexivity|]. split; [symmetry; apply app_nil_r|]. split; [exact I|constructor].
      - injection EC as <-. eexists. eexists [_]. split; [reflexivity|]. split; [reflexivity|]. split; [exact I|constructor]. }
    destruct KEY as (p' & es & K1 & K2 & K3 & K4). split.
    + split.
      * cbn [t_c t_tails]. rewrite TLEN, <- TL. unfold read_tail. rewrite NT. destruct p; auto using upd_length'.
      * cbn [t_c t_tails]. intros t' q H. rewrite K1, nth_error_upd in H. destruct (Nat.eqb_spec t t') as [<-|N].
        { destruct (_ <? _)%nat; [|discriminate]. injection H as <-. exact K3. }
        specialize (OTHER t' q H). assert (SAME : nth t' (read_tail (t_c s) t (t_tails s)) 0 = nth t' (t_tails s) 0).
        { unfold read_tail. rewrite NT. destruct p; auto using nth_upd_other. }
        rewrite SAME. exact OTHER.
    + rewrite K2, filter_app. apply Forall2_app; [|exact K4]. eapply forall2_impl; [exact TOLD|exact TE].
Qed.
End Conc.

(** the errors returned so far are, in order, those of the calls that failed (C16, C17).  A
    failed peek_all prints the consumer's position and the number of elements published, more
    than a ring apart; a failed dequeue prints the position it lost, and the number of elements
    that were published when it last looked: more than that position, at most the number of
    enqueues completed. *)
Theorem C98_errors_of_many_threads :
  forall (A : Type) (b : build) (sz n : nat) (sched : list (action A)) (s : tstate A),
  (1 <= sz)%nat -> Z.of_nat sz < two32 -> (n <= sz)%nat ->
  trun b (tinit sz n) sched = Some s -> Z.of_nat (length (started sched)) < two32 ->
  crun b (cinit sz n) sched = Some (t_c s) /\
  Forall2 (fun e x =>
    match e with
    | EvOverflow c head => fst x = c /\ exists tail, head < tail <= Z.of_nat (length (flat_map enq1 (c_events (t_c s)))) /\
        head + Z.of_nat sz < Z.of_nat (length (started sched)) /\ snd x = overflow_text tail head sz
    | EvPeekOverflow c head tail => x = (c, overflow_text tail head sz) /\ head + Z.of_nat sz < tail <= Z.of_nat (length (flat_map enq1 (c_events (t_c s))))
    | _ => False
    end) (filter failed (c_events (t_c s))) (t_errors s).
Proof.
  intros A b sz n sched s HS HSB HN E HB. pose proof (trun_crun b sched _ _ E) as EC. cbn [tinit t_c] in EC. split; [exact EC|].
  pose proof (nhist_started b sz n sched (t_c s) EC) as NH.
  assert (HB' : nhist (t_c s) < two32) by lia.
  pose proof (Inv_reachable b sz n sched (t_c s) HS HSB EC HB') as HI.
  assert (G : forall sched (s0 : tstate A), Inv sz (t_c s0) -> TInv s0 -> Forall2 (told s0) (filter failed (c_events (t_c s0))) (t_errors s0) -> forall s1, trun b s0 sched = Some s1 -> nhist (t_c s1) < two32 ->
     TInv s1 /\ Forall2 (told s1) (filter failed (c_events (t_c s1))) (t_errors s1)).
  { clear -HS HSB. induction sched as [|a rest IH]; intros s0 HI T1 T2 s1 E HB; cbn [trun] in E; [injection E as <-; auto|].
    destruct (tstep b s0 a) as [s2|] eqn:E2; [|discriminate].
    assert (EC : cstep b (t_c s0) a = Some (t_c s2)) by (unfold tstep in E2; destruct (cstep b (t_c s0) a); [|discriminate]; destruct a; injection E2 as <-; reflexivity).
    assert (HB2 : nhist (t_c s2) < two32).
    { apply trun_crun in E. destruct (crun_hist b _ _ _ E) as (l & Hl). unfold nhist in *. rewrite Hl, app_length in HB. lia. }
    pose proof (Inv_step b sz _ _ _ HS HSB HI EC HB2) as HI2.
    destruct (TInv_step b sz s0 a s2 HS HSB HI HI2 HB2 T1 T2 E2) as [T1' T2']. eapply IH; eauto. }
  destruct (G sched (tinit sz n) (Inv_init sz n)) with (s1 := s) as [_ TE]; [| |exact E|exact HB'|].
  { split; [cbn; rewrite !repeat_length; reflexivity|]. cbn [tinit t_c cinit c_threads]. intros t p H. apply nth_error_In, repeat_spec in H. subst p. exact I. }
  { constructor. }
  assert (NP : Z.of_nat (length (flat_map enq1 (c_events (t_c s)))) = published (t_c s)).
  { rewrite (I_enq sz _ HI), combine_length, firstn_length, zseq_length. pose proof (I_pub sz _ HI). pose proof (I_res sz _ HI). unfold nhist in *. lia. }
  rewrite NP.
  assert (ALL : Forall (fun e => In e (c_events (t_c s))) (filter failed (c_events (t_c s)))) by (apply Forall_forall; intros e I; apply filter_In in I; apply I).
  assert (LEN : length (slots (c_ring (t_c s))) = sz) by apply (I_len sz _ HI).
  revert ALL TE. generalize (filter failed (c_events (t_c s))), (t_errors s). induction l as [|e l IH]; intros l' ALL TE; inversion TE as [|? x ? l0 T1 T2]; subst; [constructor|].
  inversion ALL as [|? ? A1 A2]; subst. constructor; [|apply IH; assumption].
  destruct e; cbn [told] in T1; try contradiction.
  - destruct T1 as (H1 & tail & H2 & H3). split; [exact H1|]. exists tail. split; [exact H2|]. split; [|exact H3].
    pose proof (overflow_exact b _ n sched (t_c s) _ _ HS HSB HN EC HB A1) as G1. pose proof (I_res _ _ HI) as G2. unfold reserved, nhist in G2.
    pose proof (Permutation.Permutation_length (started_init b _ n sched (t_c s) EC)) as P. rewrite app_length in P. lia.
  - split; [exact T1|].
    destruct (peek_overflow_exact b _ n sched (t_c s) _ _ _ HS HSB HN EC HB A1) as [G1 G2]. unfold published. lia.
Qed.
Print Assumptions C98_errors_of_many_threads.

(** ** A dequeue's error can contradict itself: the number of elements it prints was read
    before those that overran it were enqueued *)
Definition sched_odd_error : list (action nat) :=
  [Start 0 CConsumer; Step 0 false] ++ Start 0 (CEnqueue 10%nat) :: solo 0 3 ++
  Start 0 (CDequeue 0) :: solo 0 2 ++                         (* reads head 0 and published_tail 1 *)
  Start 1 (CEnqueue 20%nat) :: solo 1 3 ++ Start 1 (CEnqueue 30%nat) :: solo 1 3 ++
  solo 0 2.
Theorem C98_refuted_consistent_numbers : exists (sched : list (action nat)) s,
  trun Debug (tinit 2 2) sched = Some s /\
  t_errors s = [(0%nat, "RingBufferOverflowError: Ring-Buffer overflow: published_tail=1, head=0 -- tail could not be farther from head than the ring buffer size of 2"%string)].
Proof. exists sched_odd_error. reached. reflexivity. Qed.
Print Assumptions C98_refuted_consistent_numbers.
