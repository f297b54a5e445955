(** * Relaxed memory: regions of calls that are all synchronised. *)
From Coq Require Import List ZArith Lia Bool Arith.
From Verif Require Import Machine Ring RingSeq RingConc Alloc AllocSpec AllocProofs AllocConc AllocConcSpec AllocConcProofs AllocConcProofs2
  RingWeak RingWeakSpec AllocWeak AllocWeakSpec AllocWeakProofs AllocWeakProofs2 AllocWeakProofs3 AllocWeakProofs5 AllocWeakCalls.
Import ListNotations.
Open Scope Z_scope.

Lemma zsum_calls sched f l : forall a, (a + l <= length sched)%nat ->
  zsum (contrib_at sched f) (seq a l) = total (contrib f) (kcalls (firstn l (skipn a sched))).
Proof.
  induction l as [|l IH]; intros a L; [reflexivity|]. cbn [seq]. rewrite zsum_cons, (IH (S a)) by lia.
  assert (exists x, nth_error sched a = Some x) as (x & Hx).
  { destruct (nth_error sched a) eqn:E; [eauto|]. apply nth_error_None in E. lia. }
  assert (skipn a sched = x :: skipn (S a) sched) as ->.
  { clear - Hx. revert a Hx. induction sched as [|y q IH]; intros [|a] Hx; try discriminate; [injection Hx as ->; reflexivity|]. cbn [skipn]. apply (IH a Hx). }
  cbn [firstn]. change (x :: firstn l (skipn (S a) sched)) with ([x] ++ firstn l (skipn (S a) sched)). rewrite kcalls_app.
  unfold total. rewrite map_app. unfold contrib_at at 1. rewrite Hx. destruct x; cbn [kcalls flat_map app map]; unfold sum; cbn [fold_right]; lia.
Qed.
Definition starts (sched : list kaction) (i : nat) : bool := match nth_error sched i with Some (KStart _ _) => true | _ => false end.
Lemma zsum_starts sched f l : zsum (contrib_at sched f) (filter (starts sched) l) = zsum (contrib_at sched f) l.
Proof.
  induction l as [|x l IH]; [reflexivity|]. cbn [filter]. rewrite (zsum_cons _ x l), <- IH. unfold starts at 1, contrib_at at 2.
  destruct (nth_error sched x) as [[]|] eqn:E; try reflexivity. rewrite zsum_cons. unfold contrib_at at 1. rewrite E. reflexivity.
Qed.

Theorem delta_exact b sz n sched si se k di de ds x f d s :
  (1 <= sz)%nat -> Z.of_nat sz < two32 -> (n <= sz)%nat -> fits (kcalls sched) ->
  krun b (kinit sz n) sched = Some s -> save_over b sz n sched si se k -> delta_over b sz n sched di de k ds ->
  (forall i t op, (i < de)%nat -> nth_error sched i = Some (KStart t op) -> i = si \/ i = di \/
     exists e, call_over b sz n sched i e /\ (khb sched e si \/ (se < i)%nat /\ khb sched e di)) ->
  nth_error counter_fields x = Some f -> nth_error ds x = Some d ->
  d = total (contrib f) (kcalls (firstn (di - S se) (skipn (S se) sched))).
Proof.
  intros HS HSB HN HF R SO DO CL Hf Hd.
  assert (Ldi : (di < de)%nat /\ (de < length sched)%nat).
  { destruct DO as (_ & (t & op & fa & pi & _ & He & L & _) & _). split; [exact L|apply nth_error_Some; congruence]. }
  assert (Lsi : (si < se)%nat /\ (se < length sched)%nat).
  { destruct SO as (_ & (t & op & fa & pi & _ & He & L & _) & _). split; [exact L|apply nth_error_Some; congruence]. }
  rewrite <- zsum_calls by lia. rewrite <- zsum_starts.
  destruct (delta_counts b sz n sched HS HSB HN HF si se k di de ds x f d s R SO DO Hf Hd) as [LO UP].
  apply Z.le_antisymm.
  - specialize (UP (si :: di :: filter (starts sched) (seq (S se) (di - S se)))).
    rewrite !zsum_cons in UP. assert (contrib_at sched f si = 0) as Z1.
    { destruct SO as ((t & Hsi) & _). unfold contrib_at. rewrite Hsi. pose proof (counter_cnt f (nth_error_In _ _ Hf)) as [F1 F2]. rewrite <- pend1_first by assumption. reflexivity. }
    assert (contrib_at sched f di = 0) as Z2.
    { destruct DO as ((t & Hdi) & _). unfold contrib_at. rewrite Hdi. pose proof (counter_cnt f (nth_error_In _ _ Hf)) as [F1 F2]. rewrite <- pend1_first by assumption. reflexivity. }
    rewrite Z1, Z2, !Z.add_0_l in UP. apply UP. intros i t op Li Hi. destruct (CL i t op Li Hi) as [->|[->|(e & CO & [HB|[Lse HB]])]].
    + left. left. reflexivity.
    + left. right. left. reflexivity.
    + right. eauto.
    + left. right. right. apply filter_In. split; [|unfold starts; rewrite Hi; reflexivity]. apply in_seq.
      pose proof (khb_lt _ _ _ HB). destruct CO as (? & ? & ? & ? & _ & _ & Lie & _). lia.
  - apply LO; [apply NoDup_filter, seq_NoDup|]. intros i Hi. apply filter_In in Hi. destruct Hi as [Hi St]. apply in_seq in Hi. split; [lia|].
    unfold starts in St. destruct (nth_error sched i) as [[t op|t fa pi|t|t k']|] eqn:E; try discriminate.
    destruct (CL i t op ltac:(lia) E) as [->|[->|(e & CO & [HB|[Lse HB]])]]; try lia.
    + exfalso. pose proof (khb_lt _ _ _ HB). destruct CO as (? & ? & ? & ? & _ & _ & Lie & _). lia.
    + eauto.
Qed.
