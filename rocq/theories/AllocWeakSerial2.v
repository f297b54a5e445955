(** * Relaxed memory: a thread that knows everything sees the sequential allocator.
    Part 2: one step of a call. *)
From Coq Require Import List ZArith Lia Bool Arith.
From Verif Require Import Machine Ring RingSeq RingConc Alloc AllocSpec AllocProofs AllocConc AllocConcSpec AllocConcProofs AllocConcProofs2
  RingWeak RingWeakSpec RingWeakProofs RingWeakProofs2 RingWeakProofs3
  AllocWeak AllocWeakSpec AllocWeakProofs AllocWeakProofs2 AllocWeakMinMax AllocWeakMinMax2 AllocWeakSerial.
Import ListNotations.
Open Scope Z_scope.

(** ** What [t] knows *)
Definition know (s : kst) (t : nat) : Prop := (forall f, newest_known s t f) /\ rknow (k_ring s) t.
Lemma know_loaded s t f k v : (t < length (k_views s))%nat -> can_load s t f k v -> know s t -> know (loaded s t f k) t.
Proof.
  intros L [(m & Hm & _) C] [H R]. split; [|exact R]. intros g. specialize (H g). unfold newest_known in *. unfold loaded. rewrite view_put, Nat.eqb_refl by exact L.
  kfld. cbn [kv_set kv]. destruct (field_eq_dec g f) as [->|]; [|exact H]. assert (k < length (k_msgs s f))%nat by (apply nth_error_Some; congruence). lia.
Qed.
Lemma know_value s t f k v : know s t -> can_load s t f k v -> v = kvalue s f.
Proof.
  intros [H _] [(m & Hm & Hv) K]. specialize (H f). unfold newest_known in H. assert (k < length (k_msgs s f))%nat by (apply nth_error_Some; congruence).
  assert (k = length (k_msgs s f) - 1)%nat as -> by lia. rewrite <- Hv. symmetry. apply kvalue_nth. exact Hm.
Qed.
Lemma know_written s t f k v rmw : (t < length (k_views s))%nat -> can_write s t f k -> know s t ->
  know (written s t f k v rmw) t /\ forall g, kvalue (written s t f k v rmw) g = set (kvalue s) f v g.
Proof.
  intros L (C1 & C2 & C3) [H R]. assert (END : S k = length (k_msgs s f)) by (specialize (H f); unfold newest_known in H; lia).
  split; [split; [|exact R]|].
  - intros g. unfold newest_known. rewrite view_written, Nat.eqb_refl by exact L. cbn [kv_set kv]. destruct (field_eq_dec g f) as [->|N].
    + rewrite written_end by exact END. rewrite app_length. cbn [length]. lia.
    + rewrite written_other by exact N. exact (H g).
  - intros g. unfold set. destruct (field_eq_dec g f) as [->|N]; [apply kvalue_written; exact END|].
    unfold kvalue. rewrite written_other by exact N. reflexivity.
Qed.

(** ** The sequential state *)
Definition head_at (s : kst) (c : Z) (h : Z) : Prop := exists m, nth_error (w_heads (k_ring s)) (Z.to_nat c) = Some [m] /\ m_val m = h.
Definition sp_rel (s : kst) (sp : Z * list Z) (q : savepoint) : Prop := head_at s (fst sp) (consumer_head q) /\ snd sp = stats_list (metrics q).
Definition sps_rel (s : kst) (a : astate) : Prop := Forall2 (sp_rel s) (k_sps s) (sps a).
Definition mem_is (s : kst) (m : mem) : Prop := forall f, kvalue s f = m f.
Definition ring_pc (s : kst) (t : nat) (p : pc (Z * Z)) : Prop := nth_error (w_threads (k_ring s)) t = Some p.
Definition srel (s : kst) (a : astate) : Prop :=
  mem_is s (mem_of (st (alc a))) /\ rrel (k_ring s) (save_ring (alc a)) /\ sps_rel s a.

Lemma sps_heads s s' a l : w_heads (k_ring s') = w_heads (k_ring s) ++ l -> k_sps s' = k_sps s -> sps_rel s a -> sps_rel s' a.
Proof.
  unfold sps_rel. intros H -> F. revert F. generalize (k_sps s) (sps a). intros l1 l2. induction 1 as [|x y l1 l2 P F IH]; constructor; [|exact IH].
  destruct P as ((m & E & V) & E2). split; [|exact E2]. exists m. split; [|exact V]. rewrite H, nth_error_app1; [exact E|apply nth_error_Some; congruence].
Qed.
Lemma sps_same s s' a : w_heads (k_ring s') = w_heads (k_ring s) -> k_sps s' = k_sps s -> sps_rel s a -> sps_rel s' a.
Proof. intros H. apply (sps_heads s s' a []). rewrite app_nil_r. exact H. Qed.

(** ** An allocator call, run to its end from [p] *)
Definition bot (m : mem) (c : Z) : mem := if c <? m FMin then set m FMin c else m.
Definition topm (m : mem) (c : Z) : mem := if c >? m FMax then set m FMax c else m.
Definition add1 (m : mem) (x : field * Z) : mem := set m (fst x) (wrap64 (m (fst x) + snd x)).
Definition fin (m : mem) (p : apc) : mem :=
  match p with
  | AAdds l => let m' := fold_left add1 l m in topm (bot m' (m' FCur)) (m' FCur)
  | ALoadCur => topm (bot m (m FCur)) (m FCur)
  | ALoadMin c | AMin c _ => topm (bot m c) c
  | ALoadMax c | AMax c _ => topm m c
  | _ => m
  end.
Definition same (m m' : mem) : Prop := forall f, m f = m' f.
Lemma set_same_mem m m' f v : same m m' -> same (set m f v) (set m' f v).
Proof. intros H g. unfold set. destruct (field_eq_dec g f); [reflexivity|apply H]. Qed.
Lemma bot_same m m' c : same m m' -> same (bot m c) (bot m' c).
Proof. intros H. unfold bot. rewrite (H FMin). destruct (c <? m' FMin); [apply set_same_mem|]; exact H. Qed.
Lemma topm_same m m' c : same m m' -> same (topm m c) (topm m' c).
Proof. intros H. unfold topm. rewrite (H FMax). destruct (c >? m' FMax); [apply set_same_mem|]; exact H. Qed.
Lemma adds_same l : forall m m', same m m' -> same (fold_left add1 l m) (fold_left add1 l m').
Proof. induction l as [|x l IH]; intros m m' H; [exact H|]. cbn [fold_left]. apply IH. unfold add1. rewrite (H (fst x)). apply set_same_mem. exact H. Qed.
Lemma fin_same m m' p : same m m' -> same (fin m p) (fin m' p).
Proof.
  intros H. destruct p; cbn [fin]; try exact H; try (apply topm_same; try apply bot_same; exact H).
  - cbv zeta. pose proof (adds_same l m m' H) as A. rewrite (A FCur). apply topm_same, bot_same, A.
  - rewrite (H FCur). apply topm_same, bot_same, H.
Qed.
Lemma fin_after m l : fin m (after_adds l) = fin m (AAdds l).
Proof. destruct l; reflexivity. Qed.
Definition local (m : mem) (p : apc) : Prop :=
  match p with AMin _ mn => mn = m FMin | AMax _ mx => mx = m FMax | _ => True end.

(** where an allocator call ends *)
Definition after_call (x : stats) (op : aop) : option stats :=
  match op with
  | OAlloc n _ => Some (compute_alloc x n)
  | ODealloc n => Some (compute_dealloc x n)
  | OZeroed n _ => Some (compute_alloc_zeroed x n)
  | ORealloc o n _ => Some (compute_realloc x o n)
  | OSave | ODelta _ => None
  end.
Lemma after_call_step b a op x' : after_call (st (alc a)) op = Some x' -> astep b a op = Val (with_stats a x', ANone).
Proof. destruct op; cbn [after_call astep]; try discriminate; intros [= <-]; reflexivity. Qed.
Lemma fin_first x op x' : after_call x op = Some x' -> same (fin (mem_of x) (first_apc op)) (mem_of x').
Proof.
  assert (G : forall m x0, same m (mem_of x0) -> same (topm (bot m (m FCur)) (m FCur)) (mem_of (compute_min_and_max x0))).
  { intros m x0 H. rewrite (H FCur). intros f. rewrite (topm_same _ _ _ (bot_same _ _ _ H) f). unfold topm, bot. cbn [mem_of].
    destruct (current_used x0 <? min_used x0) eqn:E1; unfold set; cbn [mem_of];
      (match goal with |- context [if field_eq_dec FMax FMin then _ else _] => destruct (field_eq_dec FMax FMin); [discriminate|] | _ => idtac end);
      destruct (current_used x0 >? max_used x0) eqn:E2; unfold compute_min_and_max; rewrite E1, E2; destruct f; reflexivity. }
  destruct op as [n ok|n|n ok|o n ok| |k]; cbn [after_call]; try discriminate; intros [= <-].
  1-3: apply G; intros f; destruct f; reflexivity.
  cbn [first_apc adds_of]. unfold compute_realloc. destruct (n >? o) eqn:E; [|destruct (n <? o) eqn:L]; apply G; intros f; destruct f; reflexivity.
Qed.
