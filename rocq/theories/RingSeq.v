(** * Proofs about the sequential ring buffer. *)
From Coq Require Import List ZArith Lia Bool Arith.
From Coq Require Import ZifyBool ZifyNat ZifyN.
From Verif Require Import Machine Ring RingSpec.
Import ListNotations.
Open Scope nat_scope.

(** ** List facts *)
Lemma nth_error_ext {X} (l l' : list X) : (forall k, nth_error l k = nth_error l' k) -> l = l'.
Proof.
  revert l'; induction l as [|x l IH]; intros [|y l'] H; auto.
  - specialize (H 0). discriminate.
  - specialize (H 0). discriminate.
  - pose proof (H 0) as H0. cbn in H0. injection H0 as ->. f_equal. apply IH. intros k. apply (H (S k)).
Qed.

Lemma nth_error_firstn {X} (l : list X) n k : nth_error (firstn n l) k = if k <? n then nth_error l k else None.
Proof.
  revert l k; induction n as [|n IH]; intros [|x l] [|k]; cbn [firstn nth_error]; auto.
  - destruct (S k <? S n); reflexivity.
  - rewrite IH. reflexivity.
Qed.

Lemma nth_error_skipn {X} (l : list X) n k : nth_error (skipn n l) k = nth_error l (n + k).
Proof.
  revert l; induction n as [|n IH]; intros [|x l]; cbn [skipn Nat.add nth_error]; auto.
  destruct k; reflexivity.
Qed.

Lemma nth_error_app {X} (l l' : list X) k :
  nth_error (l ++ l') k = if k <? length l then nth_error l k else nth_error l' (k - length l).
Proof.
  destruct (Nat.ltb_spec k (length l)); [apply nth_error_app1|apply nth_error_app2]; lia.
Qed.

Lemma nth_error_repeat {X} (x : X) n k : nth_error (repeat x n) k = if k <? n then Some x else None.
Proof.
  revert k; induction n as [|n IH]; intros [|k]; cbn [repeat nth_error]; auto. rewrite IH. reflexivity.
Qed.

(** ** Modular indices *)
Lemma mod_step sz i j : 0 < sz -> j <= sz ->
  (i + j) mod sz = if i mod sz + j <? sz then i mod sz + j else i mod sz + j - sz.
Proof.
  intros H Hj. pose proof (Nat.mod_upper_bound i sz ltac:(lia)) as B.
  rewrite Nat.add_mod by lia.
  destruct (Nat.eq_dec j sz) as [->|N].
  - rewrite Nat.mod_same by lia. rewrite Nat.add_0_r, Nat.mod_mod by lia.
    destruct (Nat.ltb_spec (i mod sz + sz) sz); lia.
  - rewrite (Nat.mod_small j sz) by lia.
    destruct (Nat.ltb_spec (i mod sz + j) sz).
    + apply Nat.mod_small. lia.
    + symmetry. apply Nat.mod_unique with 1; lia.
Qed.

Lemma mod_inj_window sz i j : 0 < sz -> i mod sz = j mod sz -> i <= j -> j < i + sz -> i = j.
Proof.
  intros H E L1 L2. replace j with (i + (j - i)) in E by lia.
  rewrite mod_step in E by lia. destruct (Nat.ltb_spec (i mod sz + (j - i)) sz); lia.
Qed.

Section Seq.
Context {A : Type}.
Notation ring := (ring A).

Lemma slot_index_nat (r : ring) i : slot_index r (Z.of_nat i) = i mod length (slots r).
Proof. unfold slot_index, size. rewrite <- Nat2Z.inj_mod. apply Nat2Z.id. Qed.

(** The two slices of [peek_all] are the positions [h, h+d), in order. *)
Lemma two_slices (l : list (option A)) h d : 0 < length l -> 1 <= d <= length l ->
  let hi := h mod length l in let ti := (h + d) mod length l in
  (if hi <? ti then firstn (ti - hi) (skipn hi l)
   else firstn (length l - hi) (skipn hi l) ++ firstn (ti - 0) (skipn 0 l)) =
  map (fun i => match nth_error l (i mod length l) with Some o => o | None => None end) (seq h d) /\
  (hi <? ti = true -> hi <= ti <= length l) /\ hi <= length l /\ ti <= length l.
Proof.
  intros HL Hd. cbv zeta. set (sz := length l) in *.
  pose proof (Nat.mod_upper_bound h sz ltac:(lia)) as B.
  pose proof (Nat.mod_upper_bound (h + d) sz ltac:(lia)) as B'.
  repeat split; try lia. apply nth_error_ext. intros k.
  assert (R : nth_error (map (fun i => match nth_error l (i mod sz) with Some o => o | None => None end) (seq h d)) k
              = if k <? d then nth_error l ((h + k) mod sz) else None).
  { destruct (Nat.ltb_spec k d) as [L|L].
    - rewrite nth_error_map.
      assert (E : nth_error (seq h d) k = Some (h + k)).
      { rewrite (nth_error_nth' _ 0) by (rewrite seq_length; exact L). rewrite seq_nth by exact L. reflexivity. }
      rewrite E. cbn [option_map].
      pose proof (Nat.mod_upper_bound (h + k) sz ltac:(lia)) as BK.
      destruct (nth_error l ((h + k) mod sz)) eqn:N; [reflexivity|].
      apply nth_error_None in N. fold sz in N. lia.
    - apply nth_error_None. rewrite map_length, seq_length. exact L. }
  rewrite R. clear R. rewrite (mod_step sz h d) in * by lia.
  destruct (Nat.ltb_spec (h mod sz + d) sz) as [C|C].
  - destruct (Nat.ltb_spec (h mod sz) (h mod sz + d)) as [C'|C']; [|lia].
    rewrite nth_error_firstn, nth_error_skipn.
    replace (h mod sz + d - h mod sz) with d by lia.
    destruct (Nat.ltb_spec k d) as [L|L]; [|reflexivity].
    rewrite mod_step by lia. destruct (Nat.ltb_spec (h mod sz + k) sz); [reflexivity|lia].
  - destruct (Nat.ltb_spec (h mod sz) (h mod sz + d - sz)) as [C'|C']; [lia|].
    rewrite nth_error_app, !nth_error_firstn, !nth_error_skipn, firstn_length, skipn_length. fold sz.
    rewrite Nat.min_l by lia.
    destruct (Nat.ltb_spec k (sz - h mod sz)) as [L|L].
    + destruct (Nat.ltb_spec k d); [|lia].
      rewrite mod_step by lia. destruct (Nat.ltb_spec (h mod sz + k) sz); [reflexivity|lia].
    + rewrite Nat.sub_0_r, Nat.add_0_l.
      destruct (Nat.ltb_spec k d) as [L2|L2].
      * destruct (Nat.ltb_spec (k - (sz - h mod sz)) (h mod sz + d - sz)); [|lia].
        rewrite mod_step by lia. destruct (Nat.ltb_spec (h mod sz + k) sz); [lia|]. f_equal. lia.
      * destruct (Nat.ltb_spec (k - (sz - h mod sz)) (h mod sz + d - sz)); [lia|reflexivity].
Qed.

(** What [peek_all] returns on a ring whose published tail is [h+d]. *)
Lemma peek_all_spec b (r : ring) h d : 0 < length (slots r) -> (Z.of_nat (length (slots r)) < two32)%Z ->
  published_tail r = Z.of_nat (h + d) -> (Z.of_nat (h + d) < two32)%Z ->
  exists s1 s2, peek_all b r (Z.of_nat h) =
    Val (if length (slots r) <? d then None else Some (s1, s2)) /\
    (d <= length (slots r) ->
     s1 ++ s2 = map (fun i => match nth_error (slots r) (i mod length (slots r)) with Some o => o | None => None end)
                    (seq h d)).
Proof.
  intros HL HS HP HB. unfold peek_all. rewrite HP, !slot_index_nat.
  destruct (Z.eqb_spec (Z.of_nat h) (Z.of_nat (h + d))) as [E|E].
  { assert (d = 0) as -> by lia. exists [], []. destruct (Nat.ltb_spec (length (slots r)) 0); [lia|].
    split; [reflexivity|]. intros _. reflexivity. }
  unfold u32_sub. rewrite checked_in by (rewrite two32_val in *; lia). cbn [bind].
  unfold wrap32, size. rewrite Z.mod_small by lia.
  destruct (Z.gtb_spec (Z.of_nat (h + d) - Z.of_nat h) (Z.of_nat (length (slots r)))) as [G|G].
  { exists [], []. destruct (Nat.ltb_spec (length (slots r)) d); [|lia]. split; [reflexivity|lia]. }
  destruct (Nat.ltb_spec (length (slots r)) d); [lia|].
  destruct (two_slices (slots r) h d HL ltac:(lia)) as (E1 & E2 & E3 & E4). cbv zeta in *.
  unfold slice.
  destruct (h mod length (slots r) <? (h + d) mod length (slots r)) eqn:C.
  - specialize (E2 eq_refl).
    rewrite (proj2 (Nat.leb_le _ _)) by lia. rewrite (proj2 (Nat.leb_le _ _)) by lia.
    cbn [andb bind]. do 2 eexists. split; [reflexivity|]. intros _. rewrite app_nil_r. exact E1.
  - rewrite !(proj2 (Nat.leb_le _ _)) by lia. cbn [andb bind].
    do 2 eexists. split; [reflexivity|]. intros _. exact E1.
Qed.

(** ** The invariant *)
(** [ext sz hist]: position [i + sz] holds the i-th element, the first [sz]
    positions stand for the uninitialised slots. *)
Definition ext (sz : nat) (hist : list A) : list (option A) := repeat None sz ++ map Some hist.

Definition ring_inv (sz : nat) (hist : list A) (r : ring) : Prop :=
  reserved_tail r = Z.of_nat (length hist) /\ published_tail r = Z.of_nat (length hist) /\
  length (slots r) = sz /\
  (forall i, length hist <= i < length hist + sz ->
     nth_error (slots r) (i mod sz) = nth_error (ext sz hist) i) /\
  overwritten r = firstn (length hist) (ext sz hist).

Lemma ext_nth sz (hist : list A) i : nth_error (ext sz hist) (i + sz) = option_map Some (nth_error hist i).
Proof.
  unfold ext. rewrite nth_error_app, repeat_length.
  destruct (Nat.ltb_spec (i + sz) sz); [lia|]. replace (i + sz - sz) with i by lia. apply nth_error_map.
Qed.

Lemma ext_length sz (hist : list A) : length (ext sz hist) = sz + length hist.
Proof. unfold ext. rewrite app_length, repeat_length, map_length. reflexivity. Qed.

Lemma ring_inv_init sz : ring_inv sz [] (ring_new sz).
Proof.
  unfold ring_inv, ring_new. cbn [reserved_tail published_tail slots overwritten length].
  rewrite repeat_length. repeat split; auto. intros i Hi. unfold ext. cbn [map]. rewrite app_nil_r.
  rewrite Nat.mod_small by lia. reflexivity.
Qed.

Lemma ring_inv_slot sz hist r i : 0 < sz -> ring_inv sz hist r -> i < length hist -> length hist <= i + sz ->
  nth_error (slots r) (slot_index r (Z.of_nat i)) = option_map Some (nth_error hist i).
Proof.
  intros HS (_ & _ & HL & HW & _) H1 H2. rewrite slot_index_nat, HL.
  rewrite <- ext_nth with (sz := sz). rewrite <- HW by lia.
  f_equal. replace (i + sz) with (i + 1 * sz) by lia. rewrite Nat.mod_add by lia. reflexivity.
Qed.

Lemma enqueue_ok b sz hist r x : 0 < sz -> ring_inv sz hist r -> (Z.of_nat (S (length hist)) < two32)%Z ->
  exists r', enqueue b r x = Val r' /\ ring_inv sz (hist ++ [x]) r'.
Proof.
  intros HS (HR & HP & HL & HW & HO) HB. rewrite two32_val in HB.
  unfold enqueue. rewrite HR. unfold u32_add. rewrite checked_in by (rewrite two32_val; lia).
  cbn [bind published_tail store]. rewrite HP, Z.eqb_refl.
  eexists. split; [reflexivity|].
  assert (LE : length (hist ++ [x]) = S (length hist)) by (rewrite app_length; cbn; lia).
  unfold ring_inv. cbn [reserved_tail published_tail slots overwritten store]. rewrite LE.
  assert (SI : forall q q', slot_index (Ring q q' (slots r) (overwritten r)) (Z.of_nat (length hist))
               = length hist mod sz) by (intros q q'; rewrite slot_index_nat; cbn [slots]; rewrite HL; reflexivity).
  rewrite SI.
  pose proof (Nat.mod_upper_bound (length hist) sz ltac:(lia)) as BM.
  repeat split.
  - unfold wrap32. rewrite Z.mod_small by (rewrite two32_val; lia). lia.
  - lia.
  - rewrite upd_length. exact HL.
  - intros i Hi. rewrite nth_error_upd, HL.
    assert (EX : ext sz (hist ++ [x]) = ext sz hist ++ [Some x]).
    { unfold ext. rewrite map_app, app_assoc. reflexivity. }
    destruct (Nat.eqb_spec (length hist mod sz) (i mod sz)) as [E|E].
    + destruct (Nat.ltb_spec (length hist mod sz) sz); [|lia].
      assert (Ei : i = length hist + sz).
      { destruct (Nat.eq_dec i (length hist + sz)); [assumption|].
        exfalso. assert (length hist = i) by (apply mod_inj_window with sz; lia). lia. }
      subst i. rewrite EX, nth_error_app, ext_length. destruct (Nat.ltb_spec (length hist + sz) (sz + length hist)); [lia|].
      replace (length hist + sz - (sz + length hist)) with 0 by lia. reflexivity.
    + assert (Ni : i <> length hist + sz).
      { intros ->. apply E. replace (length hist + sz) with (length hist + 1 * sz) by lia.
        rewrite Nat.mod_add by lia. reflexivity. }
      rewrite EX, nth_error_app, ext_length. destruct (Nat.ltb_spec i (sz + length hist)); [|lia].
      apply HW. lia.
  - rewrite HO. rewrite HW by lia.
    assert (EX : ext sz (hist ++ [x]) = ext sz hist ++ [Some x]).
    { unfold ext. rewrite map_app, app_assoc. reflexivity. }
    rewrite EX. rewrite firstn_app, ext_length. replace (S (length hist) - (sz + length hist)) with 0 by lia.
    cbn [firstn]. rewrite app_nil_r.
    assert (LT : length hist < length (ext sz hist)) by (rewrite ext_length; lia).
    destruct (nth_error (ext sz hist) (length hist)) as [o|] eqn:N; [|apply nth_error_None in N; lia].
    clear -N. revert N. generalize (length hist) as k, (ext sz hist) as l.
    induction k as [|k IH]; intros [|y l] N; cbn in N; try discriminate.
    + injection N as ->. reflexivity.
    + cbn [firstn]. rewrite <- (IH l N). reflexivity.
Qed.

Lemma dequeue_ok b sz hist r h : 0 < sz -> (Z.of_nat sz < two32)%Z -> ring_inv sz hist r ->
  (Z.of_nat (length hist) < two32)%Z -> h <= length hist ->
  dequeue b r (Z.of_nat h) =
    Val (match skipn h hist with
         | [] => (Z.of_nat h, DNone)
         | x :: rest => (Z.of_nat (S h), if sz <? length (x :: rest) then DOverflow else DSome (Some x))
         end).
Proof.
  intros HS HSB HI HB Hh. pose proof HI as (HR & HP & HL & HW & _). unfold dequeue.
  rewrite HP, HR. destruct (Z.gtb_spec (Z.of_nat h) (Z.of_nat (length hist))); [lia|].
  destruct (Z.eqb_spec (Z.of_nat h) (Z.of_nat (length hist))) as [E|E].
  { assert (h = length hist) as -> by lia. rewrite skipn_all. reflexivity. }
  assert (Lh : h < length hist) by lia. rewrite two32_val in *.
  unfold u32_add, u32_sub. rewrite !checked_in by (rewrite two32_val; lia). cbn [bind].
  assert (SK : exists x, nth_error hist h = Some x /\ skipn h hist = x :: skipn (S h) hist).
  { clear -Lh. revert h Lh. induction hist as [|y l IH]; intros [|h] Lh; cbn in Lh; try lia.
    - exists y. split; reflexivity.
    - destruct (IH h ltac:(lia)) as (x & E1 & E2). exists x. cbn [nth_error skipn]. split; [exact E1|exact E2]. }
  destruct SK as (x & Ex & ->).
  assert (LL : length (x :: skipn (S h) hist) = length hist - h) by (cbn [length]; rewrite skipn_length; lia).
  rewrite LL. unfold wrap32, size. rewrite HL, Z.mod_small by (rewrite two32_val; lia).
  replace (Z.of_nat h + 1)%Z with (Z.of_nat (S h)) by lia.
  destruct (Z.gtb_spec (Z.of_nat (length hist) - Z.of_nat h) (Z.of_nat sz)) as [G|G].
  { destruct (Nat.ltb_spec sz (length hist - h)); [reflexivity|lia]. }
  destruct (Nat.ltb_spec sz (length hist - h)); [lia|].
  rewrite (ring_inv_slot sz hist r h HS HI Lh ltac:(lia)), Ex. reflexivity.
Qed.

Lemma slots_window sz hist r h : 0 < sz -> ring_inv sz hist r -> h <= length hist -> length hist - h <= sz ->
  map (fun i => match nth_error (slots r) (i mod length (slots r)) with Some o => o | None => None end)
      (seq h (length hist - h)) = map Some (skipn h hist).
Proof.
  intros HS HI Hh Hd. apply nth_error_ext. intros k. rewrite !nth_error_map, nth_error_skipn.
  destruct (Nat.lt_ge_cases k (length hist - h)) as [L|L].
  - rewrite (nth_error_nth' _ 0) by (rewrite seq_length; exact L). rewrite seq_nth by exact L. cbn [option_map].
    pose proof (ring_inv_slot sz hist r (h + k) HS HI ltac:(lia) ltac:(lia)) as E.
    rewrite slot_index_nat in E. rewrite E.
    destruct (nth_error hist (h + k)) eqn:N; [reflexivity|]. apply nth_error_None in N; lia.
  - rewrite (proj2 (nth_error_None _ _)) by (rewrite seq_length; exact L).
    rewrite (proj2 (nth_error_None hist _)) by lia. reflexivity.
Qed.

Lemma peek_ok b sz hist r h : 0 < sz -> (Z.of_nat sz < two32)%Z -> ring_inv sz hist r ->
  (Z.of_nat (length hist) < two32)%Z -> h <= length hist ->
  exists s1 s2, peek_all b r (Z.of_nat h) =
    Val (if sz <? length (skipn h hist) then None else Some (s1, s2)) /\
    (length (skipn h hist) <= sz -> s1 ++ s2 = map Some (skipn h hist)).
Proof.
  intros HS HSB HI HB Hh. pose proof HI as (HR & HP & HL & HW & _).
  destruct (peek_all_spec b r h (length hist - h)) as (s1 & s2 & E1 & E2); try (rewrite ?HL; lia).
  exists s1, s2. rewrite skipn_length. rewrite HL in E1, E2. split; [exact E1|].
  intros Hd. rewrite E2 by exact Hd. rewrite <- (slots_window sz hist r h) by assumption. rewrite HL. reflexivity.
Qed.

(** ** Refinement *)
Definition rel (sz : nat) (s : rstate A) (a : sstate A) : Prop :=
  ring_inv sz (s_hist a) (rb s) /\ heads s = map Z.of_nat (s_heads a) /\
  Forall (fun h => h <= length (s_hist a)) (s_heads a).

Lemma map_upd {X Y} (f : X -> Y) i x l : map f (upd i x l) = upd i (f x) (map f l).
Proof. revert i; induction l as [|y l IH]; intros [|i]; cbn; auto. f_equal; auto. Qed.

Lemma Forall_upd {X} (P : X -> Prop) i x l : Forall P l -> P x -> Forall P (upd i x l).
Proof.
  intros H; revert i; induction H as [|y l Hy H IH]; intros [|i] Hx; cbn; constructor; auto.
Qed.

Lemma rstep_refines b sz s a op : 0 < sz -> (Z.of_nat sz < two32)%Z -> rel sz s a ->
  (Z.of_nat (length (s_hist (fst (sstep sz a op)))) < two32)%Z ->
  exists s', rstep b s op = Val (s', snd (sstep sz a op)) /\ rel sz s' (fst (sstep sz a op)).
Proof.
  intros HS HSB (HI & HH & HF) HB. destruct op as [x| |c|c]; cbn [sstep fst snd s_hist] in *.
  - rewrite app_length in HB. cbn [length] in HB.
    destruct (enqueue_ok b sz (s_hist a) (rb s) x HS HI) as (r' & E & HI'); [rewrite Nat.add_1_r in HB; exact HB|].
    exists (RState r' (heads s)). cbn [rstep]. rewrite E. cbn [bind]. split; [reflexivity|].
    split; [exact HI'|]. split; [exact HH|]. cbn [s_heads s_hist].
    eapply Forall_impl; [|exact HF]. intros h Hh. cbn in Hh. rewrite app_length. lia.
  - eexists. cbn [rstep]. rewrite HH, map_length. split; [reflexivity|].
    split; [exact HI|]. cbn [heads rb s_heads s_hist].
    split.
    + rewrite map_app. cbn [map]. f_equal. f_equal. unfold consumer. destruct HI as (_ & -> & _). reflexivity.
    + apply Forall_app. split; [exact HF|]. constructor; auto.
  - cbn [rstep]. rewrite HH, nth_error_map.
    destruct (nth_error (s_heads a) c) as [h|] eqn:N; cbn [option_map].
    2:{ exists s. split; [reflexivity|]. split; [exact HI|]. split; auto. }
    assert (Hh : h <= length (s_hist a)).
    { rewrite Forall_forall in HF. apply HF. eapply nth_error_In; exact N. }
    unfold pending in *.
    rewrite (dequeue_ok b sz (s_hist a) (rb s) h HS HSB HI); try exact Hh.
    2:{ destruct (skipn h (s_hist a)); exact HB. }
    destruct (skipn h (s_hist a)) as [|x rest] eqn:SK; cbn [bind fst snd].
    + eexists. split; [reflexivity|]. split; [exact HI|]. cbn [heads].
      split; [|exact HF]. apply nth_error_ext. intros k. rewrite nth_error_upd.
      destruct (Nat.eqb_spec c k) as [<-|]; [|reflexivity].
      rewrite map_length, nth_error_map, N. cbn [option_map].
      destruct (Nat.ltb_spec c (length (s_heads a))); [reflexivity|].
      apply nth_error_None in H. congruence.
    + eexists. split.
      { f_equal. f_equal. destruct (sz <? length (x :: rest)); reflexivity. }
      split; [exact HI|]. cbn [heads s_heads s_hist]. split; [rewrite map_upd; reflexivity|].
      apply Forall_upd; [exact HF|].
      assert (length (skipn h (s_hist a)) = S (length rest)) by (rewrite SK; reflexivity).
      rewrite skipn_length in H. lia.
  - cbn [rstep]. rewrite HH, nth_error_map.
    destruct (nth_error (s_heads a) c) as [h|] eqn:N; cbn [option_map].
    2:{ exists s. split; [reflexivity|]. split; [exact HI|]. split; auto. }
    assert (Hh : h <= length (s_hist a)).
    { rewrite Forall_forall in HF. apply HF. eapply nth_error_In; exact N. }
    unfold pending in *.
    destruct (peek_ok b sz (s_hist a) (rb s) h HS HSB HI HB Hh) as (s1 & s2 & E1 & E2).
    rewrite E1. cbn [bind]. exists s. split.
    + destruct (Nat.ltb_spec sz (length (skipn h (s_hist a)))) as [L|L]; cbn [snd]; [reflexivity|].
      rewrite E2 by exact L. reflexivity.
    + split; [exact HI|]. split; auto.
Qed.

Lemma sstep_hist sz (a : sstate A) op : s_hist (fst (sstep sz a op)) = s_hist a ++ enqueued [op].
Proof.
  destruct op as [x| |c|c]; cbn; rewrite ?app_nil_r; auto.
  - destruct (nth_error _ _) as [h|]; auto. destruct (pending a h); auto.
  - destruct (nth_error _ _) as [h|]; auto.
Qed.

Lemma srun_hist sz (a : sstate A) ops : s_hist (fst (srun sz a ops)) = s_hist a ++ enqueued ops.
Proof.
  revert a; induction ops as [|op ops IH]; intros a; cbn [srun].
  - cbn. rewrite app_nil_r. reflexivity.
  - pose proof (sstep_hist sz a op) as H1. destruct (sstep sz a op) as [a1 o1]. cbn [fst] in H1.
    specialize (IH a1). destruct (srun sz a1 ops) as [a2 os]. cbn [fst] in *.
    rewrite IH, H1, <- app_assoc. f_equal. unfold enqueued. cbn [flat_map]. rewrite app_nil_r. reflexivity.
Qed.

Lemma rrun_refines b sz s a ops : 0 < sz -> (Z.of_nat sz < two32)%Z -> rel sz s a ->
  (Z.of_nat (length (s_hist a ++ enqueued ops)) < two32)%Z ->
  exists s', rrun b s ops = Val (s', snd (srun sz a ops)) /\ rel sz s' (fst (srun sz a ops)).
Proof.
  intros HS HSB. revert s a; induction ops as [|op ops IH]; intros s a HR HB; cbn [rrun srun].
  - exists s. auto.
  - pose proof (sstep_hist sz a op) as H1.
    assert (E : enqueued (op :: ops) = enqueued [op] ++ enqueued ops).
    { unfold enqueued. cbn [flat_map]. rewrite app_nil_r. reflexivity. }
    rewrite E in HB. rewrite app_assoc in HB. rewrite <- H1 in HB.
    destruct (rstep_refines b sz s a op HS HSB HR) as (s1 & E1 & R1).
    { eapply Z.le_lt_trans; [|exact HB]. rewrite app_length. lia. }
    rewrite E1. cbn [bind fst snd].
    destruct (sstep sz a op) as [a1 o1]. cbn [fst snd] in *.
    destruct (IH s1 a1 R1) as (s2 & E2 & R2); [exact HB|].
    rewrite E2. cbn [bind fst snd]. destruct (srun sz a1 ops) as [a2 os]. cbn [fst snd] in *.
    exists s2. auto.
Qed.

Lemma rel_init sz : rel sz (rinit sz) (sinit : sstate A).
Proof. split; [apply ring_inv_init|]. split; constructor. Qed.

Lemma fifo_refinement b sz (ops : list (rop A)) : 1 <= sz -> (Z.of_nat sz < two32)%Z ->
  (Z.of_nat (length (enqueued ops)) < two32)%Z ->
  exists s', rrun b (rinit sz) ops = Val (s', snd (srun sz (sinit : sstate A) ops)).
Proof.
  intros H1 H2 H3. destruct (rrun_refines b sz (rinit sz) sinit ops) as (s' & E & _); auto.
  - apply rel_init.
  - eauto.
Qed.

(** what the assignments of line 66 dropped *)
Lemma dropped_slots b sz (ops : list (rop A)) : 1 <= sz -> (Z.of_nat sz < two32)%Z ->
  (Z.of_nat (length (enqueued ops)) < two32)%Z ->
  exists s' outs, rrun b (rinit sz) ops = Val (s', outs) /\
    overwritten (rb s') = firstn (length (enqueued ops)) (repeat None sz ++ map Some (enqueued ops)).
Proof.
  intros H1 H2 H3. destruct (rrun_refines b sz (rinit sz) (sinit : sstate A) ops) as (s' & E & R); auto.
  { apply rel_init. }
  do 2 eexists. split; [exact E|]. destruct R as ((_ & _ & _ & _ & HO) & _).
  rewrite HO, srun_hist. reflexivity.
Qed.

(** ** C13: repeated dequeues after an overflow *)
Fixpoint dequeues (b : build) (n : nat) (r : ring) (h : Z) : res (Z * list (deq_result A)) :=
  match n with
  | O => Val (h, [])
  | S k =>
      hd <- dequeue b r h ;;
      rest <- dequeues b k r (fst hd) ;;
      Val (fst rest, snd hd :: snd rest)
  end.

Lemma dequeues_overflow b sz hist r h k : 0 < sz -> (Z.of_nat sz < two32)%Z -> ring_inv sz hist r ->
  (Z.of_nat (length hist) < two32)%Z -> h + k + sz <= length hist ->
  dequeues b k r (Z.of_nat h) = Val (Z.of_nat (h + k), repeat DOverflow k).
Proof.
  intros HS HSB HI HB. revert h; induction k as [|k IH]; intros h Hk; cbn [dequeues repeat].
  - rewrite Nat.add_0_r. reflexivity.
  - rewrite (dequeue_ok b sz hist r h HS HSB HI HB) by lia.
    assert (LL : length (skipn h hist) = length hist - h) by apply skipn_length.
    destruct (skipn h hist) as [|x rest] eqn:SK; [cbn in LL; lia|].
    rewrite (proj2 (Nat.ltb_lt _ _)) by lia. cbn [bind fst snd].
    rewrite IH by lia. cbn [bind fst snd]. do 3 f_equal. lia.
Qed.

Lemma overflow_recovers b sz hist r h k : 0 < sz -> (Z.of_nat sz < two32)%Z -> ring_inv sz hist r ->
  (Z.of_nat (length hist) < two32)%Z -> length hist = h + k + sz ->
  exists x, nth_error hist (h + k) = Some x /\
  dequeues b (S k) r (Z.of_nat h) =
    Val (Z.of_nat (h + k + 1), repeat DOverflow k ++ [DSome (Some x)]).
Proof.
  intros HS HSB HI HB HL.
  assert (LK : length (skipn (h + k) hist) = sz) by (rewrite skipn_length; lia).
  assert (SK : exists x rest, nth_error hist (h + k) = Some x /\ skipn (h + k) hist = x :: rest).
  { pose proof (nth_error_skipn hist (h + k) 0) as N. rewrite Nat.add_0_r in N.
    destruct (skipn (h + k) hist) as [|x rest]; [cbn in LK; lia|]. exists x, rest. split; auto. }
  destruct SK as (x & rest & N & SK). exists x. split; [exact N|].
  assert (G : forall m h', dequeues b (m + 1) r h' =
     (a <- dequeues b m r h' ;; c <- dequeues b 1 r (fst a) ;; Val (fst c, snd a ++ snd c))).
  { induction m as [|m IH]; intros h'.
    - cbn [Nat.add dequeues bind fst snd app]. destruct (dequeue b r h') as [[]| |]; reflexivity.
    - cbn [Nat.add dequeues]. destruct (dequeue b r h') as [[h'' d]| |]; cbn [bind fst snd]; auto.
      rewrite IH. destruct (dequeues b m r h'') as [[]| |]; cbn [bind fst snd]; auto.
      cbn [dequeues]. destruct (dequeue b r z) as [[]| |]; cbn [bind fst snd]; auto. }
  replace (S k) with (k + 1) by lia. rewrite G, (dequeues_overflow b sz hist r h k) by (auto; lia).
  cbn [bind fst snd dequeues]. rewrite (dequeue_ok b sz hist r (h + k) HS HSB HI HB) by lia.
  rewrite SK. rewrite SK in LK. rewrite (proj2 (Nat.ltb_ge _ _)) by lia. cbn [bind fst snd].
  do 3 f_equal. lia.
Qed.

(** ** C19: the wrap *)
Lemma wrap_debug sz hist r x : ring_inv sz hist r -> Z.of_nat (length hist) = (two32 - 1)%Z ->
  enqueue Debug r x = Panic POverflow.
Proof.
  intros (HR & HP & _) HL. unfold enqueue. rewrite HR, HL. unfold u32_add, checked. rewrite two32_val. reflexivity.
Qed.

Lemma wrap_release sz hist r x : ring_inv sz hist r -> Z.of_nat (length hist) = (two32 - 1)%Z ->
  exists r', enqueue Release r x = Val r' /\ reserved_tail r' = 0%Z /\ published_tail r' = 0%Z /\
    (forall h, (0 < h)%Z -> dequeue Release r' h = Spin) /\
    dequeue Release r' 0 = Val (0%Z, DNone).
Proof.
  intros (HR & HP & _) HL. unfold enqueue. rewrite HR, HL.
  replace (u32_add Release (two32 - 1) 1) with (Val 0%Z) by reflexivity.
  cbn [bind published_tail store]. rewrite HP, HL, Z.eqb_refl.
  eexists. split; [reflexivity|]. cbn [reserved_tail published_tail store].
  split; [reflexivity|]. split; [reflexivity|]. split.
  - intros h Hh. unfold dequeue. cbn [published_tail]. destruct (Z.gtb_spec h 0); [reflexivity|lia].
  - reflexivity.
Qed.
End Seq.
