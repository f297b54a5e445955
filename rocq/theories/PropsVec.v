(** * Property theorems C110: the space verdicts for a vector that doubles its capacity.
    The workload: pushing elements of [e] bytes, one by one, onto a growable array that
    starts with room for [c0] elements and doubles when it is full (std's Vec).
    Models: Alloc.v, EndToEnd.v, Analysis.v. *)
From Coq Require Import List ZArith Lia Bool Reals Lra.
From Verif Require Import Machine Complexity Floats Analysis AnalysisF64d GrowthSpec Alloc AllocSpec AllocProofs EndToEnd EndToEndSpec EndToEndProofs Bridge PropsAnalysis PropsBridge.
Import ListNotations.
Open Scope Z_scope.

(** ** Specification: the workload *)
(** one push onto [len] elements in room for [cap]: the allocator calls and the new room *)
Definition push (c0 e cap len : Z) : list aop * Z :=
  if len <? cap then ([], cap)
  else if cap =? 0 then ([OAlloc (c0 * e) true], c0)
  else ([ORealloc (cap * e) (2 * cap * e) true], 2 * cap).
Fixpoint pushes (c0 e cap len : Z) (n : nat) : list aop * Z :=
  match n with
  | O => ([], cap)
  | S n => let (ops, cap1) := push c0 e cap len in
           let (rest, cap2) := pushes c0 e cap1 (len + 1) n in (ops ++ rest, cap2)
  end.
(** the room of a vector that received [n] pushes *)
Definition room (c0 n : Z) : Z := snd (pushes c0 1 0 0 (Z.to_nat n)).
(** the calls of filling a new vector with [n] elements, and of [n] more pushes onto one of [len];
    [ends]: what happens to the vector afterwards (nothing, or it is dropped) *)
Definition filling (c0 e n : Z) : list aop := fst (pushes c0 e 0 0 (Z.to_nat n)).
Definition pushing (c0 e len n : Z) : list aop := fst (pushes c0 e (room c0 len) len (Z.to_nat n)).
Definition dropping (c0 e n : Z) (drop : bool) : list aop := if drop then [ODealloc (room c0 n * e)] else [].

(** [m] is what a pass measures that makes the calls [ops] after the history [h] *)
Definition measured b (h ops : list aop) (m : space_pass) : Prop :=
  feasible (h ++ OSave :: ops) /\
  exists al outs al', arun b (ainit kept_slots) h = Val (al, outs) /\ run_sync_pass b al ops = Val (al', m).

(** ** The room *)
(** 0 for no element, else the least [c0 * 2^k] that holds [n] *)
Definition holds (c0 n c : Z) : Prop := (n = 0 /\ c = 0) \/ (1 <= n /\ exists k, 0 <= k /\ c = c0 * 2 ^ k /\ n <= c /\ (c = c0 \/ c < 2 * n)).
Lemma push_holds c0 e cap len : 1 <= c0 -> 0 <= len -> holds c0 len cap -> holds c0 (len + 1) (snd (push c0 e cap len)).
Proof.
  intros C L H. unfold push. destruct (Z.ltb_spec len cap) as [LT|GE]; cbn [snd].
  - destruct H as [[-> ->]|(L1 & k & K & -> & B & D)]; [lia|]. right. split; [lia|]. exists k. repeat split; lia.
  - destruct (Z.eqb_spec cap 0) as [->|N]; cbn [snd].
    + destruct H as [[-> _]|(L1 & k & K & E & B & D)]; [|lia]. right. split; [lia|]. exists 0. rewrite Z.pow_0_r. repeat split; lia.
    + destruct H as [[_ ->]|(L1 & k & K & -> & B & D)]; [lia|]. right. split; [lia|]. exists (k + 1). rewrite Z.pow_add_r by lia. change (2 ^ 1) with 2. repeat split; lia.
Qed.
Lemma holds_nonneg c0 n c : 1 <= c0 -> holds c0 n c -> 0 <= c.
Proof. intros C [[_ ->]|(L & k & K & -> & B & _)]; [lia|]. pose proof (Z.pow_pos_nonneg 2 k ltac:(lia) K). nia. Qed.
Lemma holds_unique c0 n c c' : 1 <= c0 -> holds c0 n c -> holds c0 n c' -> c = c'.
Proof.
  intros C [[N ->]|(L & k & K & -> & B & D)] [[N' ->]|(L' & k' & K' & -> & B' & D')]; try lia.
  destruct (Z.lt_trichotomy k k') as [H|[->|H]]; [|reflexivity|].
  - assert (2 * 2 ^ k <= 2 ^ k') by (rewrite <- Z.pow_succ_r by lia; apply Z.pow_le_mono_r; lia).
    pose proof (Z.pow_pos_nonneg 2 k ltac:(lia) K). destruct D' as [D'|D']; nia.
  - assert (2 * 2 ^ k' <= 2 ^ k) by (rewrite <- Z.pow_succ_r by lia; apply Z.pow_le_mono_r; lia).
    pose proof (Z.pow_pos_nonneg 2 k' ltac:(lia) K'). destruct D as [D|D]; nia.
Qed.

(** a run of pushes: the memory only grows, from nothing to the difference of the rooms *)
Lemma levels_bound_app p q lo hi : (forall x, In x (levels [] p) -> lo <= x <= hi) -> (forall x, In x (levels [] q) -> lo <= used p + x <= hi) ->
  forall x, In x (levels [] (p ++ q)) -> lo <= x <= hi.
Proof.
  intros P Q x X. unfold levels in X. apply in_map_iff in X. destruct X as (i & <- & I). cbn [app]. rewrite firstn_app.
  destruct (Nat.le_gt_cases i (length p)) as [L|G].
  - replace (i - length p)%nat with 0%nat by lia. cbn [firstn]. rewrite app_nil_r. apply P. unfold levels. apply in_map_iff. exists i. split; [reflexivity|]. apply in_seq. lia.
  - rewrite (firstn_all2 p) by lia. unfold used. rewrite total_app. fold (used p). apply Q. unfold levels. apply in_map_iff.
    exists (i - length p)%nat. split; [reflexivity|]. apply in_seq in I. rewrite app_length in I. apply in_seq. lia.
Qed.
Lemma push_levels c0 e cap len : 1 <= c0 -> 0 <= e -> 0 <= cap ->
  let (ops, cap') := push c0 e cap len in
  cap <= cap' /\ used ops = (cap' - cap) * e /\ saves ops = 0 /\ (forall x, In x (levels [] ops) -> 0 <= x <= (cap' - cap) * e).
Proof.
  intros C E K. unfold push. destruct (len <? cap); [|destruct (Z.eqb_spec cap 0) as [->|N]].
  - split; [lia|]. split; [unfold used, total, sum; cbn; lia|]. split; [reflexivity|]. intros x [<-|[]]. unfold used, total, sum. cbn. lia.
  - split; [lia|]. split; [unfold used, total, sum; cbn; lia|]. split; [reflexivity|]. intros x [<-|[<-|[]]]; unfold used, total, sum; cbn [map fold_right app firstn delta]; nia.
  - split; [lia|]. split; [unfold used, total, sum; cbn [map fold_right delta]; lia|]. split; [reflexivity|]. intros x [<-|[<-|[]]]; unfold used, total, sum; cbn [map fold_right app firstn delta]; nia.
Qed.
Lemma pushes_ok c0 e n : 1 <= c0 -> 0 <= e -> forall cap len, 0 <= len -> holds c0 len cap ->
  let (ops, cap') := pushes c0 e cap len n in
  holds c0 (len + Z.of_nat n) cap' /\ cap <= cap' /\ used ops = (cap' - cap) * e /\ saves ops = 0 /\ (forall x, In x (levels [] ops) -> 0 <= x <= (cap' - cap) * e).
Proof.
  intros C E. induction n as [|n IH]; intros cap len L H; cbn [pushes].
  - rewrite Z.add_0_r. split; [exact H|]. split; [lia|]. split; [unfold used, total, sum; cbn; lia|]. split; [reflexivity|]. intros x [<-|[]]. unfold used, total, sum. cbn. lia.
  - pose proof (push_holds c0 e cap len C L H) as H1. pose proof (push_levels c0 e cap len C E (holds_nonneg _ _ _ C H)) as P1.
    destruct (push c0 e cap len) as [ops cap1]. cbn [snd] in H1. destruct P1 as (K1 & U1 & S1 & B1).
    specialize (IH cap1 (len + 1) ltac:(lia) H1). destruct (pushes c0 e cap1 (len + 1) n) as [rest cap2]. destruct IH as (H2 & K2 & U2 & S2 & B2).
    split; [replace (len + Z.of_nat (S n)) with (len + 1 + Z.of_nat n) by lia; exact H2|]. split; [lia|].
    split; [unfold used in *; rewrite total_app; lia|]. split; [rewrite saves_app; lia|].
    apply levels_bound_app; [intros x X; specialize (B1 x X); nia|]. intros x X. specialize (B2 x X). rewrite U1. nia.
Qed.
(** the room does not depend on the size of the elements *)
Lemma pushes_room c0 e e' n : forall cap len, snd (pushes c0 e cap len n) = snd (pushes c0 e' cap len n).
Proof.
  induction n as [|n IH]; intros cap len; cbn [pushes]; [reflexivity|].
  assert (snd (push c0 e cap len) = snd (push c0 e' cap len)) as P by (unfold push; destruct (len <? cap), (cap =? 0); reflexivity).
  destruct (push c0 e cap len) as [o1 c1], (push c0 e' cap len) as [o2 c2]. cbn [snd] in P. subst c2. specialize (IH c1 (len + 1)).
  destruct (pushes c0 e c1 (len + 1) n), (pushes c0 e' c1 (len + 1) n). exact IH.
Qed.
Lemma room_holds c0 n : 1 <= c0 -> 0 <= n -> holds c0 n (room c0 n).
Proof.
  intros C N. pose proof (pushes_ok c0 1 (Z.to_nat n) C ltac:(lia) 0 0 ltac:(lia) (or_introl (conj eq_refl eq_refl))) as P.
  unfold room. destruct (pushes c0 1 0 0 (Z.to_nat n)) as [o c]. destruct P as (H & _). rewrite Z2Nat.id in H by lia. exact H.
Qed.
(** the peak of [n] pushes onto a vector of [len], whether it is dropped afterwards or not *)
Lemma pushing_peak c0 e len n drop : 1 <= c0 -> 0 <= e -> 0 <= len -> 0 <= n -> (drop = true -> len = 0) ->
  peak (pushing c0 e len n ++ dropping c0 e (len + n) drop) ((room c0 (len + n) - room c0 len) * e) /\ saves (pushing c0 e len n ++ dropping c0 e (len + n) drop) = 0.
Proof.
  intros C E L N DR. unfold pushing. pose proof (pushes_ok c0 e (Z.to_nat n) C E (room c0 len) len L (room_holds _ _ C L)) as P.
  destruct (pushes c0 e (room c0 len) len (Z.to_nat n)) as [ops cap]. cbn [fst]. destruct P as (H & K & U & S & B). rewrite Z2Nat.id in H by lia.
  pose proof (holds_unique c0 (len + n) _ _ C H (room_holds c0 (len + n) C ltac:(lia))) as EQ. subst cap. clear H.
  unfold dropping. destruct drop.
  - rewrite (DR eq_refl) in *. split.
    + split.
      * unfold levels. apply in_map_iff. exists (length ops). split; [|apply in_seq; rewrite app_length; lia].
        cbn [app]. rewrite firstn_app, firstn_all, Nat.sub_diag. cbn [firstn]. rewrite app_nil_r. exact U.
      * intros x X. apply (levels_bound_app ops _ 0 ((room c0 (0 + n) - room c0 0) * e)) in X; [lia|exact B|]. intros y [<-|[<-|[]]]; rewrite U; unfold used, total, sum; cbn [map fold_right app firstn delta]; change (room c0 0) with 0 in *; nia.
    + rewrite saves_app, S. reflexivity.
  - rewrite app_nil_r. split; [|exact S]. split.
    + rewrite <- U. apply (levels_last [] ops).
    + intros x X. specialize (B x X). lia.
Qed.
Lemma filling_pushing c0 e n : filling c0 e n = pushing c0 e 0 n.
Proof. reflexivity. Qed.

Lemma measured_growth b h ops m p : measured b h ops m -> saves ops = 0 -> peak ops p -> growth m = p /\ space_ok m.
Proof.
  intros (F & al & outs & al' & A & R) S P. assert (SZ : (0 < kept_slots)%nat) by (unfold kept_slots; lia).
  assert (SZ' : Z.of_nat kept_slots < two32) by reflexivity.
  destruct (arun_ok b kept_slots h SZ SZ' (feasible_prefix _ _ F)) as (s & o & E & _ & I). rewrite A in E. injection E as <- _.
  destruct (run_sync_pass_ok b kept_slots h al ops SZ SZ' I F) as (s' & m' & R' & _ & T). rewrite R in R'. injection R' as _ <-.
  assert (G : saves ops <= Z.of_nat kept_slots) by (rewrite S; lia). split; [exact (true_measurement_growth _ _ _ _ _ G T P)|].
  destruct T as [(_ & B & _ & MN & MX)|(G' & _)]; [|lia]. unfold space_ok. rewrite B.
  pose proof (used_feasible _ (feasible_prefix _ _ F)). destruct MX as [IN MX]. 
  assert (LV : forall x, In x (levels h ops) -> x < two64).
  { intros x X. destruct F as (_ & LV & _). apply LV. rewrite <- app_cons_assoc. apply levels_sub. rewrite levels_save. exact X. }
  pose proof (LV _ IN). split; [|lia]. split; [lia|]. apply MX. unfold levels. apply in_map_iff. exists 0%nat. split; [cbn [firstn]; rewrite app_nil_r; reflexivity|apply in_seq; lia].
Qed.
Lemma pushing_growth b h c0 e len n drop m : 1 <= c0 -> 0 <= e -> 0 <= len -> 0 <= n -> (drop = true -> len = 0) ->
  measured b h (pushing c0 e len n ++ dropping c0 e (len + n) drop) m -> growth m = (room c0 (len + n) - room c0 len) * e /\ space_ok m.
Proof. intros C E L N D M. destruct (pushing_peak c0 e len n drop C E L N D) as [P S]. exact (measured_growth _ _ _ _ _ M S P). Qed.

(** ** Doubling the number of elements doubles the room *)
Lemma room_double c0 n : 1 <= c0 -> 1 <= n -> c0 < 2 * n -> room c0 (2 * n) = 2 * room c0 n.
Proof.
  intros C N L. apply (holds_unique c0 (2 * n)); [exact C|apply room_holds; lia|].
  destruct (room_holds c0 n C ltac:(lia)) as [[? _]|(_ & k & K & -> & B & D)]; [lia|]. right. split; [lia|]. exists (k + 1).
  rewrite Z.pow_add_r by lia. change (2 ^ 1) with 2. repeat split; lia.
Qed.
Lemma room_pos c0 n : 1 <= c0 -> 1 <= n -> n <= room c0 n.
Proof. intros C N. destruct (room_holds c0 n C ltac:(lia)) as [[? _]|(_ & k & K & -> & B & D)]; lia. Qed.
Lemma room_pow c0 n j : 1 <= c0 -> 1 <= n -> c0 < 2 * n -> 0 <= j -> room c0 (2 ^ j * n) = 2 ^ j * room c0 n.
Proof.
  intros C N L J. revert j J. apply (natlike_ind (fun j => room c0 (2 ^ j * n) = 2 ^ j * room c0 n)).
  - rewrite Z.pow_0_r, !Z.mul_1_l. reflexivity.
  - intros j J IH. rewrite Z.pow_succ_r by lia. pose proof (Z.pow_pos_nonneg 2 j ltac:(lia) J). rewrite <- !Z.mul_assoc, room_double, IH; nia.
Qed.
Lemma room_full c0 k : 1 <= c0 -> 0 <= k -> room c0 (c0 * 2 ^ k) = c0 * 2 ^ k /\ room c0 (c0 * 2 ^ k + 1) = 2 * (c0 * 2 ^ k).
Proof.
  intros C K. pose proof (Z.pow_pos_nonneg 2 k ltac:(lia) K). split; (eapply holds_unique; [exact C|apply room_holds; nia|]); right; (split; [nia|]).
  - exists k. repeat split; lia.
  - exists (k + 1). rewrite Z.pow_add_r by lia. change (2 ^ 1) with 2. repeat split; try nia.
Qed.

(** ** C110 *)
(** What such a pass measures: exactly the memory of the room added. *)
Theorem C110_what_is_measured : forall b c0 e h len n m,
  1 <= c0 -> 0 <= e -> 0 <= len -> 0 <= n -> measured b h (pushing c0 e len n) m ->
  growth m = (room c0 (len + n) - room c0 len) * e.
Proof.
  intros b c0 e h len n m C E L N M. apply (pushing_growth b h c0 e len n false m C E L N); [discriminate|]. unfold dropping. rewrite app_nil_r. exact M.
Qed.
Print Assumptions C110_what_is_measured.

(** The creates of a CRUD test on a vector: O(1) space, whatever the number of creates per pass,
    the size of the elements, the tolerance, the build and what else the program does. *)
Theorem C110_pushes_are_constant : forall b t l c0 e n h1 m1 h2 m2,
  1 <= c0 -> 1 <= e -> 1 <= n -> c0 < 2 * n ->
  measured b h1 (filling c0 e n) m1 -> measured b h2 (pushing c0 e n n) m2 ->
  analyse_space_complexity_set_resizing b t l n m1 m2 = Val O1.
Proof.
  intros b t l c0 e n h1 m1 h2 m2 C E N L M1 M2. rewrite filling_pushing in M1.
  destruct (pushing_growth b h1 c0 e 0 n false m1 C ltac:(lia) ltac:(lia) ltac:(lia) ltac:(discriminate) ltac:(unfold dropping; rewrite app_nil_r; exact M1)) as [G1 S1].
  destruct (pushing_growth b h2 c0 e n n false m2 C ltac:(lia) ltac:(lia) ltac:(lia) ltac:(discriminate) ltac:(unfold dropping; rewrite app_nil_r; exact M2)) as [G2 S2].
  replace (n + n) with (2 * n) in G2 by lia. rewrite room_double in G2 by lia. rewrite Z.add_0_l in G1. change (room c0 0) with 0 in G1.
  pose proof (room_pos c0 n C N). apply (C02_equal_usage_space b t l n n m1 m2 S1 S2); nia.
Qed.
Print Assumptions C110_pushes_are_constant.

(** Filling a vector in test_algorithm with 2, 4, 8... times as many elements in the second pass: O(n). *)
Theorem C110_filling_is_linear : forall b t l c0 e n1 j drop1 drop2 h1 m1 h2 m2,
  libm_accurate l -> 1 <= c0 -> 1 <= e -> 4 <= n1 -> c0 < 2 * n1 -> 1 <= j -> 2 ^ j * n1 < two32 ->
  measured b h1 (filling c0 e n1 ++ dropping c0 e n1 drop1) m1 -> measured b h2 (filling c0 e (2 ^ j * n1) ++ dropping c0 e (2 ^ j * n1) drop2) m2 ->
  analyse_space_complexity b t l n1 (2 ^ j * n1) m1 m2 = Val ON.
Proof.
  intros b t l c0 e n1 j drop1 drop2 h1 m1 h2 m2 LM C E N L J B M1 M2. rewrite filling_pushing in M1, M2.
  destruct (pushing_growth b h1 c0 e 0 n1 drop1 m1 C ltac:(lia) ltac:(lia) ltac:(lia) ltac:(reflexivity) M1) as [G1 S1].
  destruct (pushing_growth b h2 c0 e 0 (2 ^ j * n1) drop2 m2 C ltac:(lia) ltac:(lia) ltac:(lia) ltac:(reflexivity) M2) as [G2 S2].
  rewrite Z.add_0_l in G1, G2. change (room c0 0) with 0 in G1, G2. rewrite room_pow in G2 by lia.
  pose proof (room_pos c0 n1 C ltac:(lia)). assert (J2 : 2 <= 2 ^ j) by (change 2 with (2 ^ 1) at 1; apply Z.pow_le_mono_r; lia).
  assert (R : (space_ratio m1 m2 = IZR (2 ^ j * n1) / IZR n1)%R).
  { unfold space_ratio. rewrite G1, G2. rewrite !Z.sub_0_r, !mult_IZR. pose proof (IZR_le 4 n1 N). pose proof (IZR_le 1 e E). pose proof (IZR_le 1 (room c0 n1) ltac:(lia)). field. lra. }
  assert (GR : 2 * n1 <= 2 ^ j * n1) by (clear - J2 N; nia). assert (P1 : 0 < growth m1) by (rewrite G1; apply Z.mul_pos_pos; lia).
  assert (P2 : 0 < growth m2) by (rewrite G2, Z.sub_0_r; apply Z.mul_pos_pos; [apply Z.mul_pos_pos|]; lia).
  refine (proj1 (C05_binary64_noisy_space b t l Ln n1 (2 ^ j * n1) m1 m2 LM N (conj GR B) _ S1 P1 S2 P2 _)); [intros [?|?]; discriminate|].
  cbn [law_fun]. rewrite R. pose proof (IZR_lt 0 n1 ltac:(lia)). pose proof (IZR_lt 0 (2 ^ j * n1) ltac:(lia)).
  assert (0 < IZR (2 ^ j * n1) / IZR n1)%R by (apply Rdiv_lt_0_compat; assumption). lra.
Qed.
Print Assumptions C110_filling_is_linear.

(** Other sizes: the same vector, filled one element past a full room with (nearly) twice as
    many elements, is said to use constant space... *)
Theorem C110_constant_by_luck : forall b t l c0 e k drop1 drop2 h1 m1 h2 m2,
  1 <= c0 -> 1 <= e -> 0 <= k ->
  let c := c0 * 2 ^ k in
  measured b h1 (filling c0 e (c + 1) ++ dropping c0 e (c + 1) drop1) m1 -> measured b h2 (filling c0 e (2 * c) ++ dropping c0 e (2 * c) drop2) m2 ->
  analyse_space_complexity b t l (c + 1) (2 * c) m1 m2 = Val O1.
Proof.
  intros b t l c0 e k drop1 drop2 h1 m1 h2 m2 C E K c M1 M2. rewrite filling_pushing in M1, M2.
  assert (P : 1 <= c) by (unfold c; pose proof (Z.pow_pos_nonneg 2 k ltac:(lia) K); nia).
  destruct (pushing_growth b h1 c0 e 0 (c + 1) drop1 m1 C ltac:(lia) ltac:(lia) ltac:(lia) ltac:(reflexivity) M1) as [G1 S1].
  destruct (pushing_growth b h2 c0 e 0 (2 * c) drop2 m2 C ltac:(lia) ltac:(lia) ltac:(lia) ltac:(reflexivity) M2) as [G2 S2].
  rewrite Z.add_0_l in G1, G2. change (room c0 0) with 0 in G1, G2.
  destruct (room_full c0 k C K) as [_ F1]. destruct (room_full c0 (k + 1) C ltac:(lia)) as [F2 _].
  rewrite Z.pow_add_r in F2 by lia. change (2 ^ 1) with 2 in F2. replace (c0 * (2 ^ k * 2)) with (2 * c) in F2 by (unfold c; lia). fold c in F1.
  rewrite F1 in G1. rewrite F2 in G2. 
  assert (P1 : 0 < growth m1) by (rewrite G1; apply Z.mul_pos_pos; lia). assert (Q : growth m1 = growth m2) by (rewrite G1, G2; reflexivity).
  exact (proj1 (C02_equal_usage_space b t l (c + 1) (2 * c) m1 m2 S1 S2 P1 Q)).
Qed.
Print Assumptions C110_constant_by_luck.

(** ... and filled exactly, then with one more than twice as many elements, to use quadratic space. *)
Theorem C110_quadratic_by_luck : forall b t l c0 e k drop1 drop2 h1 m1 h2 m2,
  libm_accurate l -> 1 <= c0 -> 1 <= e -> 0 <= k ->
  let c := c0 * 2 ^ k in 32 <= c -> 2 * c + 1 < two32 ->
  measured b h1 (filling c0 e c ++ dropping c0 e c drop1) m1 -> measured b h2 (filling c0 e (2 * c + 1) ++ dropping c0 e (2 * c + 1) drop2) m2 ->
  analyse_space_complexity b t l c (2 * c + 1) m1 m2 = Val ON2.
Proof.
  intros b t l c0 e k drop1 drop2 h1 m1 h2 m2 LM C E K c P B M1 M2. rewrite filling_pushing in M1, M2.
  destruct (pushing_growth b h1 c0 e 0 c drop1 m1 C ltac:(lia) ltac:(lia) ltac:(lia) ltac:(reflexivity) M1) as [G1 S1].
  destruct (pushing_growth b h2 c0 e 0 (2 * c + 1) drop2 m2 C ltac:(lia) ltac:(lia) ltac:(lia) ltac:(reflexivity) M2) as [G2 S2].
  rewrite Z.add_0_l in G1, G2. change (room c0 0) with 0 in G1, G2.
  destruct (room_full c0 k C K) as [F1 _]. destruct (room_full c0 (k + 1) C ltac:(lia)) as [_ F2].
  rewrite Z.pow_add_r in F2 by lia. change (2 ^ 1) with 2 in F2. replace (c0 * (2 ^ k * 2)) with (2 * c) in F2 by (unfold c; lia). fold c in F1.
  rewrite F1 in G1. rewrite F2 in G2. pose proof (IZR_le 32 c P) as PR. pose proof (IZR_le 1 e E).
  assert (P1 : 0 < growth m1) by (rewrite G1; apply Z.mul_pos_pos; lia). assert (P2 : 0 < growth m2) by (rewrite G2; apply Z.mul_pos_pos; lia).
  assert (GR : 2 * c <= 2 * c + 1 < two32) by lia. assert (C4 : 4 <= c) by lia.
  refine (proj1 (C05_binary64_noisy_space b t l Ln2 c (2 * c + 1) m1 m2 LM C4 GR _ S1 P1 S2 P2 _)); [intros [?|?]; discriminate|].
  assert (R : (space_ratio m1 m2 = 4)%R). { unfold space_ratio. rewrite G1, G2, !Z.sub_0_r, !mult_IZR. field. lra. }
  rewrite R. cbn [law_fun]. rewrite plus_IZR, mult_IZR.
  assert (Q : ((2 * IZR c + 1) ^ 2 / IZR c ^ 2 = 4 + 4 / IZR c + 1 / (IZR c * IZR c))%R) by (field; lra). rewrite Q.
  assert (I1 : (0 < / IZR c <= / 32)%R) by (split; [apply Rinv_0_lt_compat; lra|apply Rinv_le_contravar; lra]).
  assert (I2 : (1 / (IZR c * IZR c) = / IZR c * / IZR c)%R) by (field; lra). rewrite I2. unfold Rdiv. nra.
Qed.
Print Assumptions C110_quadratic_by_luck.
(** every feasible pass measures something *)
Theorem C110_measured_exists : forall b h ops, feasible (h ++ OSave :: ops) -> exists m, measured b h ops m.
Proof.
  intros b h ops F. assert (SZ : (0 < kept_slots)%nat) by (unfold kept_slots; lia). assert (SZ' : Z.of_nat kept_slots < two32) by reflexivity.
  destruct (arun_ok b kept_slots h SZ SZ' (feasible_prefix _ _ F)) as (s & o & E & _ & I).
  destruct (run_sync_pass_ok b kept_slots h s ops SZ SZ' I F) as (s' & m & R & _ & _). exists m. split; [exact F|]. exists s, o, s'. split; assumption.
Qed.
Print Assumptions C110_measured_exists.
(** 64 elements of 8 bytes twice, after some other allocation: 512 bytes each time; 129 elements, dropped *)
Example C110_example_calls :
  filling 4 8 64 = [OAlloc 32 true; ORealloc 32 64 true; ORealloc 64 128 true; ORealloc 128 256 true; ORealloc 256 512 true] /\
  pushing 4 8 64 64 = [ORealloc 512 1024 true] /\
  filling 4 8 129 ++ dropping 4 8 129 true = [OAlloc 32 true; ORealloc 32 64 true; ORealloc 64 128 true; ORealloc 128 256 true; ORealloc 256 512 true; ORealloc 512 1024 true; ORealloc 1024 2048 true; ODealloc 2048].
Proof. split; [|split]; vm_compute; reflexivity. Qed.
Lemma run_measured h ops m : feasible (h ++ OSave :: ops) ->
  match arun Debug (ainit kept_slots) h with Val (al, _) => match run_sync_pass Debug al ops with Val (_, m') => m' = m | _ => False end | _ => False end -> measured Debug h ops m.
Proof.
  intros F H. split; [exact F|]. destruct (arun Debug (ainit kept_slots) h) as [[al outs]|p|]; try contradiction.
  destruct (run_sync_pass Debug al ops) as [[al' m']|p|] eqn:R; try contradiction. subst m'. exists al, outs, al'. split; [reflexivity|exact R].
Qed.
Ltac computed_feasible :=
  unfold feasible; rewrite two64_val, two32_val;
  split; [repeat constructor; unfold sizes_ok; rewrite ?two64_val; lia|];
  split; [intros x Hx; vm_compute in Hx; repeat (destruct Hx as [<-|Hx]; [lia|]); destruct Hx|];
  unfold saves, total, sum; cbn; lia.
Example C110_example_1 : measured Debug [OAlloc 100 true]
  [OAlloc 32 true; ORealloc 32 64 true; ORealloc 64 128 true; ORealloc 128 256 true; ORealloc 256 512 true]
  {| used_memory_before := 100; used_memory_after := 612; max_used_memory := 612; min_used_memory := 100 |}.
Proof. apply run_measured; [computed_feasible|vm_compute; reflexivity]. Qed.
Example C110_example_2 : measured Debug [OAlloc 512 true] [ORealloc 512 1024 true]
  {| used_memory_before := 512; used_memory_after := 1024; max_used_memory := 1024; min_used_memory := 512 |}.
Proof. apply run_measured; [computed_feasible|vm_compute; reflexivity]. Qed.
Example C110_example_3 : measured Debug []
  [OAlloc 32 true; ORealloc 32 64 true; ORealloc 64 128 true; ORealloc 128 256 true; ORealloc 256 512 true; ORealloc 512 1024 true; ORealloc 1024 2048 true; ODealloc 2048]
  {| used_memory_before := 0; used_memory_after := 0; max_used_memory := 2048; min_used_memory := 0 |}.
Proof. apply run_measured; [computed_feasible|vm_compute; reflexivity]. Qed.
