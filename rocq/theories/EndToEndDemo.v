(** * The hypotheses of C77 and C78 are met: a program allocating n bytes and taking n us. *)
From Coq Require Import List ZArith String Lia Bool Reals Lra Psatz.
From Verif Require Import Machine Complexity Floats Analysis AnalysisF64b AnalysisF64d GrowthSpec Bridge Bridge4 Alloc AllocSpec AllocProofs Report Crud CrudSpec Free Standard StandardSpec PropsStandard EndToEnd EndToEndSpec EndToEndProofs PropsEndToEnd Demo.
Import ListNotations.
Open Scope Z_scope.

(** ** at most [k] closure calls on any path *)
Definition is_call (q : squery) : nat := match q with SOut _ => 0%nat | _ => 1%nat end.
Inductive calls_le {A} : nat -> fprog sans A -> Prop :=
| cl_ret k a : calls_le k (FRet a)
| cl_stop k p : calls_le k (FStop p)
| cl_ask k q c : (forall a, calls_le k (c a)) -> calls_le (k + is_call q) (FAsk q c).
Lemma calls_le_more {A} k (m : fprog sans A) : calls_le k m -> forall k', (k <= k')%nat -> calls_le k' m.
Proof.
  induction 1 as [k a|k p|k q c H IH]; intros k' L; try constructor.
  replace k' with ((k' - is_call q) + is_call q)%nat by lia. constructor. intros a. apply IH. lia.
Qed.
Lemma calls_le_bind {A B} k (m : fprog sans A) : calls_le k m -> forall k' (f : A -> fprog sans B), (forall a, calls_le k' (f a)) -> calls_le (k + k') (fbind m f).
Proof.
  induction 1 as [k a|k p|k q c H IH]; intros k' f F; cbn [fbind].
  - apply calls_le_more with k'; [apply F|lia].
  - constructor.
  - replace (k + is_call q + k')%nat with (k + k' + is_call q)%nat by lia. constructor. intros a. apply IH, F.
Qed.
Lemma calls_le_lift {A} (x : res A) : calls_le 0 (flift x).
Proof. destruct x; constructor. Qed.
Lemma calls_le_ask q : calls_le (is_call q) (ask q).
Proof. change (is_call q) with (0 + is_call q)%nat. constructor. intros a. constructor. Qed.
Lemma calls_le_show b pre m suf : calls_le 0 (show_pass b pre m suf).
Proof. unfold show_pass. apply (calls_le_bind 0 _ (calls_le_lift _) 0). intros a. apply (calls_le_ask (SOut _)). Qed.
Lemma calls_le_run b t l cfg : calls_le 3 (analyse_algorithm b t l cfg).
Proof.
  unfold analyse_algorithm. apply (calls_le_bind 0 _ (calls_le_ask (SOut _)) 3). intros _.
  apply (calls_le_bind 1 _ (calls_le_ask SReset) 2). intros m0. apply (calls_le_bind 0 _ (calls_le_show _ _ _ _) 2). intros _.
  apply (calls_le_bind 1 _ (calls_le_ask SPass1) 1). intros x1. apply (calls_le_bind 0 _ (calls_le_show _ _ _ _) 1). intros _.
  apply (calls_le_bind 1 _ (calls_le_ask SPass2) 0). intros x2. apply (calls_le_bind 0 _ (calls_le_show _ _ _ _) 0). intros _.
  apply (calls_le_bind 0 _ (calls_le_lift _) 0). intros sc. apply (calls_le_bind 0 _ (calls_le_ask (SOut _)) 0). intros _.
  apply (calls_le_bind 0 _ (calls_le_lift _) 0). intros rep.
  apply (calls_le_bind 0 _ (calls_le_ask (SOut _)) 0). intros _.
  destruct (worse_than _ _); [|destruct (worse_than _ _)]; apply (calls_le_bind 0 _ (calls_le_ask (SOut _)) 0); intros _; constructor.
Qed.
Lemma calls_le_test b t l cfg max : calls_le (3 * (1 + Z.to_nat max)) (test_algorithm b t l cfg max).
Proof.
  unfold test_algorithm.
  replace (3 * (1 + Z.to_nat max))%nat with (3 * (1 + Z.to_nat max) + 0)%nat by lia. apply calls_le_bind; [|intros x; constructor].
  unfold retry_with_delays. replace (3 * (1 + Z.to_nat max))%nat with (3 + 3 * Z.to_nat max)%nat by lia.
  apply calls_le_bind; [apply calls_le_run|]. intros [o|i e|i f]; [constructor| |constructor].
  assert (L : forall n i errs e, calls_le (3 * n) (retry_loop (fun _ : unit => analyse_algorithm b t l cfg) n i errs e)).
  { induction n as [|n IH]; intros i0 errs e0; cbn [retry_loop]; [constructor|].
    replace (3 * Datatypes.S n)%nat with (3 + 3 * n)%nat by lia. apply calls_le_bind; [apply calls_le_run|].
    intros [o|i1 e1|i1 f1]; [constructor|apply IH|constructor]. }
  apply L.
Qed.

(** ** the program *)
Definition demo_ops (n : Z) : list aop := [OAlloc n true; ODealloc n].
Definition demo_closure : behaviour unit := fun _ q _ ops d r =>
  match q with
  | SReset => ops = demo_ops 64 /\ d = 5 /\ r = 0
  | SPass1 => ops = demo_ops 1000 /\ d = 1000000 /\ r = 1
  | SPass2 => ops = demo_ops 2000 /\ d = 2000000 /\ r = 2
  | SOut _ => ops = [] /\ d = 0 /\ r = 0
  end.

(** histories of at most [k] balanced calls *)
Inductive tame : nat -> list aop -> Prop :=
| tame_nil : tame 0 []
| tame_more k h n : 0 <= n <= 2000 -> tame k h -> tame (k + 1) (h ++ OSave :: demo_ops n).
Lemma tame_used k h : tame k h -> used h = 0.
Proof. induction 1 as [|k h n Hn T IH]; [reflexivity|]. rewrite used_app, IH. unfold used, total. cbn. lia. Qed.
Lemma tame_levels k h : tame k h -> forall x, In x (levels [] h) -> 0 <= x <= 2000.
Proof.
  induction 1 as [|k h n Hn T IH]; intros x Hx; [destruct Hx as [<-|[]]; cbn; lia|].
  pose proof (tame_used _ _ T) as U.
  change (h ++ OSave :: demo_ops n) with (h ++ ([OSave] ++ [OAlloc n true] ++ [ODealloc n])) in Hx.
  rewrite !app_assoc in Hx. rewrite !levels_snoc in Hx. cbn [app] in Hx. rewrite !in_app_iff in Hx.
  rewrite !used_app, U in Hx. unfold used, total in Hx. cbn in Hx.
  destruct Hx as [[[Hx|[<-|[]]]|[<-|[]]]|[<-|[]]]; [apply IH; exact Hx|lia|lia|lia].
Qed.
Lemma tame_totals k h : tame k h ->
  length h = (3 * k)%nat /\ Forall sizes_ok h /\ saves h = Z.of_nat k /\
  total f_allocated h <= 2000 * Z.of_nat k /\ total f_deallocated h <= 2000 * Z.of_nat k /\
  total f_zeroed_bytes h = 0 /\ total f_realloc_old h = 0 /\ total f_realloc_new h = 0.
Proof.
  induction 1 as [|k h n Hn T (I1 & I2 & I3 & I4 & I5 & I6 & I7 & I8)].
  - split; [reflexivity|]. split; [constructor|]. repeat split; cbn; lia.
  - pose proof two64_val. rewrite app_length, saves_app, !total_app, I1, I3, I6, I7, I8.
    split; [cbn [length demo_ops]; lia|]. split; [apply Forall_app; split; [exact I2|]; repeat constructor; cbn; lia|].
    replace (saves (OSave :: demo_ops n)) with 1 by reflexivity.
    replace (total f_allocated (OSave :: demo_ops n)) with n by (unfold total; cbn; lia).
    replace (total f_deallocated (OSave :: demo_ops n)) with n by (unfold total; cbn; lia).
    replace (total f_zeroed_bytes (OSave :: demo_ops n)) with 0 by reflexivity.
    replace (total f_realloc_old (OSave :: demo_ops n)) with 0 by reflexivity.
    replace (total f_realloc_new (OSave :: demo_ops n)) with 0 by reflexivity.
    repeat split; lia.
Qed.
Lemma tame_roomy k h : Z.of_nat k < two32 -> tame k h -> roomy h.
Proof.
  intros Hk T. pose proof two64_val. pose proof two32_val. destruct (tame_totals _ _ T) as (I1 & I2 & I3 & I4 & I5 & I6 & I7 & I8).
  split; [|intros x Hx; pose proof (tame_levels _ _ T x Hx); lia].
  split; [exact I2|]. split; [intros x Hx; pose proof (tame_levels _ _ T x Hx); lia|]. rewrite I1, I6, I7, I8, I3. repeat split; lia.
Qed.

Lemma demo_history b {A} (m : fprog sans A) k : calls_le k m -> forall s tr s' o j,
  fexec (alloc_world b demo_closure) m s tr s' o -> tame j (m_history s) -> exists j', (j' <= j + k)%nat /\ tame j' (m_history s').
Proof.
  induction 1 as [k a|k p|k q c H IH]; intros s tr s' o j X T.
  - destruct X as (_ & -> & _). exists j. split; [lia|exact T].
  - destruct X as (_ & -> & _). exists j. split; [lia|exact T].
  - assert (ST : forall s2 (a : option (sans q)), alloc_world b demo_closure s q s2 a -> tame (j + is_call q) (m_history s2)).
    { intros s2 a W. unfold alloc_world in W. destruct q; [destruct W as (x & W & _)| | |]; destruct W as (ops & d & r & CC & HH & _); rewrite HH; destruct CC as (-> & _).
      1-3: cbn [is_call]; constructor; [lia|exact T]. rewrite app_nil_r. cbn [is_call]. rewrite Nat.add_0_r. exact T. }
    destruct X as [(a & s2 & tr' & W & X & _)|(W & _)].
    + destruct (IH a _ _ _ _ _ X (ST _ _ W)) as (j' & L & T'). exists j'. split; [lia|exact T'].
    + exists (j + is_call q)%nat. split; [lia|exact (ST _ _ W)].
Qed.
Lemma demo_answers b : answers (alloc_world b demo_closure).
Proof.
  intros s q.
  assert (M : forall q n d r, (forall u u', demo_closure u q u' (demo_ops n) d r) -> exists s' x, measured_call b demo_closure q s s' x).
  { intros q0 n d r HC. destruct (run_sync_pass b (m_alloc s) (demo_ops n)) as [[al m]|p|] eqn:E.
    - exists (MState al (m_history s ++ OSave :: demo_ops n) tt), (Some (PassResult d m, r)), (demo_ops n), d, r. rewrite E. repeat split. apply HC.
    - exists (MState (m_alloc s) (m_history s ++ OSave :: demo_ops n) tt), None, (demo_ops n), d, r. rewrite E. repeat split. apply HC.
    - exists (MState (m_alloc s) (m_history s ++ OSave :: demo_ops n) tt), None, (demo_ops n), d, r. rewrite E. repeat split. apply HC. }
  destruct q.
  - destruct (M SReset 64 5 0) as (s' & x & H); [repeat split|]. exists s', (option_map fst x). exists x. auto.
  - destruct (M SPass1 1000 1000000 1) as (s' & x & H); [repeat split|]. exists s', x. exact H.
  - destruct (M SPass2 2000 2000000 2) as (s' & x & H); [repeat split|]. exists s', x. exact H.
  - exists (MState (m_alloc s) (m_history s) tt), (Some tt), [], 0, 0. repeat split. rewrite app_nil_r. reflexivity.
Qed.

Lemma demo_peak n : 0 <= n -> peak (demo_ops n) n.
Proof.
  intros Hn. unfold peak, levels, demo_ops, used, total. cbn. split; [right; left; lia|]. intros x [<-|[<-|[<-|[]]]]; lia.
Qed.
Lemma demo_obeys : obeys demo_closure ring_slots 1000 2000 1000 Ln 1 Ln.
Proof.
  intros u q n u' ops d r Q C. unfold follows. cbn [law_fun].
  destruct Q as [Q|Q]; injection Q as -> ->; destruct C as (-> & -> & ->); (split; [lra|]; split; [unfold ring_slots; cbn; lia|]).
  - exists 1000. split; [apply demo_peak; lia|lra].
  - exists 2000. split; [apply demo_peak; lia|lra].
Qed.

(** tests of the same program against three pairs of limits: allowed O(n) and O(n) it passes;
    allowed O(1) memory it is rejected for space; allowed O(1) time, for time *)
Definition demo_limits (mt ms : complexity) : std_cfg := StdCfg "demo" 1000 2000 mt ms.
Example C77_example : forall b t mt ms, exists tr s' o,
  fexec (alloc_world b demo_closure) (test_algorithm b t good_libm (demo_limits mt ms) 2) (MState (ainit ring_slots) [] tt) tr s' o /\
  roomy (m_history s') /\
  (mt = ON -> ms = ON -> o = Val StdPassed) /\
  (ms = O1 -> o = Val (StdPanicked [] (StdError Space O1 ON))) /\
  (mt = O1 -> ms = ON -> o = Val (StdPanicked [StdError Time O1 ON; StdError Time O1 ON] (StdError Time O1 ON))).
Proof.
  intros b t mt ms.
  destruct (fexec_exists _ (test_algorithm b t good_libm (demo_limits mt ms) 2) (demo_answers b) (MState (ainit ring_slots) [] tt)) as (tr & s' & o & X).
  exists tr, s', o. split; [exact X|].
  destruct (demo_history b _ _ (calls_le_test b t good_libm (demo_limits mt ms) 2) _ _ _ _ 0%nat X tame_nil) as (j & L & T).
  assert (R : roomy (m_history s')). { apply tame_roomy with j; [|exact T]. rewrite two32_val. change (Z.to_nat 2) with 2%nat in L. lia. }
  split; [exact R|].
  destruct (C77_end_to_end unit b t good_libm (demo_limits mt ms) demo_closure 1000 Ln 1 Ln 2 [] (ainit ring_slots) [] tt tr s' o) as (runs & ME & _);
    [exact good_libm_accurate|cbn; lia|rewrite two32_val; cbn; lia|intros [?|?]; discriminate|intros [?|?]; discriminate|lra|lra|exact demo_obeys| | |rewrite two32_val; lia|reflexivity|exact X|exact R|].
  - intros u q u' ops d r C. unfold duration_sane, nanos_per_sec. destruct q; destruct C as (_ & -> & _); lia.
  - intros u u' ops d r C. destruct C as (-> & _). unfold ring_slots. cbn. lia.
  - unfold must_end in ME. cbn [demo_limits st_max_space st_max_time law_class] in ME. change (Z.to_nat 2) with 2%nat in ME. cbn [repeat] in ME.
    split; [intros -> ->|split; [intros ->|intros -> ->]]; destruct ME as [(A & -> & _)|[(A & B & -> & _)|(A & B & -> & _)]]; try reflexivity; exfalso; unfold clt, cle in *; cbn in *; lia.
Qed.

(** a program under [no_allocator_metrics] (or one that allocates nothing), allowed O(n) memory: rejected *)
Definition idle_closure : behaviour unit := fun _ q _ ops d r => ops = [] /\ d = 1000000 /\ r = 0.
Lemma idle_answers b : answers (alloc_world b idle_closure).
Proof.
  intros s q.
  assert (M : forall q, exists s' x, measured_call b idle_closure q s s' x).
  { intros q0. destruct (run_sync_pass b (m_alloc s) []) as [[al m]|p|] eqn:E.
    - exists (MState al (m_history s ++ [OSave]) tt), (Some (PassResult 1000000 m, 0)), [], 1000000, 0. rewrite E. repeat split.
    - exists (MState (m_alloc s) (m_history s ++ [OSave]) tt), None, [], 1000000, 0. rewrite E. repeat split.
    - exists (MState (m_alloc s) (m_history s ++ [OSave]) tt), None, [], 1000000, 0. rewrite E. repeat split. }
  destruct q; try apply M.
  - destruct (M SReset) as (s' & x & H). exists s', (option_map fst x). exists x. auto.
  - exists (MState (m_alloc s) (m_history s) tt), (Some tt), [], 1000000, 0. repeat split. rewrite app_nil_r. reflexivity.
Qed.
Lemma idle_history b {A} (m : fprog sans A) k : calls_le k m -> forall s tr s' o,
  fexec (alloc_world b idle_closure) m s tr s' o -> (length (m_history s') <= length (m_history s) + k)%nat.
Proof.
  induction 1 as [k a|k p|k q c H IH]; intros s tr s' o X.
  - destruct X as (_ & -> & _). lia.
  - destruct X as (_ & -> & _). lia.
  - assert (ST : forall s2 (a : option (sans q)), alloc_world b idle_closure s q s2 a -> (length (m_history s2) <= length (m_history s) + is_call q)%nat).
    { intros s2 a W. unfold alloc_world in W. destruct q; [destruct W as (x & W & _)| | |]; destruct W as (ops & d & r & CC & HH & _); rewrite HH; destruct CC as (-> & _); rewrite app_length; cbn; lia. }
    destruct X as [(a & s2 & tr' & W & X & _)|(W & _)].
    + pose proof (IH a _ _ _ _ X). pose proof (ST _ _ W). lia.
    + pose proof (ST _ _ W). lia.
Qed.
Example C78_example : forall b t, exists tr s',
  fexec (alloc_world b idle_closure) (test_algorithm b t demo_libm (demo_limits ON ON) 2) (MState (ainit ring_slots) [] tt) tr s'
    (Val (StdPanicked [] (StdError Space ON WorseThanExponential))).
Proof.
  intros b t.
  destruct (fexec_exists _ (test_algorithm b t demo_libm (demo_limits ON ON) 2) (idle_answers b) (MState (ainit ring_slots) [] tt)) as (tr & s' & o & X).
  exists tr, s'.
  pose proof (idle_history b _ _ (calls_le_test b t demo_libm (demo_limits ON ON) 2) _ _ _ _ X) as L. cbn [m_history length] in L. change (Z.to_nat 2) with 2%nat in L.
  destruct (C78_no_allocator_metrics unit b t demo_libm (demo_limits ON ON) idle_closure 2 tr tt s' o) as [-> _];
    [exact demo_powf_zero|rewrite two32_val; cbn; lia|rewrite two32_val; cbn; lia| | |rewrite two32_val; lia|exact X|rewrite two32_val; lia|discriminate|exact X].
  - intros u q u' ops d r (-> & _). reflexivity.
  - intros u q u' ops d r (_ & -> & _). unfold duration_sane, nanos_per_sec. lia.
Qed.
