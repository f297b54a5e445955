(** * Proofs about one pass of an iterator algorithm. *)
From Coq Require Import List ZArith Lia Bool Permutation Arith.
From Verif Require Import Machine IterPass IterSpec RingSeq RingConc.
Import ListNotations.
Open Scope Z_scope.

(** ** i32 arithmetic *)
Lemma to_i32_cong z : to_i32 z mod two32 = z mod two32.
Proof.
  unfold to_i32. pose proof two32_val as V.
  assert (M : (z mod two32) mod two32 = z mod two32) by (apply Z.mod_mod; lia).
  destruct (z mod two32 <? two31); [exact M|].
  replace (z mod two32 - two32) with (z mod two32 + (-1) * two32) by ring.
  rewrite Z.mod_add by lia. exact M.
Qed.

Lemma to_i32_eq x y : x mod two32 = y mod two32 -> to_i32 x = to_i32 y.
Proof. intros H. unfold to_i32. rewrite H. reflexivity. Qed.

Lemma to_i32_signed z : - two31 <= z < two31 -> to_i32 z = z.
Proof.
  intros H. rewrite two31_val in H. destruct (Z.ltb_spec z 0).
  - unfold to_i32.
    assert (E : z mod two32 = z + two32).
    { rewrite <- (Z.mod_add z 1) by (rewrite two32_val; lia). apply Z.mod_small. rewrite two32_val. lia. }
    rewrite E. rewrite two32_val, two31_val.
    destruct (z + 4294967296 <? 2147483648) eqn:X; lia.
  - apply to_i32_in. rewrite two31_val. lia.
Qed.

Lemma to_i32_range z : - two31 <= to_i32 z < two31.
Proof.
  unfold to_i32. pose proof (Z.mod_pos_bound z two32) as H. rewrite two32_val, two31_val in *.
  destruct (z mod 4294967296 <? 2147483648) eqn:X; lia.
Qed.

Lemma to_i32_u32 z : 0 <= z < two32 -> to_i32 z = if z <? two31 then z else z - two32.
Proof. intros H. unfold to_i32. rewrite Z.mod_small by exact H. reflexivity. Qed.

Lemma checked_i32_release z : checked_i32 Release z = Val (to_i32 z).
Proof.
  unfold checked_i32. destruct ((- two31 <=? z) && (z <? two31)) eqn:E; [|reflexivity].
  rewrite to_i32_signed; [reflexivity|]. lia.
Qed.

Lemma as_u32_sum x y v : 0 <= v < two32 -> (x + y) mod two32 = v mod two32 -> i32_as_u32 (x + y) = v.
Proof. intros H E. unfold i32_as_u32. rewrite E. apply Z.mod_small; exact H. Qed.

(** ** The chunks *)
(** per-thread number of iterations, signed like the range *)
Definition cs (r : range) (T : Z) : Z := Z.quot (r_start r - r_end r) T.
Definition piece (r : range) (T n : Z) : range :=
  Range (r_end r + cs r T * n) (r_end r + cs r T * (n + 1)).

Lemma cs_case r T : 0 < T ->
  (r_start r <= r_end r /\ cs r T = - (len r / T)) \/ (r_end r <= r_start r /\ cs r T = len r / T).
Proof.
  intros HT. unfold cs, len, highest, lowest.
  destruct (Z.leb_spec (r_start r) (r_end r)) as [H|H].
  - left. split; [exact H|]. rewrite Z.max_r, Z.min_l by lia.
    replace (r_start r - r_end r) with (- (r_end r - r_start r)) by ring.
    rewrite Z.quot_opp_l by lia. rewrite Z.quot_div_nonneg by lia. reflexivity.
  - right. split; [lia|]. rewrite Z.max_l, Z.min_r by lia.
    rewrite Z.quot_div_nonneg by lia. reflexivity.
Qed.

Lemma len_nonneg r : 0 <= len r. Proof. unfold len, highest, lowest; lia. Qed.

Lemma quota_bound r T n : 0 < T -> 0 <= n <= T -> 0 <= len r / T * n <= len r.
Proof.
  intros HT Hn. pose proof (len_nonneg r).
  pose proof (Z.mul_div_le (len r) T HT). pose proof (Z.div_pos (len r) T ltac:(lia) HT).
  split; [apply Z.mul_nonneg_nonneg; lia|].
  apply Z.le_trans with (len r / T * T); [apply Z.mul_le_mono_nonneg_l; lia|lia].
Qed.

(** every chunk boundary lies between the two ends of the range *)
Lemma cs_between r T n : 0 < T -> 0 <= n <= T ->
  lowest r <= r_end r + cs r T * n <= highest r /\ Z.abs (cs r T * n) <= len r.
Proof.
  intros HT Hn. pose proof (quota_bound r T n HT Hn) as Q.
  destruct (cs_case r T HT) as [[H E]|[H E]]; rewrite E; unfold len, highest, lowest in *; nia.
Qed.

Lemma chunk_ok b r T n : fits b r -> 0 < T < two31 -> 0 <= n < T ->
  chunk b (u32_as_i32 (r_end r)) (cs r T) n = Val (piece r T n).
Proof.
  intros (U & _ & F) HT Hn. destruct U as [U1 U2].
  destruct (cs_between r T n ltac:(lia) ltac:(lia)) as [B1 B2].
  destruct (cs_between r T (n + 1) ltac:(lia) ltac:(lia)) as [B3 B4].
  unfold chunk, piece, u32_as_i32, i32_mul, i32_add.
  rewrite (checked_i32_in b (n + 1)) by (rewrite two31_val in *; lia).
  assert (L : lowest r >= 0 /\ highest r < two32) by (unfold lowest, highest; lia).
  destruct b.
  - assert (S : len r < two31 /\ exists k, to_i32 (r_end r) = r_end r - k /\
               (forall x, lowest r <= x <= highest r -> - two31 <= x - k < two31) /\ k mod two32 = 0).
    { unfold one_side in F. rewrite two31_val, two32_val in *.
      destruct (Z.ltb_spec (r_end r) 2147483648) as [X|X].
      - split; [unfold len, lowest, highest; lia|]. exists 0.
        split; [rewrite to_i32_in; [lia|rewrite two31_val; lia]|].
        split; [unfold lowest, highest; intros; lia|reflexivity].
      - split; [unfold len, lowest, highest; lia|]. exists 4294967296.
        split.
        + rewrite to_i32_u32 by (rewrite two32_val; lia). rewrite two31_val, two32_val.
          destruct (r_end r <? 2147483648) eqn:Y; lia.
        + split; [unfold lowest, highest; intros; lia|reflexivity]. }
    destruct S as (SL & k & Ek & Hk & Mk).
    rewrite (checked_i32_in Debug (cs r T * n)) by lia. cbn [bind].
    rewrite Ek. rewrite (checked_i32_in Debug (r_end r - k + cs r T * n)) by (specialize (Hk _ B1); lia). cbn [bind].
    rewrite (checked_i32_in Debug (cs r T * (n + 1))) by lia. cbn [bind].
    rewrite (checked_i32_in Debug (r_end r - k + cs r T * (n + 1))) by (specialize (Hk _ B3); lia). cbn [bind].
    assert (Z0 : forall x, 0 <= x < two32 -> i32_as_u32 (x - k) = x).
    { intros x Hx. unfold i32_as_u32. rewrite Zminus_mod, Mk, Z.sub_0_r, Z.mod_mod by (rewrite two32_val; lia).
      apply Z.mod_small; exact Hx. }
    f_equal. f_equal.
    + replace (r_end r - k + cs r T * n) with (r_end r + cs r T * n - k) by ring. apply Z0. lia.
    + replace (r_end r - k + cs r T * (n + 1)) with (r_end r + cs r T * (n + 1) - k) by ring. apply Z0. lia.
  - rewrite (checked_i32_in Release (cs r T * n)) by lia. cbn [bind].
    rewrite checked_i32_release. cbn [bind].
    rewrite (checked_i32_in Release (cs r T * (n + 1))) by lia. cbn [bind].
    rewrite checked_i32_release. cbn [bind].
    assert (Z0 : forall y, 0 <= r_end r + y < two32 -> i32_as_u32 (to_i32 (to_i32 (r_end r) + y)) = r_end r + y).
    { intros y Hy. unfold i32_as_u32. rewrite to_i32_cong. rewrite Zplus_mod, to_i32_cong, <- Zplus_mod.
      apply Z.mod_small; exact Hy. }
    rewrite !Z0 by lia. reflexivity.
Qed.

Lemma res_list_map_val {A B} (f : A -> res B) (g : A -> B) l :
  (forall x, In x l -> f x = Val (g x)) -> res_list (map f l) = Val (map g l).
Proof.
  induction l as [|x l IH]; intros H; [reflexivity|].
  cbn [map res_list]. rewrite H by (left; reflexivity). cbn [bind].
  rewrite IH by (intros; apply H; right; assumption). reflexivity.
Qed.

Lemma diff_ok b r : fits b r ->
  i32_sub b (u32_as_i32 (r_start r)) (u32_as_i32 (r_end r)) = Val (r_start r - r_end r)
  /\ - two31 < r_start r - r_end r < two31.
Proof.
  intros ([U1 U2] & _ & F). unfold i32_sub, u32_as_i32.
  destruct b.
  - rewrite !to_i32_u32 by assumption. unfold one_side in F. rewrite two31_val, two32_val in *.
    destruct (Z.ltb_spec (r_start r) 2147483648), (Z.ltb_spec (r_end r) 2147483648); try lia;
      (split; [|lia]); rewrite checked_i32_in by (rewrite two31_val; lia); f_equal; lia.
  - assert (D : - two31 < r_start r - r_end r < two31) by (unfold len, highest, lowest in F; lia).
    split; [|exact D]. rewrite checked_i32_release. f_equal.
    rewrite <- (to_i32_signed (r_start r - r_end r)) at 1 by lia.
    apply to_i32_eq. rewrite Zminus_mod, !to_i32_cong, <- Zminus_mod. reflexivity.
Qed.

Lemma chunks_ok b r T : fits b r -> 0 < T < two31 ->
  chunks b r T = Val (map (piece r T) (zseq 0 (Z.to_nat T))).
Proof.
  intros F HT. destruct (diff_ok b r F) as [D DB]. unfold chunks. cbv zeta. rewrite D. cbn [bind].
  replace (u32_as_i32 T) with T by (symmetry; apply to_i32_in; lia).
  unfold i32_div. replace (T =? 0) with false by lia.
  replace ((r_start r - r_end r =? - two31) && (T =? -1)) with false by lia.
  cbn [bind]. unfold ascending. rewrite Z.sub_0_r.
  apply res_list_map_val. intros n Hn. apply in_zseq in Hn.
  change (Z.quot (r_start r - r_end r) T) with (cs r T). apply chunk_ok; [assumption|lia|lia].
Qed.

Lemma chunks_zero b r : exists p, chunks b r 0 = Panic p.
Proof.
  unfold chunks. cbv zeta.
  destruct (i32_sub b (u32_as_i32 (r_start r)) (u32_as_i32 (r_end r))) as [d|p|] eqn:E.
  - exists PDivZero. reflexivity.
  - exists p. reflexivity.
  - unfold i32_sub, checked_i32 in E. destruct (_ && _), b; discriminate.
Qed.

(** the calls of thread [n] *)
Lemma thread_calls_up ty r : r_start r <= r_end r -> thread_calls ty r = zseq (r_start r) (Z.to_nat (r_end r - r_start r)).
Proof. intros H. unfold thread_calls, ascending. destruct ty; destruct (r_end r <? r_start r) eqn:E; try lia; reflexivity. Qed.
Lemma thread_calls_down ty r : r_end r <= r_start r -> thread_calls ty r = rev (zseq (r_end r) (Z.to_nat (r_start r - r_end r))).
Proof.
  intros H. unfold thread_calls, ascending.
  destruct ty; destruct (r_end r <? r_start r) eqn:E; try reflexivity;
    replace (r_end r - r_start r) with 0 by lia; replace (r_start r - r_end r) with 0 by lia; reflexivity.
Qed.

Definition quota (r : range) (T : Z) : Z := len r / T.

Lemma piece_up ty r T n : 0 < T -> r_start r <= r_end r -> 0 <= n ->
  thread_calls ty (piece r T n) = rev (block (highest r - quota r T * (n + 1)) (quota r T)).
Proof.
  intros HT H Hn. destruct (cs_case r T HT) as [[_ E]|[H' E]].
  - rewrite thread_calls_down.
    + unfold piece, block, quota; cbn [r_start r_end]. rewrite E. f_equal.
      unfold highest. rewrite Z.max_r by lia. f_equal; [ring|f_equal; ring].
    + unfold piece; cbn [r_start r_end]. rewrite E. pose proof (len_nonneg r). pose proof (Z.div_pos (len r) T ltac:(lia) HT). nia.
  - assert (L : len r = 0) by (unfold len, highest, lowest; lia).
    unfold piece, quota. rewrite E, L, Z.div_0_l by lia.
    rewrite thread_calls_down by (cbn [r_start r_end]; lia). cbn [r_start r_end].
    unfold block. replace (r_end r + 0 * n - (r_end r + 0 * (n + 1))) with 0 by ring. reflexivity.
Qed.

Lemma piece_down ty r T n : 0 < T -> r_end r <= r_start r -> 0 <= n ->
  thread_calls ty (piece r T n) = block (lowest r + quota r T * n) (quota r T).
Proof.
  intros HT H Hn. destruct (cs_case r T HT) as [[H' E]|[_ E]].
  - assert (L : len r = 0) by (unfold len, highest, lowest; lia).
    unfold piece, quota. rewrite E, L, Z.div_0_l by lia.
    rewrite thread_calls_up by (cbn [r_start r_end]; lia). cbn [r_start r_end].
    unfold block. replace (r_end r + - (0) * (n + 1) - (r_end r + - (0) * n)) with 0 by ring. reflexivity.
  - rewrite thread_calls_up.
    + unfold piece, block, quota; cbn [r_start r_end]. rewrite E.
      unfold lowest. rewrite Z.min_r by lia. f_equal; f_equal; ring.
    + unfold piece; cbn [r_start r_end]. rewrite E. pose proof (len_nonneg r). pose proof (Z.div_pos (len r) T ltac:(lia) HT). nia.
Qed.

(** concatenation of the threads' blocks *)
Lemma zseq_snoc_z a n : 0 <= n -> zseq a (Z.to_nat (n + 1)) = zseq a (Z.to_nat n) ++ [a + n].
Proof. intros H. replace (Z.to_nat (n + 1)) with (S (Z.to_nat n)) by lia. rewrite zseq_snoc. f_equal. f_equal. lia. Qed.

Lemma zseq_app_z a n m : 0 <= n -> 0 <= m -> zseq a (Z.to_nat (n + m)) = zseq a (Z.to_nat n) ++ zseq (a + n) (Z.to_nat m).
Proof. intros Hn Hm. rewrite Z2Nat.inj_add by lia. rewrite zseq_app. f_equal. f_equal. lia. Qed.

Lemma flat_map_snoc {A B} (f : A -> list B) l x : flat_map f (l ++ [x]) = flat_map f l ++ f x.
Proof. rewrite flat_map_app. simpl. rewrite app_nil_r. reflexivity. Qed.

Lemma pieces_down lo q k : 0 <= q ->
  flat_map (fun n => block (lo + q * n) q) (zseq 0 k) = block lo (q * Z.of_nat k).
Proof.
  intros Hq. induction k as [|k IH].
  - rewrite Z.mul_0_r. reflexivity.
  - rewrite zseq_snoc, flat_map_snoc, IH. unfold block.
    replace (q * Z.of_nat (S k)) with (q * Z.of_nat k + q) by lia.
    rewrite zseq_app_z by lia. do 3 f_equal.
Qed.

Lemma pieces_up hi q k : 0 <= q ->
  Permutation (flat_map (fun n => rev (block (hi - q * (n + 1)) q)) (zseq 0 k)) (block (hi - q * Z.of_nat k) (q * Z.of_nat k)).
Proof.
  intros Hq. induction k as [|k IH].
  - rewrite Z.mul_0_r. reflexivity.
  - rewrite zseq_snoc, flat_map_snoc. rewrite IH, <- Permutation_rev. unfold block.
    replace (q * Z.of_nat (S k)) with (q + q * Z.of_nat k) by lia.
    rewrite zseq_app_z by lia. rewrite Permutation_app_comm.
    apply Permutation_app; apply Permutation_refl'; f_equal; lia.
Qed.

(** the indices a pass visits *)
Definition visited (r : range) (T : Z) : list Z :=
  if r_start r <=? r_end r then block (highest r - quota r T * T) (quota r T * T)
  else block (lowest r) (quota r T * T).

Lemma pieces_visited ty r T : 0 < T ->
  Permutation (flat_map (thread_calls ty) (map (piece r T) (zseq 0 (Z.to_nat T)))) (visited r T).
Proof.
  intros HT. rewrite flat_map_concat_map, map_map, <- flat_map_concat_map.
  assert (Q : 0 <= quota r T) by (apply Z.div_pos; [apply len_nonneg|exact HT]).
  unfold visited. destruct (Z.leb_spec (r_start r) (r_end r)) as [H|H].
  - assert (E : flat_map (fun x => thread_calls ty (piece r T x)) (zseq 0 (Z.to_nat T))
              = flat_map (fun n => rev (block (highest r - quota r T * (n + 1)) (quota r T))) (zseq 0 (Z.to_nat T))).
    { rewrite !flat_map_concat_map. f_equal. apply map_ext_in. intros n Hn. apply in_zseq in Hn.
      apply piece_up; lia. }
    rewrite E. rewrite pieces_up by exact Q. rewrite Z2Nat.id by lia. reflexivity.
  - assert (E : flat_map (fun x => thread_calls ty (piece r T x)) (zseq 0 (Z.to_nat T))
              = flat_map (fun n => block (lowest r + quota r T * n) (quota r T)) (zseq 0 (Z.to_nat T))).
    { rewrite !flat_map_concat_map. f_equal. apply map_ext_in. intros n Hn. apply in_zseq in Hn.
      apply piece_down; lia. }
    rewrite E. rewrite pieces_down by exact Q. rewrite Z2Nat.id by lia. reflexivity.
Qed.

(** ** Executions *)
Lemma calls_of_app t l1 l2 : calls_of t (l1 ++ l2) = calls_of t l1 ++ calls_of t l2.
Proof. unfold calls_of. rewrite filter_app, map_app. reflexivity. Qed.

Lemma calls_of_one_same t e : calls_of t [(t, e)] = [e].
Proof. unfold calls_of. cbn. rewrite Nat.eqb_refl. reflexivity. Qed.
Lemma calls_of_one_other t u e : u <> t -> calls_of t [(u, e)] = [].
Proof. intros H. unfold calls_of. cbn. destruct (Nat.eqb_spec u t); [congruence|reflexivity]. Qed.

Lemma calls_partition log n : Forall (fun c => (fst c < n)%nat) log ->
  Permutation (calls log) (flat_map (fun t => calls_of t log) (seq 0 n)).
Proof.
  induction log as [|[u e] log IH]; intros H.
  - cbn. rewrite flat_map_concat_map. replace (map (fun t => calls_of t []) (seq 0 n)) with (map (fun _ : nat => @nil Z) (seq 0 n)) by reflexivity.
    induction (seq 0 n) as [|x l IHl]; [reflexivity|exact IHl].
  - inversion H as [|x l Hu Hl]; subst. cbn [fst] in Hu. specialize (IH Hl).
    cbn [calls map snd]. change (map snd log) with (calls log). rewrite IH. clear IH H Hl.
    replace (seq 0 n) with (seq 0 u ++ u :: seq (S u) (n - S u)).
    2:{ replace n with (u + S (n - S u))%nat at 2 by lia. rewrite seq_app. reflexivity. }
    rewrite !flat_map_app. cbn [flat_map].
    assert (E : forall l, ~ In u l -> flat_map (fun t => calls_of t ((u, e) :: log)) l = flat_map (fun t => calls_of t log) l).
    { intros l Hl. rewrite !flat_map_concat_map. f_equal. apply map_ext_in. intros t Ht.
      change ((u, e) :: log) with ([(u, e)] ++ log). rewrite calls_of_app, calls_of_one_other; [reflexivity|].
      intros ->. contradiction. }
    rewrite !E by (rewrite in_seq; lia).
    change ((u, e) :: log) with ([(u, e)] ++ log). rewrite calls_of_app, calls_of_one_same.
    cbn [app]. rewrite <- Permutation_middle. reflexivity.
Qed.

Section Exec.
Context {S : Type}.
Variable closure : S -> Z -> S * option Z.

(** thread [t] started with the calls [l]: those made so far are a prefix of it *)
Definition inv1 (log : list (nat * Z)) (t : nat) (l : list Z) (th : thread) : Prop :=
  match th with
  | Running todo _ => calls_of t log ++ todo = l
  | Dead => exists rest, calls_of t log ++ rest = l
  end.
Definition inv (ls : list (list Z)) (s : pass_state S) : Prop :=
  length (p_threads s) = length ls /\
  Forall (fun c => (fst c < length ls)%nat) (p_log s) /\
  forall t l th, nth_error ls t = Some l -> nth_error (p_threads s) t = Some th -> inv1 (p_log s) t l th.

Lemma inv_init ty env cs : inv (map (thread_calls ty) cs) (pass_init ty env cs).
Proof.
  split; [|split].
  - cbn. rewrite !map_length. reflexivity.
  - constructor.
  - intros t l th H1 H2. cbn in H2. rewrite nth_error_map in H1, H2.
    destruct (nth_error cs t) as [c|]; [|discriminate]. cbn in H1, H2. injection H1 as <-. injection H2 as <-.
    reflexivity.
Qed.

Lemma inv_step ls s t s' : inv ls s -> pass_step closure t s = Some s' -> inv ls s'.
Proof.
  intros (L & B & I) H. unfold pass_step in H.
  destruct (nth_error (p_threads s) t) as [[[|e todo] acc|]|] eqn:E; try discriminate.
  destruct (closure (p_env s) e) as [env v] eqn:C. injection H as <-.
  assert (Ht : (t < length (p_threads s))%nat) by (apply nth_error_Some; congruence).
  split; [|split]; cbn [p_threads p_log].
  - rewrite upd_length. exact L.
  - apply Forall_app. split; [exact B|]. constructor; [cbn; lia|constructor].
  - intros u l th H1 H2. rewrite nth_error_upd in H2.
    destruct (Nat.eqb_spec t u) as [<-|N].
    + destruct (Nat.ltb_spec t (length (p_threads s))); [|lia]. injection H2 as <-.
      specialize (I t l _ H1 E). cbn [inv1] in I.
      destruct v as [v|]; cbn [inv1].
      * rewrite calls_of_app, calls_of_one_same, <- app_assoc. exact I.
      * exists todo. rewrite calls_of_app, calls_of_one_same, <- app_assoc. exact I.
    + specialize (I u l th H1 H2).
      assert (X : calls_of u (p_log s ++ [(t, e)]) = calls_of u (p_log s)).
      { rewrite calls_of_app, calls_of_one_other, app_nil_r by congruence. reflexivity. }
      destruct th; cbn [inv1] in *; rewrite X; exact I.
Qed.

Lemma inv_run ls sched s s' : inv ls s -> pass_run closure s sched = Some s' -> inv ls s'.
Proof.
  revert s; induction sched as [|t rest IH]; intros s I H; cbn in H.
  - injection H as <-. exact I.
  - destruct (pass_step closure t s) as [s1|] eqn:E; [|discriminate].
    eapply IH; [eapply inv_step; eassumption|exact H].
Qed.

(** no thread dies if the closure always returns *)
Lemma no_dead sched s s' : total closure -> Forall (fun th => th <> Dead) (p_threads s) ->
  pass_run closure s sched = Some s' -> Forall (fun th => th <> Dead) (p_threads s').
Proof.
  intros T. revert s; induction sched as [|t rest IH]; intros s I H; cbn in H.
  - injection H as <-. exact I.
  - destruct (pass_step closure t s) as [s1|] eqn:E; [|discriminate].
    apply (IH s1); [|exact H]. unfold pass_step in E.
    destruct (nth_error (p_threads s) t) as [[[|e todo] acc|]|]; try discriminate.
    destruct (closure (p_env s) e) as [env v] eqn:C. injection E as <-. cbn [p_threads].
    apply Forall_upd; [exact I|]. specialize (T (p_env s) e). rewrite C in T. cbn in T.
    destruct v; [discriminate|congruence].
Qed.

Lemma no_dead_init ty (env : S) cs : Forall (fun th => th <> Dead) (p_threads (pass_init ty env cs)).
Proof. cbn. apply Forall_forall. intros th H. apply in_map_iff in H. destruct H as (c & <- & _). discriminate. Qed.

Lemma Forall_nth_error {A} (P : A -> Prop) l i x : Forall P l -> nth_error l i = Some x -> P x.
Proof. intros F H. rewrite Forall_forall in F. apply F. eapply nth_error_In; exact H. Qed.

(** at the end of a pass whose closure always returned, every thread has made exactly its calls *)
Lemma done_calls ls s : inv ls s -> all_finished s -> Forall (fun th => th <> Dead) (p_threads s) ->
  forall t l, nth_error ls t = Some l -> calls_of t (p_log s) = l.
Proof.
  intros (L & B & I) F D t l H.
  assert (X : exists th, nth_error (p_threads s) t = Some th).
  { assert (t < length ls)%nat by (apply nth_error_Some; congruence).
    destruct (nth_error (p_threads s) t) eqn:E; [eauto|]. apply nth_error_None in E. lia. }
  destruct X as [th E]. specialize (I t l th H E).
  pose proof (Forall_nth_error _ _ _ _ F E) as F1. pose proof (Forall_nth_error _ _ _ _ D E) as D1.
  cbn beta in *. destruct th as [[|e todo] acc|]; cbn [finished inv1] in *; [|contradiction|congruence].
  rewrite app_nil_r in I. exact I.
Qed.

Lemma flat_map_nth {A B} (f : nat -> list B) (g : A -> list B) (l : list A) :
  (forall t x, nth_error l t = Some x -> f t = g x) -> flat_map f (seq 0 (length l)) = flat_map g l.
Proof.
  revert f; induction l as [|x l IH]; intros f H; [reflexivity|].
  cbn [length seq flat_map]. rewrite (H 0%nat x eq_refl). f_equal.
  rewrite <- seq_shift, flat_map_concat_map, map_map, <- flat_map_concat_map.
  apply (IH (fun t => f (Datatypes.S t))). intros t y Hy. apply (H (Datatypes.S t)). exact Hy.
Qed.

Lemma done_perm ls s : inv ls s -> all_finished s -> Forall (fun th => th <> Dead) (p_threads s) ->
  Permutation (calls (p_log s)) (concat ls).
Proof.
  intros I F D. rewrite (calls_partition _ (length ls)) by apply I.
  apply Permutation_refl'.
  transitivity (flat_map (fun l : list Z => l) ls).
  - apply flat_map_nth. intros t l H. apply (done_calls ls s); assumption.
  - rewrite flat_map_concat_map, map_id. reflexivity.
Qed.

(** whatever the closure does, each thread's calls are a prefix of its list *)
Lemma prefix_calls ls s : inv ls s -> forall t l, nth_error ls t = Some l ->
  exists rest, calls_of t (p_log s) ++ rest = l.
Proof.
  intros (L & B & I) t l H.
  assert (X : exists th, nth_error (p_threads s) t = Some th).
  { assert (t < length ls)%nat by (apply nth_error_Some; congruence).
    destruct (nth_error (p_threads s) t) eqn:E; [eauto|]. apply nth_error_None in E. lia. }
  destruct X as [th E]. specialize (I t l th H E). destruct th; cbn [inv1] in I; [eauto|exact I].
Qed.

Lemma prefix_perm ls s : inv ls s -> exists rest, Permutation (calls (p_log s) ++ rest) (concat ls).
Proof.
  intros I. pose proof (prefix_calls ls s I) as P. destruct I as (_ & B & _).
  assert (X : forall k f (l : list (list Z)), (forall t x, nth_error l t = Some x -> exists rest, f t ++ rest = x) ->
              k = length l -> exists rest, Permutation (flat_map f (seq 0 k) ++ rest) (concat l)).
  { induction k as [|k IH]; intros f l H E.
    - destruct l; [|discriminate]. exists []. reflexivity.
    - destruct l as [|x l]; [discriminate|]. injection E as E.
      destruct (H 0%nat x eq_refl) as [r1 E1].
      destruct (IH (fun t => f (Datatypes.S t)) l) as [r2 E2]; [intros t y Hy; apply (H (Datatypes.S t)); exact Hy|exact E|].
      exists (r1 ++ r2). cbn [seq flat_map concat].
      rewrite <- seq_shift, flat_map_concat_map, map_map, <- flat_map_concat_map.
      rewrite <- E2, <- E1. rewrite <- !app_assoc. apply Permutation_app_head.
      rewrite !app_assoc. apply Permutation_app_tail. apply Permutation_app_comm. }
  destruct (X (length ls) (fun t => calls_of t (p_log s)) ls P eq_refl) as [rest E].
  exists rest. rewrite (calls_partition _ (length ls)) by exact B. exact E.
Qed.

(** every pass can be completed, and never takes more steps than there are calls *)
Definition todo_of (th : thread) : nat := match th with Running todo _ => length todo | Dead => 0%nat end.
Definition work (s : pass_state S) : nat := list_sum (map todo_of (p_threads s)).

Lemma list_sum_upd l t th th' : nth_error l t = Some th -> (todo_of th' < todo_of th)%nat ->
  (list_sum (map todo_of (upd t th' l)) < list_sum (map todo_of l))%nat.
Proof.
  revert t; induction l as [|x l IH]; intros [|t] H L; cbn in H; try discriminate.
  - injection H as ->. unfold list_sum. cbn [map upd fold_right]. lia.
  - specialize (IH t H L). unfold list_sum in *. cbn [map upd fold_right]. lia.
Qed.

Lemma step_work t s s' : pass_step closure t s = Some s' -> (work s' < work s)%nat.
Proof.
  unfold pass_step. destruct (nth_error (p_threads s) t) as [[[|e todo] acc|]|] eqn:E; try discriminate.
  destruct (closure (p_env s) e) as [env v]. intros H. injection H as <-. unfold work. cbn [p_threads].
  eapply list_sum_upd; [exact E|]. destruct v; cbn; lia.
Qed.

Lemma run_bounded sched s s' : pass_run closure s sched = Some s' -> (length sched + work s' <= work s)%nat.
Proof.
  revert s; induction sched as [|t rest IH]; intros s H; cbn in H.
  - injection H as <-. cbn. lia.
  - destruct (pass_step closure t s) as [s1|] eqn:E; [|discriminate].
    apply step_work in E. specialize (IH _ H). cbn. lia.
Qed.

Lemma finished_dec th : {finished th} + {~ finished th}.
Proof. destruct th as [[|e todo] acc|]; cbn; tauto. Qed.

Lemma progress s : all_finished s \/ exists t s', pass_step closure t s = Some s'.
Proof.
  unfold all_finished. destruct (Forall_Exists_dec finished finished_dec (p_threads s)) as [F|E].
  - left; exact F.
  - right. apply Exists_exists in E. destruct E as (th & Hin & Hn).
    apply In_nth_error in Hin. destruct Hin as [t Ht].
    destruct th as [[|e todo] acc|]; cbn in Hn; [tauto| |tauto].
    exists t. unfold pass_step. rewrite Ht. destruct (closure (p_env s) e) as [env v]. eauto.
Qed.

Lemma completes s : exists sched s', pass_run closure s sched = Some s' /\ all_finished s'.
Proof.
  remember (work s) as n eqn:E. revert s E. induction n as [n IH] using lt_wf_ind. intros s ->.
  destruct (progress s) as [F|(t & s1 & H)].
  - exists [], s. split; [reflexivity|exact F].
  - destruct (IH _ (step_work _ _ _ H) s1 eq_refl) as (sched & s' & R & F).
    exists (t :: sched), s'. cbn. rewrite H. split; assumption.
Qed.
End Exec.

(** ** The returned number, for a pure closure *)
Lemma xor_all_app l1 l2 : xor_all (l1 ++ l2) = Z.lxor (xor_all l1) (xor_all l2).
Proof.
  induction l1 as [|x l1 IH]; cbn [app xor_all fold_right]; [rewrite Z.lxor_0_l; reflexivity|].
  change (fold_right Z.lxor 0 (l1 ++ l2)) with (xor_all (l1 ++ l2)). rewrite IH.
  rewrite Z.lxor_assoc. reflexivity.
Qed.
Lemma xor_all_perm l1 l2 : Permutation l1 l2 -> xor_all l1 = xor_all l2.
Proof.
  induction 1 as [|x l1 l2 P IH|x y l|l1 l2 l3 P1 IH1 P2 IH2]; cbn [xor_all fold_right] in *.
  - reflexivity.
  - unfold xor_all in IH. rewrite IH. reflexivity.
  - rewrite <- !Z.lxor_assoc, (Z.lxor_comm y x). reflexivity.
  - congruence.
Qed.

Section Pure.
Context {S : Type}.
Variable f : Z -> Z.

(** what thread accumulators hold *)
Definition acc1 (log : list (nat * Z)) (t : nat) (e : Z) (th : thread) : Prop :=
  match th with Running _ acc => acc = Z.lxor e (xor_all (map f (calls_of t log))) | Dead => False end.
Definition acc_inv (ends : list Z) (s : pass_state S) : Prop :=
  length (p_threads s) = length ends /\
  forall t e th, nth_error ends t = Some e -> nth_error (p_threads s) t = Some th -> acc1 (p_log s) t e th.

Lemma acc_init ty env cs : acc_inv (map r_end cs) (pass_init ty env cs).
Proof.
  split; [cbn; rewrite !map_length; reflexivity|].
  intros t e th H1 H2. cbn in H2. rewrite nth_error_map in H1, H2.
  destruct (nth_error cs t) as [c|]; [|discriminate]. cbn in H1, H2. injection H1 as <-. injection H2 as <-.
  cbn. rewrite Z.lxor_0_r. reflexivity.
Qed.

Lemma acc_run ends sched s s' : acc_inv ends s -> pass_run (pure f) s sched = Some s' -> acc_inv ends s'.
Proof.
  revert s; induction sched as [|t rest IH]; intros s I H; cbn in H.
  - injection H as <-. exact I.
  - destruct (pass_step (pure f) t s) as [s1|] eqn:E; [|discriminate].
    apply (IH s1); [|exact H]. clear IH H. unfold pass_step in E. destruct I as [L I].
    destruct (nth_error (p_threads s) t) as [[[|e todo] acc|]|] eqn:X; try discriminate.
    cbn [pure] in E. injection E as <-.
    assert (Ht : (t < length (p_threads s))%nat) by (apply nth_error_Some; congruence).
    split; cbn [p_threads p_log]; [rewrite upd_length; exact L|].
    intros u e' th H1 H2. rewrite nth_error_upd in H2.
    destruct (Nat.eqb_spec t u) as [<-|N].
    + destruct (Nat.ltb_spec t (length (p_threads s))); [|lia]. injection H2 as <-.
      specialize (I t e' _ H1 X). cbn [acc1] in *. subst acc.
      rewrite calls_of_app, calls_of_one_same, map_app, xor_all_app, Z.lxor_assoc. cbn [map xor_all fold_right].
      rewrite Z.lxor_0_r. reflexivity.
    + specialize (I u e' th H1 H2). unfold acc1 in *.
      rewrite calls_of_app, calls_of_one_other, app_nil_r by congruence. exact I.
Qed.

Lemma join_acc log ends ths k r :
  length ths = length ends ->
  (forall t e th, nth_error ends t = Some e -> nth_error ths t = Some th -> acc1 log (k + t) e th) ->
  join ths r = Val (Z.lxor r (Z.lxor (xor_all ends) (xor_all (map f (flat_map (fun t => calls_of t log) (seq k (length ends))))))).
Proof.
  revert ends k r; induction ths as [|th ths IH]; intros ends k r L H; destruct ends as [|e ends]; try discriminate.
  - cbn. rewrite Z.lxor_0_r. reflexivity.
  - pose proof (H 0%nat e th eq_refl eq_refl) as H0. rewrite Nat.add_0_r in H0.
    destruct th as [todo acc|]; [|contradiction]. cbn [acc1] in H0. cbn [join].
    rewrite (IH ends (Datatypes.S k)).
    + f_equal. cbn [length seq flat_map map xor_all fold_right].
      change (fold_right Z.lxor 0 ends) with (xor_all ends).
      rewrite map_app, xor_all_app, H0.
      apply Z.bits_inj'. intros n Hn. rewrite !Z.lxor_spec. repeat match goal with |- context [Z.testbit ?a n] => destruct (Z.testbit a n) end; reflexivity.
    + cbn in L. lia.
    + intros t e' th' H1 H2. replace (Datatypes.S k + t)%nat with (k + Datatypes.S t)%nat by lia. apply H; assumption.
Qed.

Lemma pure_total : total (@pure S f).
Proof. intros s x. discriminate. Qed.
End Pure.

Lemma checked_u32_start b r : fits b r -> u32_add b (r_start r) 1 = Val (r_start r + 1).
Proof. intros ([U1 U2] & U3 & _). unfold u32_add. apply checked_in. lia. Qed.

(** ** A chunk computation never panics after the first thread has been spawned
    (used to justify computing them all first) *)
Lemma quot_mul_between d T k : 0 < T -> 0 <= k <= T -> Z.min 0 d <= Z.quot d T * k <= Z.max 0 d.
Proof.
  intros HT Hk. destruct (Z.leb_spec 0 d) as [H|H].
  - rewrite Z.quot_div_nonneg by lia. pose proof (Z.mul_div_le d T HT). pose proof (Z.div_pos d T H HT). nia.
  - replace d with (- - d) by ring. rewrite Z.quot_opp_l by lia. rewrite Z.quot_div_nonneg by lia.
    pose proof (Z.mul_div_le (- d) T HT). pose proof (Z.div_pos (- d) T ltac:(lia) HT). nia.
Qed.

Lemma chunks_panic b r T p : chunks b r T = Panic p ->
  (exists q, i32_sub b (u32_as_i32 (r_start r)) (u32_as_i32 (r_end r)) = Panic q) \/
  (exists d q, i32_div d (u32_as_i32 T) = Panic q).
Proof.
  unfold chunks. cbv zeta.
  destruct (i32_sub b (u32_as_i32 (r_start r)) (u32_as_i32 (r_end r))) as [d|q|] eqn:E; [|left; eauto|].
  2:{ discriminate. }
  cbn [bind]. destruct (i32_div d (u32_as_i32 T)) as [c|q|] eqn:E2; [|right; eauto|discriminate].
  cbn [bind]. intros H. exfalso.
  assert (X : exists l, res_list (map (chunk b (u32_as_i32 (r_end r)) c) (ascending 0 (u32_as_i32 T))) = Val l).
  { unfold i32_div in E2. destruct (u32_as_i32 T =? 0) eqn:T0; [discriminate|].
    destruct ((d =? - two31) && (u32_as_i32 T =? -1)); [discriminate|]. injection E2 as <-.
    set (T' := u32_as_i32 T) in *. pose proof (to_i32_range T) as TR. fold (u32_as_i32 T) in TR. fold T' in TR.
    unfold ascending. rewrite Z.sub_0_r.
    assert (Y : forall n, In n (zseq 0 (Z.to_nat T')) -> exists v, chunk b (u32_as_i32 (r_end r)) (Z.quot d T') n = Val v).
    { intros n Hn. apply in_zseq in Hn. unfold chunk, i32_mul, i32_add.
      destruct b; [|repeat (rewrite checked_i32_release; cbn [bind]); eauto].
      unfold i32_sub, checked_i32 in E.
      destruct ((- two31 <=? u32_as_i32 (r_start r) - u32_as_i32 (r_end r)) &&
                (u32_as_i32 (r_start r) - u32_as_i32 (r_end r) <? two31)) eqn:B; [|discriminate].
      injection E as <-.
      pose proof (to_i32_range (r_start r)) as R1. pose proof (to_i32_range (r_end r)) as R2.
      fold (u32_as_i32 (r_start r)) in R1. fold (u32_as_i32 (r_end r)) in R2.
      set (ia := u32_as_i32 (r_start r)) in *. set (ie := u32_as_i32 (r_end r)) in *.
      pose proof (quot_mul_between (ia - ie) T' n ltac:(lia) ltac:(lia)) as Q1.
      pose proof (quot_mul_between (ia - ie) T' (n + 1) ltac:(lia) ltac:(lia)) as Q2.
      set (x := Z.quot (ia - ie) T' * n) in *. 
      rewrite (checked_i32_in Debug x) by lia. cbn [bind].
      rewrite (checked_i32_in Debug (ie + x)) by lia. cbn [bind].
      rewrite (checked_i32_in Debug (n + 1)) by lia. cbn [bind].
      set (y := Z.quot (ia - ie) T' * (n + 1)) in *.
      rewrite (checked_i32_in Debug y) by lia. cbn [bind].
      rewrite (checked_i32_in Debug (ie + y)) by lia. cbn [bind]. eauto. }
    clear - Y. induction (zseq 0 (Z.to_nat T')) as [|n l IH]; [eexists; reflexivity|].
    destruct (Y n (or_introl eq_refl)) as [v Hv]. cbn [map res_list]. rewrite Hv. cbn [bind].
    destruct IH as [vs Hvs]; [intros; apply Y; right; assumption|]. rewrite Hvs. cbn [bind]. eauto. }
  destruct X as [l X]. rewrite X in H. discriminate.
Qed.

(** ** Crossing 2^31 in a debug build *)
Lemma chunks_cross r T : u32_range r -> len r < two31 -> ~ one_side r -> chunks Debug r T = Panic POverflow.
Proof.
  intros [U1 U2] L O. unfold chunks. cbv zeta.
  replace (i32_sub Debug (u32_as_i32 (r_start r)) (u32_as_i32 (r_end r))) with (@Panic Z POverflow); [reflexivity|].
  unfold i32_sub, u32_as_i32. rewrite !to_i32_u32 by assumption.
  unfold one_side, len, highest, lowest in *. rewrite two31_val, two32_val in *.
  unfold checked_i32. rewrite two31_val.
  destruct (Z.ltb_spec (r_start r) 2147483648), (Z.ltb_spec (r_end r) 2147483648); try lia.
  - destruct (Z.leb_spec (- (2147483648)) (r_start r - (r_end r - 4294967296)));
      destruct (Z.ltb_spec (r_start r - (r_end r - 4294967296)) 2147483648); try reflexivity; lia.
  - destruct (Z.leb_spec (- (2147483648)) (r_start r - 4294967296 - r_end r));
      destruct (Z.ltb_spec (r_start r - 4294967296 - r_end r) 2147483648); try reflexivity; lia.
Qed.

(** ** Closures that panic on some arguments *)
Section Partial.
Context {S : Type}.
Variable f : Z -> option Z.
Definition partial : S -> Z -> S * option Z := fun s x => (s, f x).

Definition par1 (log : list (nat * Z)) (t : nat) (th : thread) : Prop :=
  match th with
  | Running _ _ => forall x, In x (calls_of t log) -> f x <> None
  | Dead => exists x, In x (calls_of t log) /\ f x = None
  end.

Lemma par_run sched s s' :
  (forall t th, nth_error (p_threads s) t = Some th -> par1 (p_log s) t th) ->
  pass_run partial s sched = Some s' ->
  forall t th, nth_error (p_threads s') t = Some th -> par1 (p_log s') t th.
Proof.
  revert s; induction sched as [|t rest IH]; intros s I H; cbn in H.
  - injection H as <-. exact I.
  - destruct (pass_step partial t s) as [s1|] eqn:E; [|discriminate].
    apply (IH s1); [|exact H]. clear IH H. unfold pass_step in E.
    destruct (nth_error (p_threads s) t) as [[[|e todo] acc|]|] eqn:X; try discriminate.
    unfold partial in E. injection E as <-. cbn [p_threads p_log].
    assert (Ht : (t < length (p_threads s))%nat) by (apply nth_error_Some; congruence).
    intros u th H2. rewrite nth_error_upd in H2.
    destruct (Nat.eqb_spec t u) as [<-|N].
    + destruct (Nat.ltb_spec t (length (p_threads s))); [|lia]. injection H2 as <-.
      specialize (I t _ X). cbn [par1] in I.
      destruct (f e) as [v|] eqn:FE; cbn [par1].
      * intros x Hx. rewrite calls_of_app, calls_of_one_same in Hx. apply in_app_iff in Hx.
        destruct Hx as [Hx|[<-|[]]]; [apply I; exact Hx|congruence].
      * exists e. split; [|exact FE]. rewrite calls_of_app, calls_of_one_same. apply in_app_iff. right; left; reflexivity.
    + specialize (I u th H2).
      assert (Y : calls_of u (p_log s ++ [(t, e)]) = calls_of u (p_log s)).
      { rewrite calls_of_app, calls_of_one_other, app_nil_r by congruence. reflexivity. }
      destruct th; cbn [par1] in *; rewrite Y; exact I.
Qed.

Lemma join_dead ths r : (exists t, nth_error ths t = Some Dead) -> join ths r = Panic PClosure.
Proof.
  revert r; induction ths as [|th ths IH]; intros r [t H]; [destruct t; discriminate|].
  destruct th as [todo acc|]; cbn [join]; [|reflexivity].
  apply IH. destruct t as [|t]; [discriminate|]. exists t. exact H.
Qed.
Lemma join_alive ths r : (forall t, nth_error ths t <> Some Dead) -> exists v, join ths r = Val v.
Proof.
  revert r; induction ths as [|th ths IH]; intros r H; cbn [join]; [eauto|].
  destruct th as [todo acc|]; [|exfalso; apply (H 0%nat); reflexivity].
  apply IH. intros t. apply (H (Datatypes.S t)).
Qed.
End Partial.
