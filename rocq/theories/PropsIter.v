(** * Theorems C29-C33, C60, C61: one pass of an iterator algorithm. *)
From Coq Require Import List ZArith Lia Bool Permutation Arith.
From Verif Require Import Machine IterPass IterSpec IterPassProofs RingSeq.
Import ListNotations.
Open Scope Z_scope.

(** all ranges below 2^31 are fine in both build profiles *)
Lemma small_ranges_fit b r : 0 <= r_start r < two31 -> 0 <= r_end r < two31 -> fits b r.
Proof.
  intros H1 H2. unfold fits, u32_range, one_side, len, highest, lowest. rewrite two31_val, two32_val in *.
  split; [lia|]. split; [lia|]. destruct b; lia.
Qed.

Lemma alive_val {S} b r (s : pass_state S) : fits b r -> Forall (fun th => th <> Dead) (p_threads s) ->
  exists v, finish b r s = Val v.
Proof.
  intros F D. unfold finish. rewrite (checked_u32_start b r F). cbn [bind].
  apply join_alive. intros t H. apply (Forall_nth_error _ _ _ _ D H). reflexivity.
Qed.

Lemma pass_inv {S} (f : S -> Z -> S * option Z) b ty r T env log env' out :
  fits b r -> 0 < T < two31 -> iterator_pass f b ty r T env log env' out ->
  exists sched s, pass_run f (pass_init ty env (map (piece r T) (zseq 0 (Z.to_nat T)))) sched = Some s
    /\ all_finished s /\ log = p_log s /\ env' = p_env s /\ out = finish b r s
    /\ inv (map (thread_calls ty) (map (piece r T) (zseq 0 (Z.to_nat T)))) s.
Proof.
  intros F HT H. destruct H as [cs sched s C R A|p C]; rewrite (chunks_ok b r T F HT) in C; [|discriminate].
  injection C as <-. exists sched, s. repeat split; try assumption; try reflexivity;
    apply (inv_run f _ sched _ s (inv_init ty env _) R).
Qed.

(** the indices skipped when the number of threads does not divide the length *)
Definition skipped (r : range) (T : Z) : list Z :=
  if r_start r <=? r_end r then block (lowest r) (len r mod T)
  else block (highest r - len r mod T) (len r mod T).

Lemma visited_skipped r T : 0 < T -> Permutation (visited r T ++ skipped r T) (indices r).
Proof.
  intros HT. unfold visited, skipped, indices, quota.
  pose proof (Z.div_mod (len r) T ltac:(lia)) as D. pose proof (Z.mod_pos_bound (len r) T HT) as M.
  pose proof (len_nonneg r) as L. pose proof (Z.div_pos (len r) T L HT) as P.
  assert (E : highest r = lowest r + len r) by (unfold len; ring).
  assert (Q : 0 <= len r / T * T) by nia.
  destruct (r_start r <=? r_end r); unfold block.
  - rewrite Permutation_app_comm. replace (Z.to_nat (len r)) with (Z.to_nat (len r mod T + len r / T * T)) by (f_equal; lia).
    rewrite zseq_app_z by lia. apply Permutation_refl'. do 2 f_equal. lia.
  - replace (Z.to_nat (len r)) with (Z.to_nat (len r / T * T + len r mod T)) by (f_equal; lia).
    rewrite zseq_app_z by lia. apply Permutation_refl'. do 2 f_equal. lia.
Qed.

(** C30: whatever the number of threads, the calls made together with the skipped
    indices are exactly the range, each index once. *)
Theorem C30_skipped_indices : forall S (f : S -> Z -> S * option Z) b ty r T env log env' out,
  total f -> fits b r -> 0 < T < two31 ->
  iterator_pass f b ty r T env log env' out ->
  Permutation (calls log ++ skipped r T) (indices r)
  /\ Z.of_nat (length (calls log)) = T * (len r / T)
  /\ Z.of_nat (length (skipped r T)) = len r mod T
  /\ exists v, out = Val v.
Proof.
  intros S f b ty r T env log env' out HF F HT H.
  destruct (pass_inv f b ty r T env log env' out F HT H) as (sched & s & R & A & -> & -> & -> & I).
  pose proof (no_dead f sched _ s HF (no_dead_init ty env _) R) as D.
  pose proof (done_perm _ s I A D) as P.
  rewrite <- flat_map_concat_map in P. rewrite (pieces_visited ty r T) in P by lia.
  split; [|split; [|split]].
  - rewrite P. apply visited_skipped. lia.
  - rewrite (Permutation_length P). unfold visited, block, quota.
    pose proof (Z.div_pos (len r) T (len_nonneg r) ltac:(lia)).
    destruct (r_start r <=? r_end r); rewrite zseq_length, Z2Nat.id by nia; ring.
  - unfold skipped, block. pose proof (Z.mod_pos_bound (len r) T ltac:(lia)).
    destruct (r_start r <=? r_end r); rewrite zseq_length, Z2Nat.id by lia; ring.
  - apply alive_val; assumption.
Qed.
Print Assumptions C30_skipped_indices.

Theorem C30_more_threads_than_iterations : forall S (f : S -> Z -> S * option Z) b ty r T env log env' out,
  total f -> fits b r -> 0 < T < two31 -> len r < T ->
  iterator_pass f b ty r T env log env' out -> log = [].
Proof.
  intros S f b ty r T env log env' out HF F HT L H.
  destruct (C30_skipped_indices S f b ty r T env log env' out HF F HT H) as (_ & N & _).
  rewrite Z.div_small in N by (pose proof (len_nonneg r); lia).
  destruct log; [reflexivity|]. unfold calls in N. cbn [map length] in N. lia.
Qed.
Print Assumptions C30_more_threads_than_iterations.

(** even if the closure panics, nothing is called twice and nothing outside the range *)
Theorem C30_no_other_call : forall S (f : S -> Z -> S * option Z) b ty r T env log env' out,
  fits b r -> 0 < T < two31 ->
  iterator_pass f b ty r T env log env' out ->
  NoDup (calls log) /\ forall x, In x (calls log) -> lowest r <= x < highest r.
Proof.
  intros S f b ty r T env log env' out F HT H.
  destruct (pass_inv f b ty r T env log env' out F HT H) as (sched & s & R & A & -> & -> & -> & I).
  destruct (prefix_perm _ s I) as [rest P].
  rewrite <- flat_map_concat_map in P. rewrite (pieces_visited ty r T) in P by lia.
  assert (Q : Permutation (calls (p_log s) ++ (rest ++ skipped r T)) (indices r)).
  { rewrite app_assoc, P. apply visited_skipped. lia. }
  assert (ND : NoDup (calls (p_log s) ++ (rest ++ skipped r T))).
  { eapply Permutation_NoDup; [symmetry; exact Q|apply zseq_nodup]. }
  split.
  - clear - ND. induction (calls (p_log s)) as [|x l IH]; [constructor|].
    cbn in ND. inversion ND as [|y l' N1 N2]; subst. constructor; [|apply IH; exact N2].
    intros C. apply N1. apply in_app_iff. left; exact C.
  - intros x Hx. assert (In x (indices r)).
    { eapply Permutation_in; [exact Q|]. apply in_app_iff. left; exact Hx. }
    unfold indices in H0. apply in_zseq in H0. pose proof (len_nonneg r). unfold len in *. lia.
Qed.
Print Assumptions C30_no_other_call.

(** C31: what each thread calls, in order *)
Theorem C31_order_of_each_thread : forall S (f : S -> Z -> S * option Z) b ty r T env log env' out t,
  total f -> fits b r -> 0 < T < two31 ->
  iterator_pass f b ty r T env log env' out -> (t < Z.to_nat T)%nat ->
  calls_of t log =
    if r_start r <=? r_end r
    then rev (block (highest r - len r / T * (Z.of_nat t + 1)) (len r / T))      (* a..b: downwards *)
    else block (lowest r + len r / T * Z.of_nat t) (len r / T).                  (* b..a: upwards *)
Proof.
  intros S f b ty r T env log env' out t HF F HT H Ht.
  destruct (pass_inv f b ty r T env log env' out F HT H) as (sched & s & R & A & -> & -> & -> & I).
  pose proof (no_dead f sched _ s HF (no_dead_init ty env _) R) as D.
  assert (E : nth_error (map (thread_calls ty) (map (piece r T) (zseq 0 (Z.to_nat T)))) t
              = Some (thread_calls ty (piece r T (Z.of_nat t)))).
  { rewrite map_map, nth_error_map, nth_error_zseq by exact Ht. cbn [option_map]. do 3 f_equal. }
  rewrite (done_calls _ s I A D t _ E).
  destruct (Z.leb_spec (r_start r) (r_end r)).
  - apply piece_up; lia.
  - apply piece_down; lia.
Qed.
Print Assumptions C31_order_of_each_thread.

Lemma calls_one_thread {S} (f : S -> Z -> S * option Z) b ty r env log env' out :
  fits b r -> iterator_pass f b ty r 1 env log env' out -> calls log = calls_of 0 log.
Proof.
  intros F H. destruct (pass_inv f b ty r 1 env log env' out F ltac:(rewrite two31_val; lia) H) as (sched & s & R & A & -> & -> & -> & I).
  destruct I as (_ & B & _). rewrite !map_length, zseq_length in B. change (Z.to_nat 1) with 1%nat in B.
  unfold calls, calls_of. f_equal. clear - B.
  induction (p_log s) as [|[t e] l IH]; [reflexivity|]. inversion B as [|x l' H1 H2]; subst. cbn in H1.
  assert (t = 0%nat) by lia. subst t. cbn [filter fst Nat.eqb]. f_equal. apply IH; exact H2.
Qed.

(** with one thread the whole pass goes backwards through an ascending range *)
Theorem C31_single_thread : forall S (f : S -> Z -> S * option Z) b ty r env log env' out,
  total f -> fits b r -> iterator_pass f b ty r 1 env log env' out ->
  calls log = if r_start r <=? r_end r then rev (indices r) else indices r.
Proof.
  intros S f b ty r env log env' out HF F H. rewrite (calls_one_thread f b ty r env log env' out F H).
  rewrite (C31_order_of_each_thread S f b ty r 1 env log env' out 0 HF F ltac:(rewrite two31_val; lia) H) by (cbn; lia).
  rewrite Z.div_1_r. unfold indices, block. pose proof (len_nonneg r) as L. unfold len in *.
  destruct (r_start r <=? r_end r); f_equal; f_equal; lia.
Qed.
Print Assumptions C31_single_thread.

(** C29: when the number of threads divides the length, each index exactly once,
    one contiguous block per thread, and the pass returns *)
Theorem C29_every_index_exactly_once : forall S (f : S -> Z -> S * option Z) b ty r T env log env' out,
  total f -> fits b r -> 0 < T < two31 -> (T | len r) ->
  iterator_pass f b ty r T env log env' out ->
  Permutation (calls log) (indices r)
  /\ (exists v, out = Val v)
  /\ forall t, (t < Z.to_nat T)%nat -> exists a, Permutation (calls_of t log) (block a (len r / T)).
Proof.
  intros S f b ty r T env log env' out HF F HT Dv H.
  destruct (C30_skipped_indices S f b ty r T env log env' out HF F HT H) as (P & _ & N & V).
  split; [|split; [exact V|]].
  - apply Z.mod_divide in Dv; [|lia]. rewrite Dv in N.
    destruct (skipped r T); [|cbn in N; lia]. rewrite app_nil_r in P. exact P.
  - intros t Ht. rewrite (C31_order_of_each_thread S f b ty r T env log env' out t HF F HT H Ht).
    destruct (r_start r <=? r_end r); eexists; [rewrite <- Permutation_rev|]; reflexivity.
Qed.
Print Assumptions C29_every_index_exactly_once.

(** a pass can always be completed, and no schedule goes on for ever *)
Theorem C29_every_pass_completes : forall S (f : S -> Z -> S * option Z) b ty r T env,
  fits b r -> 0 < T < two31 ->
  (exists log env' out, iterator_pass f b ty r T env log env' out)
  /\ forall cs sched s, chunks b r T = Val cs -> pass_run f (pass_init ty env cs) sched = Some s ->
     (length sched <= Z.to_nat (len r))%nat.
Proof.
  intros S f b ty r T env F HT. pose proof (chunks_ok b r T F HT) as C. split.
  - destruct (completes f (pass_init ty env (map (piece r T) (zseq 0 (Z.to_nat T))))) as (sched & s & R & A).
    eexists _, _, _. eapply pass_done; eassumption.
  - intros cs sched s C' R. rewrite C in C'. injection C' as <-. apply run_bounded in R. etransitivity; [|].
    2:{ instantiate (1 := work (pass_init ty env (map (piece r T) (zseq 0 (Z.to_nat T))))).
        unfold work, pass_init. cbn [p_threads]. rewrite map_map.
        assert (E : forall l, list_sum (map (fun x => todo_of (spawn ty x)) l) = length (flat_map (thread_calls ty) l)).
        { induction l as [|x l IH]; [reflexivity|]. cbn [map flat_map]. rewrite app_length, <- IH. reflexivity. }
        rewrite E. rewrite (Permutation_length (pieces_visited ty r T ltac:(lia))).
        pose proof (Permutation_length (visited_skipped r T ltac:(lia))) as PL.
        rewrite app_length in PL. unfold indices in PL. rewrite zseq_length in PL. lia. }
    lia.
Qed.
Print Assumptions C29_every_pass_completes.

(** C32: the returned number, for every pure closure *)
Theorem C32_computed_number : forall S (f : Z -> Z) b ty r T (env : S) log env' out,
  fits b r -> 0 < T < two31 ->
  iterator_pass (pure f) b ty r T env log env' out ->
  exists ends, ends = map (fun n => r_end r + Z.quot (r_start r - r_end r) T * (n + 1)) (zseq 0 (Z.to_nat T))
    /\ out = Val (xor_all ((r_start r + 1) :: ends ++ map f (calls log))).
Proof.
  intros S f b ty r T env log env' out F HT H. eexists. split; [reflexivity|].
  destruct (pass_inv _ b ty r T env log env' out F HT H) as (sched & s & R & A & -> & -> & -> & I).
  pose proof (acc_run f _ sched _ s (acc_init f ty env _) R) as [L J].
  unfold finish. rewrite (checked_u32_start b r F). cbn [bind].
  rewrite (join_acc f (p_log s) _ (p_threads s) 0 (r_start r + 1) L J).
  f_equal. cbn [xor_all fold_right]. f_equal.
  change (fold_right Z.lxor 0) with xor_all. rewrite xor_all_app. f_equal.
  - rewrite map_map. reflexivity.
  - apply xor_all_perm. apply Permutation_map. symmetry.
    rewrite (calls_partition _ (length (map (thread_calls ty) (map (piece r T) (zseq 0 (Z.to_nat T)))))) by apply I.
    rewrite !map_length. reflexivity.
Qed.
Print Assumptions C32_computed_number.

Theorem C32_schedule_independent : forall S (f : Z -> Z) b ty ty' r T (env : S) log1 env1 out1 log2 env2 out2,
  fits b r -> 0 < T < two31 ->
  iterator_pass (pure f) b ty r T env log1 env1 out1 ->
  iterator_pass (pure f) b ty' r T env log2 env2 out2 ->
  out1 = out2.
Proof.
  intros S f b ty ty' r T env log1 env1 out1 log2 env2 out2 F HT H1 H2.
  destruct (C32_computed_number S f b ty r T env log1 env1 out1 F HT H1) as (ends & -> & ->).
  destruct (C32_computed_number S f b ty' r T env log2 env2 out2 F HT H2) as (ends & -> & ->).
  f_equal. apply xor_all_perm. apply perm_skip. apply Permutation_app_head. apply Permutation_map.
  destruct (C30_skipped_indices S _ b ty r T env log1 env1 _ (pure_total f) F HT H1) as (P1 & _).
  destruct (C30_skipped_indices S _ b ty' r T env log2 env2 _ (pure_total f) F HT H2) as (P2 & _).
  apply Permutation_app_inv_r with (l := skipped r T). rewrite P1, P2. reflexivity.
Qed.
Print Assumptions C32_schedule_independent.

(** the algorithm type has no effect whatsoever, for any closure, range or number of threads *)
Theorem C32_algorithm_type_is_ignored : forall S (f : S -> Z -> S * option Z) b ty ty' r T env log env' out,
  iterator_pass f b ty r T env log env' out -> iterator_pass f b ty' r T env log env' out.
Proof.
  intros S f b ty ty' r T env log env' out H.
  assert (E : forall c, thread_calls ty c = thread_calls ty' c) by (intros c; destruct ty, ty'; reflexivity).
  destruct H as [cs sched s C R A|p C].
  - eapply pass_done; try eassumption. rewrite <- R. f_equal. unfold pass_init. f_equal.
    apply map_ext. intros c. unfold spawn. rewrite E. reflexivity.
  - apply pass_no_chunks. exact C.
Qed.
Print Assumptions C32_algorithm_type_is_ignored.

(** C33: zero threads *)
Theorem C33_zero_threads_panic : forall S (f : S -> Z -> S * option Z) b ty r env log env' out,
  iterator_pass f b ty r 0 env log env' out -> log = [] /\ exists p, out = Panic p.
Proof.
  intros S f b ty r env log env' out H. destruct (chunks_zero b r) as [p E].
  destruct H as [cs sched s C R A|q C]; rewrite E in C; [discriminate|]. split; [reflexivity|eauto].
Qed.
Print Assumptions C33_zero_threads_panic.

(** C60: ranges across 2^31 in a debug build *)
Theorem C60_debug_panics_across_2_31 : forall S (f : S -> Z -> S * option Z) ty r T env log env' out,
  total f -> u32_range r -> r_start r < two32 - 1 -> len r < two31 -> 0 < T < two31 ->
  iterator_pass f Debug ty r T env log env' out ->
  (out = Panic POverflow /\ log = [] <-> ~ (r_start r < two31 <-> r_end r < two31))
  /\ ((exists v, out = Val v) <-> (r_start r < two31 <-> r_end r < two31)).
Proof.
  intros S f ty r T env log env' out HF U US L HT H.
  assert (X : one_side r \/ ~ one_side r).
  { unfold one_side. destruct (Z.ltb_spec (r_start r) two31), (Z.ltb_spec (r_end r) two31); lia. }
  destruct X as [O|O].
  - assert (F : fits Debug r) by (split; [exact U|split; [exact US|exact O]]).
    destruct (C30_skipped_indices S f Debug ty r T env log env' out HF F HT H) as (_ & _ & _ & v & ->).
    unfold one_side in O. split; split; try tauto; [intros [E _]; discriminate|eauto].
  - assert (C : chunks Debug r T = Panic POverflow) by (apply chunks_cross; assumption).
    destruct H as [cs sched s C' R A|q C']; rewrite C in C'; [discriminate|]. injection C' as <-.
    unfold one_side in O. split; split; try tauto. intros [v E]; discriminate.
Qed.
Print Assumptions C60_debug_panics_across_2_31.

(** C61: closures that panic *)
Theorem C61_a_panicking_call_panics_the_pass : forall S (f : Z -> option Z) b ty r T (env : S) log env' out,
  fits b r -> 0 < T < two31 ->
  iterator_pass (fun s x => (s, f x)) b ty r T env log env' out ->
  (out = Panic PClosure <-> exists x, In x (calls log) /\ f x = None)
  /\ ((exists v, out = Val v) <-> forall x, In x (calls log) -> f x <> None)
  /\ ((T | len r) -> (exists x, In x (indices r) /\ f x = None) -> out = Panic PClosure).
Proof.
  intros S f b ty r T env log env' out F HT H.
  destruct (pass_inv _ b ty r T env log env' out F HT H) as (sched & s & R & A & -> & -> & -> & I).
  assert (PI : forall t th, nth_error (p_threads s) t = Some th -> par1 f (p_log s) t th).
  { refine (par_run f sched _ s _ R). intros t th Ht. cbn in Ht. rewrite nth_error_map in Ht.
    destruct (nth_error _ t); [|discriminate]. injection Ht as <-. cbn. intros x []. }
  assert (OUT : forall v, In v (calls (p_log s)) -> exists t th, nth_error (p_threads s) t = Some th /\ In v (calls_of t (p_log s))).
  { intros v Hv. destruct I as (L & B & _).
    apply (Permutation_in _ (calls_partition _ _ B)) in Hv. apply in_flat_map in Hv. destruct Hv as (t & Ht & Hv).
    apply in_seq in Ht. destruct (nth_error (p_threads s) t) as [th|] eqn:E; [eauto|].
    apply nth_error_None in E. lia. }
  assert (IN : forall t v, In v (calls_of t (p_log s)) -> In v (calls (p_log s))).
  { intros t v Hv. unfold calls_of in Hv. apply in_map_iff in Hv. destruct Hv as (c & <- & Hc).
    apply filter_In in Hc. apply in_map. tauto. }
  assert (DD : (exists t, nth_error (p_threads s) t = Some Dead) \/ (forall t, nth_error (p_threads s) t <> Some Dead)).
  { clear. induction (p_threads s) as [|th l IH]; [right; intros [|t]; discriminate|].
    destruct th as [todo acc|]; [|left; exists 0%nat; reflexivity].
    destruct IH as [[t Ht]|IH]; [left; exists (Datatypes.S t); exact Ht|right; intros [|t]; [discriminate|apply IH]]. }
  unfold finish. rewrite (checked_u32_start b r F). cbn [bind].
  assert (K : (exists t, nth_error (p_threads s) t = Some Dead) <-> exists x, In x (calls (p_log s)) /\ f x = None).
  { split.
    - intros [t Ht]. specialize (PI t _ Ht). cbn in PI. destruct PI as (x & Hx & Fx). eauto.
    - intros (x & Hx & Fx). destruct (OUT x Hx) as (t & th & Ht & Hc). specialize (PI t th Ht).
      destruct th as [todo acc|]; [|eauto]. cbn in PI. exfalso. apply (PI x Hc Fx). }
  destruct DD as [DD|DD].
  - rewrite join_dead by exact DD. pose proof (proj1 K DD) as KX. split; [|split].
    + tauto.
    + split; [intros [v E]; discriminate|]. intros C. destruct KX as (x & Hx & Fx). exfalso. apply (C x Hx Fx).
    + reflexivity.
  - destruct (join_alive (p_threads s) (r_start r + 1) DD) as [v ->].
    assert (NX : forall x, In x (calls (p_log s)) -> f x <> None).
    { intros x Hx Fx. destruct (proj2 K (ex_intro _ x (conj Hx Fx))) as [t Ht]. apply (DD t Ht). }
    split; [|split].
    + split; [discriminate|]. intros (x & Hx & Fx). exfalso. apply (NX x Hx Fx).
    + split; eauto.
    + intros Dv (x & Hx & Fx). exfalso. apply (NX x); [|exact Fx].
      assert (D : Forall (fun th => th <> Dead) (p_threads s)).
      { apply Forall_forall. intros th Hin E. apply In_nth_error in Hin. destruct Hin as [t Ht]. subst th. apply (DD t Ht). }
      pose proof (done_perm _ s I A D) as P. rewrite <- flat_map_concat_map in P.
      rewrite (pieces_visited ty r T) in P by lia.
      assert (Q : Permutation (calls (p_log s) ++ skipped r T) (indices r)).
      { rewrite P. apply visited_skipped; lia. }
      apply Z.mod_divide in Dv; [|lia].
      assert (Sk : skipped r T = []) by (unfold skipped; rewrite Dv; destruct (_ <=? _); reflexivity).
      rewrite Sk, app_nil_r in Q. eapply Permutation_in; [symmetry; exact Q|exact Hx].
Qed.
Print Assumptions C61_a_panicking_call_panics_the_pass.

(** ** Non-vacuity: concrete passes *)
Definition ranp {S} (f : S -> Z -> S * option Z) b ty r T env sched :=
  match chunks b r T with
  | Val cs => match pass_run f (pass_init ty env cs) sched with Some s => Some (p_log s, finish b r s) | None => None end
  | _ => None
  end.
Lemma ranp_ok {S} (f : S -> Z -> S * option Z) b ty r T env sched log out :
  ranp f b ty r T env sched = Some (log, out) ->
  (match chunks b r T with Val cs => match pass_run f (pass_init ty env cs) sched with Some s => forallb (fun th => match th with Running (_ :: _) _ => false | _ => true end) (p_threads s) | None => false end | _ => false end) = true ->
  exists env', iterator_pass f b ty r T env log env' out.
Proof.
  unfold ranp. destruct (chunks b r T) as [cs| |] eqn:C; try discriminate.
  destruct (pass_run f (pass_init ty env cs) sched) as [s|] eqn:R; [|discriminate].
  intros H Hf. injection H as <- <-. exists (p_env s). eapply pass_done; try eassumption.
  apply Forall_forall. intros th Hin. rewrite forallb_forall in Hf. specialize (Hf th Hin).
  destruct th as [[|e l] acc|]; [exact I|discriminate|exact I].
Qed.

(** two threads over 0..4, interleaved: thread 0 gets 3,2 and thread 1 gets 1,0 *)
Example C29_C31_C32_example : exists env', iterator_pass (pure (fun x => x * x)) Debug SetResizing (Range 0 4) 2 tt
  [(1%nat, 1); (0%nat, 3); (0%nat, 2); (1%nat, 0)] env'
  (Val (xor_all ([1] ++ [2; 0] ++ [1; 9; 4; 0]))).
Proof. eapply ranp_ok with (sched := [1; 0; 0; 1]%nat); vm_compute; reflexivity. Qed.
Example C29_C31_C32_example_hypotheses : fits Debug (Range 0 4) /\ 0 < 2 < two31 /\ (2 | len (Range 0 4)) /\ total (@pure unit (fun x => x * x)).
Proof.
  split; [apply small_ranges_fit; rewrite two31_val; cbn; lia|]. split; [rewrite two31_val; lia|].
  split; [exists 2; reflexivity|apply pure_total].
Qed.
(** three threads over 10..3 (descending, length 7): 9 is skipped, order upwards *)
Example C30_example : exists env', iterator_pass (pure (fun x => x)) Release ConstantSet (Range 10 3) 3 tt
  [(2%nat, 7); (0%nat, 3); (1%nat, 5); (0%nat, 4); (2%nat, 8); (1%nat, 6)] env'
  (Val (xor_all ([11] ++ [5; 7; 9] ++ [7; 3; 5; 4; 8; 6]))) /\ skipped (Range 10 3) 3 = [9].
Proof.
  assert (X : skipped (Range 10 3) 3 = [9]) by (vm_compute; reflexivity).
  destruct (ranp_ok (pure (fun x => x)) Release ConstantSet (Range 10 3) 3 tt [2; 0; 1; 0; 2; 1]%nat
     [(2%nat, 7); (0%nat, 3); (1%nat, 5); (0%nat, 4); (2%nat, 8); (1%nat, 6)]
     (Val (xor_all ([11] ++ [5; 7; 9] ++ [7; 3; 5; 4; 8; 6])))) as [e H]; [vm_compute; reflexivity|vm_compute; reflexivity|].
  exists e. split; [exact H|exact X].
Qed.
(** five threads for four iterations: nothing runs and the pass still returns a measurement *)
Example C30_example_nothing_runs : exists env', iterator_pass (pure (fun x => x)) Debug SetResizing (Range 0 4) 5 tt [] env'
  (Val (xor_all ([1] ++ [4; 4; 4; 4; 4]))).
Proof. eapply ranp_ok with (sched := []); vm_compute; reflexivity. Qed.
(** a range across 2^31 *)
Example C60_example : iterator_pass (pure (fun x => x)) Debug SetResizing (Range 2147483640 2147483660) 2 tt [] tt (Panic POverflow).
Proof. apply pass_no_chunks. vm_compute. reflexivity. Qed.
Example C60_example_release_fits : fits Release (Range 2147483640 2147483660).
Proof. unfold fits, u32_range, len, highest, lowest. cbn [r_start r_end]. rewrite two31_val, two32_val. lia. Qed.
(** a closure that panics on 1: the other thread still finishes, and the pass panics *)
Example C61_example : exists env', iterator_pass (fun s x => (s, if x =? 1 then None else Some x)) Debug SetResizing (Range 0 4) 2 tt
  [(1%nat, 1); (0%nat, 3); (0%nat, 2)] env' (Panic PClosure).
Proof. eapply ranp_ok with (sched := [1; 0; 0]%nat); vm_compute; reflexivity. Qed.
(** C33: zero threads do reach the panic *)
Example C33_example : iterator_pass (pure (fun x => x)) Release ConstantSet (Range 0 10) 0 tt [] tt (Panic PDivZero).
Proof. apply pass_no_chunks. reflexivity. Qed.
