(** * Concrete executions of the metrics allocator under its memory orderings: tools for the
    examples and refutations of PropsAllocWeak.v. *)
From Coq Require Import List ZArith Lia Bool Arith.
From Verif Require Import Machine Ring RingSpec RingWeak Alloc AllocSpec AllocConc AllocConcSpec AllocWeak AllocWeakSpec.
Import ListNotations.
Open Scope nat_scope.

(** ** Building schedules *)
Definition ncells (s : kst) (f : field) : nat := length (k_msgs s f) - 1.
(** the choices with which thread [t] sees the newest of everything *)
Definition see_newest (s : kst) (t : nat) : list nat :=
  let r := k_ring s in
  match nth_error (k_threads s) t with
  | Some (AAdds ((f, _) :: _)) => [ncells s f]
  | Some ALoadCur | Some (SLoadCur1 _) | Some (SLoadCur2 _) | Some (DLoads _ _ _ [] _) => [ncells s FCur]
  | Some (ALoadMin _) | Some (AMin _ _) | Some SLoadMin | Some (SStoreMin _ _) | Some (DMin _ _ _) => [ncells s FMin]
  | Some (ALoadMax _) | Some (AMax _ _) | Some (SLoadMax _) | Some (SStoreMax _ _) | Some (DMax _ _ _) => [ncells s FMax]
  | Some (SSnap _ (f :: _) _) | Some (DLoads _ _ _ (f :: _) _) => [ncells s f]
  | _ => match nth_error (w_threads r) t with
         | Some (PeekLoadHead c) => [length (nth c (w_heads r) []) - 1]
         | Some (PeekLoadTail _ _) => (length (w_pub r) - 1) :: map (@length _) (w_slots r)
         | Some ConsLoad => [length (w_pub r) - 1]
         | _ => []
         end
  end.
(** the choices with which thread [t] sees the oldest of everything it may see *)
Definition see_oldest (s : kst) (t : nat) : list nat :=
  let v f := kv (kview_of s t) f in
  match nth_error (k_threads s) t with
  | Some (AAdds ((f, _) :: _)) => [ncells s f]
  | Some ALoadCur | Some (SLoadCur1 _) | Some (SLoadCur2 _) | Some (DLoads _ _ _ [] _) => [v FCur]
  | Some (ALoadMin _) | Some (AMin _ _) | Some SLoadMin | Some (SStoreMin _ _) | Some (DMin _ _ _) => [v FMin]
  | Some (ALoadMax _) | Some (AMax _ _) | Some (SLoadMax _) | Some (SStoreMax _ _) | Some (DMax _ _ _) => [v FMax]
  | Some (SSnap _ (f :: _) _) | Some (DLoads _ _ _ (f :: _) _) => [v f]
  | _ => see_newest s t
  end.
(** thread [t] runs alone until it is back outside the allocator *)
Fixpoint finish (b : build) (see : kst -> nat -> list nat) (s : kst) (t fuel : nat) : list kaction :=
  match fuel with
  | 0 => []
  | S fuel' => match nth_error (k_threads s) t with
               | Some AIdle => []
               | _ => let a := KStep t false (see s t) in
                      match kstep b s a with Some s' => a :: finish b see s' t fuel' | None => [] end
               end
  end.
Inductive piece :=
| Act (a : kaction)                  (* this action *)
| New (t : nat) (op : aop)           (* [t] calls [op], alone, and sees the newest of everything *)
| Old (t : nat) (op : aop)           (* ... the oldest it may see *)
| NewRest (t : nat)                  (* [t] goes on alone until its call is over, seeing the newest *)
| NewSteps (t k : nat).              (* [k] steps of [t], seeing the newest *)
Fixpoint steps (b : build) (see : kst -> nat -> list nat) (s : kst) (t k : nat) : list kaction :=
  match k with
  | 0 => []
  | S k' => let a := KStep t false (see s t) in match kstep b s a with Some s' => a :: steps b see s' t k' | None => [] end
  end.
Fixpoint build_sched (b : build) (s : kst) (l : list piece) : list kaction :=
  match l with
  | [] => []
  | x :: l =>
      let q := match x with
               | Act a => [a]
               | New t op => match kstep b s (KStart t op) with Some s1 => KStart t op :: finish b see_newest s1 t 200 | None => [] end
               | Old t op => match kstep b s (KStart t op) with Some s1 => KStart t op :: finish b see_oldest s1 t 200 | None => [] end
               | NewRest t => finish b see_newest s t 200
               | NewSteps t k => steps b see_newest s t k
               end in
      match krun b s q with Some s' => q ++ build_sched b s' l | None => q end
  end.

(** ** Checking statements about a concrete schedule *)
Lemma option_map_some {X Y} (g : X -> Y) o y : option_map g o = Some y -> exists x, o = Some x /\ g x = y.
Proof. destruct o as [x|]; cbn; [|discriminate]. intros [= <-]. eauto. Qed.

Definition edge (sched : list kaction) (i j : nat) : bool :=
  (i <? j) &&
  match nth_error sched i, nth_error sched j with
  | Some a, Some a' =>
      (kactor a =? kactor a') ||
      match a, a' with KSend _, KRecv _ k => k =? length (filter kis_send (firstn i sched)) | _, _ => false end
  | _, _ => false
  end.
Fixpoint reaches (sched : list kaction) (acc js : list nat) : list nat :=
  match js with [] => acc | j :: js => reaches sched (if existsb (fun m => edge sched m j) acc then j :: acc else acc) js end.
Definition khb_b (sched : list kaction) (i j : nat) : bool := existsb (Nat.eqb j) (reaches sched [i] (seq (S i) (j - i))) && (i <? j).
Lemma edge_khb sched i j : edge sched i j = true -> khb sched i j.
Proof.
  unfold edge. intros H. apply andb_true_iff in H. destruct H as [L H]. apply Nat.ltb_lt in L.
  destruct (nth_error sched i) as [a|] eqn:Ei; [|discriminate]. destruct (nth_error sched j) as [a'|] eqn:Ej; [|discriminate].
  apply orb_true_iff in H. destruct H as [H|H].
  - apply Nat.eqb_eq in H. eapply khb_thread; eauto.
  - destruct a as [| |t|]; try discriminate. destruct a' as [| | |u k]; try discriminate. apply Nat.eqb_eq in H. subst k.
    eapply khb_sync; eauto.
Qed.
Lemma khb_b_sound sched i j : khb_b sched i j = true -> khb sched i j.
Proof.
  unfold khb_b. intros H. apply andb_true_iff in H. destruct H as [H L]. apply Nat.ltb_lt in L.
  assert (G : forall js acc, (forall m, In m acc -> m = i \/ khb sched i m) -> forall m, In m (reaches sched acc js) -> m = i \/ khb sched i m).
  { induction js as [|x js IH]; intros acc HA m; cbn [reaches]; [apply HA|]. apply IH. intros y Hy.
    destruct (existsb (fun m => edge sched m x) acc) eqn:E; [|apply HA; exact Hy]. destruct Hy as [<-|Hy]; [|apply HA; exact Hy].
    apply existsb_exists in E. destruct E as (z & Hz & Ez). apply edge_khb in Ez. right. destruct (HA z Hz) as [->|K]; [exact Ez|eapply khb_trans; eauto]. }
  apply existsb_exists in H. destruct H as (y & Hy & E). apply Nat.eqb_eq in E. subst y.
  destruct (G _ [i] (fun m (Hm : In m [i]) => or_introl (match Hm with or_introl e => eq_sym e | or_intror f => match f with end end)) j Hy) as [->|K]; [lia|exact K].
Qed.
Definition idle_b (p : option apc) : bool := match p with Some AIdle => true | _ => false end.
Lemma idle_b_true p : idle_b p = true -> p = Some AIdle.
Proof. destruct p as [[]|]; (reflexivity || discriminate). Qed.
Lemma idle_b_false p : idle_b p = false -> p <> Some AIdle.
Proof. intros H ->. discriminate. Qed.
Definition call_over_b (b : build) (sz n : nat) (sched : list kaction) (i e : nat) : bool :=
  match nth_error sched i, nth_error sched e with
  | Some (KStart t _), Some (KStep t' _ _) =>
      (t =? t') && (i <? e) && idle_b (kpc b sz n sched (S e) t) && forallb (fun m => negb (idle_b (kpc b sz n sched m t))) (seq (S i) (e - i))
  | _, _ => false
  end.
Lemma call_over_b_sound b sz n sched i e : call_over_b b sz n sched i e = true -> call_over b sz n sched i e.
Proof.
  unfold call_over_b. destruct (nth_error sched i) as [[t op| | |]|] eqn:Ei; try discriminate.
  destruct (nth_error sched e) as [[|t' fails picks| |]|] eqn:Ee; try discriminate.
  intros H. repeat (apply andb_true_iff in H; destruct H as [H ?]). apply Nat.eqb_eq in H. subst t'.
  exists t, op, fails, picks. repeat split; try assumption.
  - apply Nat.ltb_lt. assumption.
  - apply idle_b_true. assumption.
  - intros m L. apply idle_b_false. rewrite forallb_forall in H0. specialize (H0 m ltac:(apply in_seq; lia)). cbv beta in H0. apply negb_true_iff in H0. exact H0.
Qed.
(** every call begun before [de] is [si], [di], or over before the one, or begun after [se] and over before the other *)
Definition region_b (b : build) (sz n : nat) (sched : list kaction) (si se di de : nat) : bool :=
  forallb (fun i => match nth_error sched i with
                    | Some (KStart _ _) => (i =? si) || (i =? di) ||
                        existsb (fun e => call_over_b b sz n sched i e && (khb_b sched e si || ((se <? i) && khb_b sched e di))) (seq i (length sched - i))
                    | _ => true
                    end) (seq 0 de).
Lemma region_b_sound b sz n sched si se di de : region_b b sz n sched si se di de = true ->
  forall i t op, i < de -> nth_error sched i = Some (KStart t op) -> i = si \/ i = di \/
     exists e, call_over b sz n sched i e /\ (khb sched e si \/ se < i /\ khb sched e di).
Proof.
  unfold region_b. rewrite forallb_forall. intros H i t op L Hi. specialize (H i ltac:(apply in_seq; lia)). cbv beta in H. rewrite Hi in H.
  apply orb_true_iff in H. destruct H as [H|H].
  - apply orb_true_iff in H. destruct H as [H|H]; apply Nat.eqb_eq in H; auto.
  - right. right. apply existsb_exists in H. destruct H as (e & _ & H). apply andb_true_iff in H. destruct H as [CO H].
    exists e. split; [apply call_over_b_sound; exact CO|]. apply orb_true_iff in H. destruct H as [H|H].
    + left. apply khb_b_sound. exact H.
    + apply andb_true_iff in H. destruct H as [L2 H]. right. split; [apply Nat.ltb_lt; exact L2|apply khb_b_sound; exact H].
Qed.
Lemma save_over_check b sz n sched i e k :
  match nth_error sched i with Some (KStart _ OSave) => true | _ => false end &&
  call_over_b b sz n sched i e &&
  match krun b (kinit sz n) (firstn e sched) with Some s => length (k_sps s) =? k | None => false end = true ->
  save_over b sz n sched i e k.
Proof.
  intros H. apply andb_true_iff in H. destruct H as [H H3]. apply andb_true_iff in H. destruct H as [H1 H2].
  split; [|split; [apply call_over_b_sound; exact H2|]].
  - destruct (nth_error sched i) as [[t []| | |]|] eqn:E; try discriminate. eauto.
  - destruct (krun b (kinit sz n) (firstn e sched)) as [s|]; [|discriminate]. apply Nat.eqb_eq in H3. eauto.
Qed.
Lemma delta_over_check b sz n sched i e k ds l :
  match nth_error sched i with Some (KStart _ (ODelta k')) => k' =? k | _ => false end &&
  call_over_b b sz n sched i e = true ->
  option_map k_deltas (krun b (kinit sz n) (firstn e sched)) = Some l ->
  option_map k_deltas (krun b (kinit sz n) (firstn (S e) sched)) = Some (l ++ [(k, Some ds)]) ->
  delta_over b sz n sched i e k ds.
Proof.
  intros H E1 E2. apply andb_true_iff in H. destruct H as [H1 H2].
  apply option_map_some in E1. destruct E1 as (s1 & R1 & D1). apply option_map_some in E2. destruct E2 as (s2 & R2 & D2).
  split; [|split; [apply call_over_b_sound; exact H2|]].
  - destruct (nth_error sched i) as [[t []| | |]|] eqn:E; try discriminate. apply Nat.eqb_eq in H1. subst. eauto.
  - exists s1, s2. repeat split; try assumption. rewrite D1. exact D2.
Qed.
(** statistics calls by different threads are ordered *)
Definition ordered_b (b : build) (sz n : nat) (sched : list kaction) : bool :=
  forallb (fun i => forallb (fun j => match nth_error sched i, nth_error sched j with
    | Some (KStart t op), Some (KStart u op') =>
        if (i <? j) && is_stat op && is_stat op' then
          (t =? u) || existsb (fun e => call_over_b b sz n sched i e && khb_b sched e j) (seq 0 j)
        else true
    | _, _ => true
    end) (seq 0 (length sched))) (seq 0 (length sched)).
Lemma ordered_b_sound b sz n sched : ordered_b b sz n sched = true -> ordered_statistics b sz n sched.
Proof.
  unfold ordered_b. rewrite forallb_forall. intros H i j t u op op' L Hi Hj Si Sj.
  assert (Li : i < length sched) by (apply nth_error_Some; congruence). assert (Lj : j < length sched) by (apply nth_error_Some; congruence).
  specialize (H i ltac:(apply in_seq; lia)). cbv beta in H. rewrite forallb_forall in H. specialize (H j ltac:(apply in_seq; lia)). cbv beta in H.
  rewrite Hi, Hj, Si, Sj, (proj2 (Nat.ltb_lt _ _)) in H by exact L. cbn [andb] in H. apply orb_true_iff in H. destruct H as [H|H].
  - left. apply Nat.eqb_eq. exact H.
  - right. apply existsb_exists in H. destruct H as (e & _ & H). apply andb_true_iff in H. destruct H as [H1 H2].
    exists e. split; [apply call_over_b_sound; exact H1|apply khb_b_sound; exact H2].
Qed.
(** [region_b] for the calls between the two, which must also come after the save point, and take none themselves *)
Definition region2_b (b : build) (sz n : nat) (sched : list kaction) (si se di de : nat) : bool :=
  forallb (fun i => match nth_error sched i with
                    | Some (KStart _ op) => (i =? si) || (i =? di) ||
                        existsb (fun e => call_over_b b sz n sched i e &&
                          (khb_b sched e si || ((se <? i) && match op with OSave => false | _ => true end && khb_b sched se i && khb_b sched e di))) (seq i (length sched - i))
                    | _ => true
                    end) (seq 0 de).
Lemma region2_b_sound b sz n sched si se di de : region2_b b sz n sched si se di de = true ->
  forall i t op, i < de -> nth_error sched i = Some (KStart t op) -> i = si \/ i = di \/
     exists e, call_over b sz n sched i e /\ (khb sched e si \/ se < i /\ op <> OSave /\ khb sched se i /\ khb sched e di).
Proof.
  unfold region2_b. rewrite forallb_forall. intros H i t op L Hi. specialize (H i ltac:(apply in_seq; lia)). cbv beta in H. rewrite Hi in H.
  apply orb_true_iff in H. destruct H as [H|H].
  - apply orb_true_iff in H. destruct H as [H|H]; apply Nat.eqb_eq in H; auto.
  - right. right. apply existsb_exists in H. destruct H as (e & _ & H). apply andb_true_iff in H. destruct H as [CO H].
    exists e. split; [apply call_over_b_sound; exact CO|]. apply orb_true_iff in H. destruct H as [H|H].
    + left. apply khb_b_sound. exact H.
    + repeat (apply andb_true_iff in H; destruct H as [H ?]). right. split; [apply Nat.ltb_lt; exact H|]. split; [intros ->; discriminate|].
      split; apply khb_b_sound; assumption.
Qed.
(** no two calls overlap, and the end of each happens before the beginning of the next *)
Definition serial_b (b : build) (sz n : nat) (sched : list kaction) : bool :=
  forallb (fun i => match nth_error sched i with
    | Some (KStart _ _) =>
        let js := filter (fun j => match nth_error sched j with Some (KStart _ _) => i <? j | _ => false end) (seq 0 (length sched)) in
        match js with
        | [] => true
        | _ => existsb (fun e => call_over_b b sz n sched i e && forallb (khb_b sched e) js) (seq i (length sched - i))
        end
    | _ => true
    end) (seq 0 (length sched)).
Lemma serial_b_sound b sz n sched : serial_b b sz n sched = true -> serial b sz n sched.
Proof.
  unfold serial_b. rewrite forallb_forall. intros H i j t u op op' L Hi Hj.
  assert (Li : i < length sched) by (apply nth_error_Some; congruence). assert (Lj : j < length sched) by (apply nth_error_Some; congruence).
  specialize (H i ltac:(apply in_seq; lia)). cbv beta in H. rewrite Hi in H.
  set (js := filter (fun j => match nth_error sched j with Some (KStart _ _) => i <? j | _ => false end) (seq 0 (length sched))) in *.
  assert (J : In j js) by (apply filter_In; split; [apply in_seq; lia|rewrite Hj; apply Nat.ltb_lt; exact L]). clearbody js. cbv zeta in H.
  destruct js as [|j0 js]; [destruct J|]. apply existsb_exists in H. destruct H as (e & _ & H). apply andb_true_iff in H. destruct H as [H1 H2].
  exists e. split; [apply call_over_b_sound; exact H1|]. rewrite forallb_forall in H2. apply khb_b_sound, H2, J.
Qed.
