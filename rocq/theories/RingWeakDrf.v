(** * Synchronised executions under relaxed memory are interleavings (C83). *)
From Coq Require Import List ZArith Lia Bool Arith Permutation.
From Coq Require Import ZifyBool ZifyNat ZifyN.
From Verif Require Import Machine Ring RingSpec RingSeq RingConc RingConc2 RingConc3 RingWeak RingWeakSpec
  RingWeakProofs RingWeakProofs2 RingWeakProofs3.
Import ListNotations.
Open Scope Z_scope.

Section Drf.
Context {A : Type}.
Variable bld : build.
Notation wstate := (wstate A).
Notation waction := (waction A).
Notation cstate := (cstate A).
Notation pc := (pc A).

(** number of writes to a location, and how many of them everybody knows from the start *)
Definition len (s : wstate) (l : loc) : nat :=
  match l with
  | Res => length (w_res s)
  | Pub => length (w_pub s)
  | Head c => length (nth c (w_heads s) [])
  | Slot i => length (nth i (w_slots s) [])
  end.
Definition base (l : loc) : nat := match l with Res | Pub => 1%nat | _ => 0%nat end.
Definition complete (s : wstate) (t : nat) : Prop := forall l, (len s l <= Nat.max (base l) (seen (view_of s t) l))%nat.

Lemma nth_upd {X} (d x : X) i j l : nth j (upd i x l) d = if Nat.eqb i j then (if (i <? length l)%nat then x else d) else nth j l d.
Proof.
  revert i j; induction l as [|y l IH]; intros [|i] [|j]; cbn [upd nth Nat.eqb]; auto.
  - destruct (Nat.eqb i j); reflexivity.
  - rewrite IH. reflexivity.
Qed.

Lemma step_len (s : wstate) a s' : wstep bld s a = Some s' -> length (w_views s) = length (w_threads s) ->
  forall l, len s' l = len s l \/ (is_step a = true /\ (len s' l <= seen (view_of s' (actor a)) l)%nat).
Proof.
  intros E HL l.
  assert (VU : forall t v (s1 : wstate), w_views s1 = upd t v (w_views s) -> nth_error (w_threads s) t <> None -> view_of s1 t = v).
  { intros t v s1 Es L. unfold view_of. rewrite Es, view_upd, Nat.eqb_refl. apply nth_error_Some in L.
    rewrite (proj2 (Nat.ltb_lt _ _)) by lia. reflexivity. }
  destruct a as [t op|t fails picks|t|t k]; cbn [wstep] in E.
  1,3,4: left; split_step E; injection E as <-; destruct l; reflexivity.
  destruct (nth_error (w_threads s) t) as [p|] eqn:Ht; try discriminate. cbn [actor is_step].
  assert (HT : nth_error (w_threads s) t <> None) by congruence.
  destruct p as [|x|rt x|rt x|c|c h|c h|c h|c|c h| |q]; cbn [wthread_step] in E; try discriminate;
    split_step E; injection E as <-; try (left; destruct l; reflexivity).
  - destruct l; try (left; reflexivity). right. split; [reflexivity|].
    match goal with |- (_ <= seen (view_of ?s1 t) _)%nat => rewrite (VU t _ s1 eq_refl HT) end. rewrite seen_cons, loc_eqb_refl. cbn [len goto w_res]. rewrite app_length. cbn [length]. lia.
  - destruct l as [| |c|i]; try (left; reflexivity). cbn [len race goto w_slots]. rewrite nth_upd.
    destruct (Nat.eqb_spec (slot_of s rt) i) as [<-|N]; [|left; reflexivity].
    destruct (Nat.ltb_spec (slot_of s rt) (length (w_slots s))) as [L|L].
    + right. split; [reflexivity|]. match goal with |- (_ <= seen (view_of ?s1 t) _)%nat => rewrite (VU t _ s1 eq_refl HT) end. rewrite seen_cons, loc_eqb_refl, app_length. cbn [length]. lia.
    + left. rewrite nth_overflow by exact L. reflexivity.
  - destruct l; try (left; reflexivity). right. split; [reflexivity|].
    match goal with |- (_ <= seen (view_of ?s1 t) _)%nat => rewrite (VU t _ s1 eq_refl HT) end. rewrite seen_cons, loc_eqb_refl. cbn [len wlog goto w_pub]. rewrite app_length. cbn [length]. lia.
  - destruct l as [| |c'|i]; try (left; reflexivity). cbn [len goto w_heads]. rewrite nth_upd.
    destruct (Nat.eqb_spec c c') as [<-|N]; [|left; reflexivity].
    match goal with Q : nth_error (w_heads s) c = Some ?hs |- _ => assert (LC : (c < length (w_heads s))%nat) by (apply nth_error_Some; congruence) end.
    rewrite (proj2 (Nat.ltb_lt _ _)) by exact LC.
    right. split; [reflexivity|]. match goal with |- (_ <= seen (view_of ?s1 t) _)%nat => rewrite (VU t _ s1 eq_refl HT) end. rewrite seen_cons, loc_eqb_refl, app_length. cbn [length]. lia.
  - destruct l as [| |c'|i]; try (left; reflexivity). cbn [len wlog goto w_heads].
    destruct (Nat.lt_trichotomy c' (length (w_heads s))) as [L|[->|L]].
    + left. rewrite app_nth1 by exact L. reflexivity.
    + right. split; [reflexivity|]. match goal with |- (_ <= seen (view_of ?s1 t) _)%nat => rewrite (VU t _ s1 eq_refl HT) end. rewrite seen_cons, loc_eqb_refl.
      rewrite app_nth2, Nat.sub_diag by lia. cbn [nth length]. lia.
    + left. rewrite !nth_overflow; auto; [lia|]. rewrite app_length. cbn [length]. lia.
Qed.

Section Path.
Variables (sz n : nat) (sched : list waction).
Hypothesis SY : synchronised sched.
Notation att := (at_ bld sz n sched).

(** every write was made by a step whose thread then knew it *)
Definition Orig (m : nat) (s : wstate) : Prop :=
  forall l, (len s l <= base l)%nat \/
    exists i a si, (i < m)%nat /\ nth_error sched i = Some a /\ is_step a = true /\ att (S i) = Some si /\
                   (len s l <= seen (view_of si (actor a)) l)%nat.

Lemma Orig_at m s : att m = Some s -> Orig m s.
Proof.
  revert s. induction m as [|m IH]; intros s H l.
  - left. cbn in H. injection H as <-. destruct l as [| |c|i]; cbn [len base winit w_res w_pub w_heads w_slots length]; try lia.
    + destruct c; cbn; lia.
    + destruct (nth_in_or_default i (repeat ([] : list A) sz) []) as [G|G]; [apply repeat_spec in G|]; rewrite G; cbn; lia.
  - destruct (at_prev _ _ _ _ _ _ H) as (s1 & H1). pose proof (IH s1 H1 l) as O.
    destruct (nth_error sched m) as [a|] eqn:Ha.
    + pose proof (at_S _ _ _ _ _ _ _ _ Ha H1 H) as E.
      destruct (step_len s1 a s E (at_views bld sz n sched m s1 H1) l) as [->|[Hs Hl]].
      * destruct O as [O|(i & b & si & L & O)]; [left; exact O|]. right. exists i, b, si. split; [lia|exact O].
      * right. exists m, a, s. repeat split; auto.
    + rewrite (at_nth bld sz n sched m s1 s H1 H Ha).
      destruct O as [O|(i & b & si & L & O)]; [left; exact O|]. right. exists i, b, si. split; [lia|exact O].
Qed.

Lemma complete_at j s s' t f picks : nth_error sched j = Some (WStep t f picks) -> att j = Some s -> att (S j) = Some s' -> complete s t.
Proof.
  intros Ha H H' l. destruct (Orig_at j s H l) as [O|(i & a & si & L & Hi & Hs & Hsi & O)]; [lia|].
  assert (HHB : hb sched i j) by (eapply SY; eauto).
  destruct (hb_views bld sz n sched i j HHB a _ si s s' Hi Ha Hsi H H') as (_ & V). specialize (V eq_refl l). cbn [actor] in V. lia.
Qed.
End Path.

(** ** Reads are forced *)
Definition last_write (ws : list A) : option A := nth_error ws (length ws - 1).

Lemma read_forced ms k i m : read_at ms k i = Some m -> (length ms <= Nat.max 1 k)%nat -> newest ms = Some m.
Proof.
  unfold read_at, newest. intros H L. destruct (Nat.leb_spec k (S i)); [|discriminate].
  assert (i < length ms)%nat by (apply nth_error_Some; congruence). replace (length ms - 1)%nat with i by lia. exact H.
Qed.

Lemma read_slot_forced (s : wstate) v i pick o : read_slot s v i pick = Some o ->
  (length (nth i (w_slots s) []) <= seen v (Slot i))%nat -> nth_error (map last_write (w_slots s)) i = Some o.
Proof.
  unfold read_slot. intros H L. destruct (nth_error (w_slots s) i) as [ws|] eqn:Q; [|discriminate].
  rewrite (nth_error_nth _ _ _ Q) in L. rewrite (map_nth_error _ _ _ Q). f_equal. unfold last_write.
  destruct (Nat.leb_spec (seen v (Slot i)) pick); [|discriminate]. destruct pick as [|k].
  - injection H as <-. destruct ws; [reflexivity|cbn in L; lia].
  - destruct (nth_error ws k) as [x|] eqn:Q'; [|discriminate]. injection H as <-.
    assert (k < length ws)%nat by (apply nth_error_Some; congruence). replace (length ws - 1)%nat with k by lia. exact Q'.
Qed.

Lemma read_slots_forced (s : wstate) v js : (forall i, (length (nth i (w_slots s) []) <= seen v (Slot i))%nat) ->
  forall i l, read_slots s v i js = Some l -> l = skipn i (map last_write (w_slots s)).
Proof.
  intros C. induction js as [|j js IH]; intros i l E; cbn [read_slots] in E.
  - destruct (Nat.eqb_spec i (length (w_slots s))) as [->|]; [|discriminate]. injection E as <-.
    rewrite skipn_all2; [reflexivity|]. rewrite map_length. lia.
  - destruct (read_slot s v i j) as [o|] eqn:Q; [|discriminate]. destruct (read_slots s v (S i) js) as [l'|] eqn:Q'; [|discriminate].
    injection E as <-. rewrite (IH _ _ Q'). pose proof (read_slot_forced _ _ _ _ _ Q (C i)) as N. clear -N.
    revert i N. generalize (map last_write (w_slots s)). induction l as [|y l IH]; intros [|i] N; cbn in N; try discriminate.
    + injection N as ->. reflexivity.
    + cbn [skipn]. apply IH. exact N.
Qed.

Lemma unknown_nil (s : wstate) v is_ : (forall i, (length (nth i (w_slots s) []) <= seen v (Slot i))%nat) -> unknown s v is_ = [].
Proof.
  intros C. unfold unknown. induction is_ as [|i is_ IH]; [reflexivity|]. cbn [filter].
  rewrite (proj2 (Nat.ltb_ge _ _)) by apply C. exact IH.
Qed.

(** ** Simulation *)
Record Sim (s : wstate) (cs : cstate) : Prop := {
  D_res : exists m, newest (w_res s) = Some m /\ m_val m = reserved_tail (c_ring cs);
  D_pub : exists m, newest (w_pub s) = Some m /\ m_val m = published_tail (c_ring cs);
  D_heads : Forall2 (fun hs h => exists m, newest hs = Some m /\ m_val m = h) (w_heads s) (c_heads cs);
  D_slots : slots (c_ring cs) = map last_write (w_slots s);
  D_threads : c_threads cs = w_threads s;
  D_hist : c_hist cs = w_hist s;
  D_events : c_events cs = w_events s;
  D_races : w_races s = []
}.

Lemma newest_snoc ms m : newest (ms ++ [m]) = Some m.
Proof. unfold newest. rewrite app_length. cbn [length]. rewrite Nat.add_sub, nth_error_app2, Nat.sub_diag by lia. reflexivity. Qed.
Lemma last_snoc ws x : last_write (ws ++ [x]) = Some x.
Proof. unfold last_write. rewrite app_length. cbn [length]. rewrite Nat.add_sub, nth_error_app2, Nat.sub_diag by lia. reflexivity. Qed.

Lemma peek_same (r r' : ring A) c h : reserved_tail r = reserved_tail r' -> published_tail r = published_tail r' -> slots r = slots r' ->
  peek_event bld r c h = peek_event bld r' c h.
Proof. destruct r, r'; cbn. intros -> -> ->. reflexivity. Qed.

Lemma Forall2_app1 {X Y} (P : X -> Y -> Prop) l l' x y : Forall2 P l l' -> P x y -> Forall2 P (l ++ [x]) (l' ++ [y]).
Proof. intros F H. induction F; cbn [app]; constructor; auto. Qed.

Lemma Forall2_len' {X Y} (P : X -> Y -> Prop) l l' : Forall2 P l l' -> length l = length l'.
Proof. induction 1; cbn [length]; congruence. Qed.

Lemma sim_step (s : wstate) cs a s' : (1 <= length (w_slots s))%nat -> Sim s cs -> Known s ->
  (match a with WStep t _ _ => complete s t | _ => True end) ->
  wstep bld s a = Some s' -> exists cs', crun bld cs (erase1 a) = Some cs' /\ Sim s' cs'.
Proof.
  intros HS D HK C E. pose proof (D_threads s cs D) as DT.
  destruct a as [t op|t fails picks|t|t k]; cbn [wstep] in E.
  - destruct (nth_error (w_threads s) t) as [[]|] eqn:Ht; try discriminate.
    destruct (wop_ok s t op) eqn:Hok; try discriminate. injection E as <-.
    cbn [erase1 crun cstep]. rewrite DT, Ht.
    assert (CO : cop_ok cs op = true).
    { pose proof (Forall2_len' _ _ _ (D_heads s cs D)) as LH.
      destruct op as [x|c|c|]; cbn [cop_ok wop_ok] in *; auto; apply Nat.leb_le in Hok;
            apply (K_view s t HK) in Hok; rewrite LH in Hok; apply Nat.ltb_lt; exact Hok. }
    rewrite CO. eexists. split; [reflexivity|]. destruct D. constructor; auto.
    cbn [set_pc goto c_threads w_threads]. rewrite DT. reflexivity.
  - destruct (nth_error (w_threads s) t) as [p|] eqn:Ht; try discriminate.
    cbn [erase1 crun cstep]. rewrite DT, Ht.
    destruct (D_res s cs D) as (mr & Er & Vr). destruct (D_pub s cs D) as (mp & Ep & Vp).
    pose proof (C Res) as CR. pose proof (C Pub) as CP. cbn [len base] in CR, CP.
    assert (CS : forall i, (length (nth i (w_slots s) []) <= seen (view_of s t) (Slot i))%nat).
    { intros i. pose proof (C (Slot i)) as H. cbn [len base] in H. lia. }
    assert (CH : forall c hs, nth_error (w_heads s) c = Some hs -> (length hs <= Nat.max 1 (seen (view_of s t) (Head c)))%nat).
    { intros c hs H. pose proof (C (Head c)) as H'. cbn [len base] in H'. rewrite (nth_error_nth _ _ _ H) in H'. lia. }
    assert (SZ : size (c_ring cs) = wsize s) by (unfold size, wsize; rewrite (D_slots s cs D), map_length; reflexivity).
    assert (SI : forall h, slot_index (c_ring cs) h = slot_of s h) by (intros h; unfold slot_index, slot_of; rewrite SZ; reflexivity).
    assert (RG : forall h, (slot_of s h < length (w_slots s))%nat).
    { intros h. unfold slot_of, wsize. pose proof (Z.mod_pos_bound h (Z.of_nat (length (w_slots s))) ltac:(lia)). lia. }
    assert (UN : forall is_, unknown s (view_of s t) is_ = []) by (intros is_; apply unknown_nil; exact CS).
    assert (UN1 : forall i, (if (seen (view_of s t) (Slot i) <? length (nth i (w_slots s) []))%nat then [i] else []) = []).
    { intros i. rewrite (proj2 (Nat.ltb_ge _ _)) by apply CS. reflexivity. }
    destruct p as [|x|rt x|rt x|c|c h|c h|c h|c|c h| |q]; cbn [wthread_step] in E; try discriminate; cbn [thread_step].
    + (* EnqReserve *)
      rewrite Er in E. injection E as <-. rewrite <- Vr. eexists. split; [reflexivity|].
      destruct D as [H1 H2 H3 H4 H5 H6 H7 H8]. constructor; cbn [goto set_pc push_hist set_ring w_res w_pub w_heads w_slots w_threads w_hist w_events w_races
         c_ring c_heads c_threads c_hist c_events reserved_tail published_tail slots]; auto.
      * eexists. split; [apply newest_snoc|reflexivity].
      * rewrite DT. reflexivity.
      * rewrite H6. reflexivity.
    + (* EnqWrite *)
      injection E as <-. eexists. split; [reflexivity|].
      destruct D as [H1 H2 H3 H4 H5 H6 H7 H8]. constructor; cbn [race goto set_pc set_ring store w_res w_pub w_heads w_slots w_threads w_hist w_events w_races
         c_ring c_heads c_threads c_hist c_events reserved_tail published_tail slots]; auto.
      * rewrite SI, map_upd, last_snoc, H4. reflexivity.
      * rewrite DT. reflexivity.
      * change (w_races s ++ map (fun i : nat => (t, i)) (unknown s (view_of s t) [slot_of s rt]) = []). rewrite UN, H8. reflexivity.
    + (* EnqPublish *)
      rewrite Ep in E. destruct (u32_add bld rt 1) as [nxt|q|]; try discriminate.
      * rewrite <- Vp. destruct (negb fails && (m_val mp =? rt)).
        -- injection E as <-. eexists. split; [reflexivity|].
           destruct D as [H1 H2 H3 H4 H5 H6 H7 H8]. constructor; cbn [wlog goto log set_pc set_ring w_res w_pub w_heads w_slots w_threads w_hist w_events w_races
             c_ring c_heads c_threads c_hist c_events reserved_tail published_tail slots]; auto.
           ++ eexists. split; [apply newest_snoc|reflexivity].
           ++ rewrite DT. reflexivity.
           ++ rewrite H7. reflexivity.
        -- destruct picks as [|k [|]]; try discriminate.
           destruct (read_at (w_pub s) (seen (view_of s t) Pub) k) as [m'|] eqn:Q; try discriminate.
           pose proof (read_forced _ _ _ _ Q CP) as F. rewrite Ep in F. injection F as <-.
           destruct (m_val mp >? rt); injection E as <-; (eexists; split; [reflexivity|]);
             destruct D as [H1 H2 H3 H4 H5 H6 H7 H8]; constructor; auto; cbn [goto set_pc w_threads c_threads]; rewrite DT; auto.
           symmetry. apply upd_self. exact Ht.
      * injection E as <-. eexists. split; [reflexivity|].
        destruct D as [H1 H2 H3 H4 H5 H6 H7 H8]; constructor; auto; cbn [goto set_pc w_threads c_threads]; rewrite DT; auto.
    + (* DeqLoadHead *)
      destruct (nth_error (w_heads s) c) as [hs|] eqn:Qh; try discriminate.
      destruct picks as [|k [|]]; try discriminate.
      destruct (read_at hs (seen (view_of s t) (Head c)) k) as [m|] eqn:Q; try discriminate. injection E as <-.
      pose proof (read_forced _ _ _ _ Q (CH c hs Qh)) as F.
      destruct (Forall2_nth _ _ _ c hs (D_heads s cs D) Qh) as (h & Hh & m' & F' & Vm). rewrite F in F'. injection F' as <-.
      rewrite Hh, <- Vm. eexists. split; [reflexivity|].
      destruct D as [H1 H2 H3 H4 H5 H6 H7 H8]; constructor; auto; cbn [goto set_pc w_threads c_threads]; rewrite DT; auto.
    + (* DeqLoadTail *)
      destruct picks as [|k [|]]; try discriminate.
      destruct (read_at (w_pub s) (seen (view_of s t) Pub) k) as [m|] eqn:Q; try discriminate.
      pose proof (read_forced _ _ _ _ Q CP) as F. rewrite Ep in F. injection F as <-. rewrite <- Vp.
      destruct (h >? m_val mp); [|destruct (h =? m_val mp)]; injection E as <-; (eexists; split; [reflexivity|]);
        destruct D as [H1 H2 H3 H4 H5 H6 H7 H8]; constructor; auto; cbn [wlog goto log set_pc w_threads c_threads w_events c_events]; rewrite ?DT, ?H7; auto.
    + (* DeqCas *)
      destruct (nth_error (w_heads s) c) as [hs|] eqn:Qh; try discriminate.
      destruct (Forall2_nth _ _ _ c hs (D_heads s cs D) Qh) as (cur & Hh & m' & F' & Vm). rewrite Hh.
      destruct (u32_add bld h 1) as [nxt|q|]; try discriminate.
      * rewrite F' in E. rewrite <- Vm. destruct (negb fails && (m_val m' =? h)).
        -- injection E as <-. eexists. split; [reflexivity|].
           destruct D as [H1 H2 H3 H4 H5 H6 H7 H8]. constructor; cbn [goto claim set_pc w_res w_pub w_heads w_slots w_threads w_hist w_events w_races
             c_ring c_heads c_threads c_hist c_events]; auto.
           ++ apply Forall2_upd; [exact H3|]. eexists. split; [apply newest_snoc|reflexivity].
           ++ rewrite DT. reflexivity.
        -- destruct picks as [|k [|]]; try discriminate.
           destruct (read_at hs (seen (view_of s t) (Head c)) k) as [m|] eqn:Q; try discriminate. injection E as <-.
           pose proof (read_forced _ _ _ _ Q (CH c hs Qh)) as F. rewrite F' in F. injection F as <-.
           eexists. split; [reflexivity|].
           destruct D as [H1 H2 H3 H4 H5 H6 H7 H8]; constructor; auto; cbn [goto set_pc w_threads c_threads]; rewrite DT; auto.
      * injection E as <-. eexists. split; [reflexivity|].
        destruct D as [H1 H2 H3 H4 H5 H6 H7 H8]; constructor; auto; cbn [goto set_pc w_threads c_threads]; rewrite DT; auto.
    + (* DeqCheck *)
      destruct picks as [|k [|j [|]]]; try discriminate.
      destruct (read_at (w_res s) (seen (view_of s t) Res) k) as [m|] eqn:Q; try discriminate.
      pose proof (read_forced _ _ _ _ Q CR) as F. rewrite Er in F. injection F as <-. rewrite <- Vr.
      destruct (u32_sub bld (m_val mr) h) as [d|q|]; try discriminate.
      * rewrite SZ. destruct (d >? wrap32 (wsize s)).
        -- injection E as <-. eexists. split; [reflexivity|].
           destruct D as [H1 H2 H3 H4 H5 H6 H7 H8]; constructor; auto; cbn [wlog goto log set_pc w_threads c_threads w_events c_events]; rewrite ?DT, ?H7; auto.
        -- destruct (read_slot s (view_of s t) (slot_of s h) j) as [o|] eqn:Qs; try discriminate. injection E as <-.
           pose proof (read_slot_forced _ _ _ _ _ Qs (CS _)) as N. rewrite SI, (D_slots s cs D), N.
           eexists. split; [reflexivity|].
           destruct D as [H1 H2 H3 H4 H5 H6 H7 H8]; constructor; auto; cbn [race wlog goto log set_pc w_threads c_threads w_events c_events w_races];
             rewrite ?DT, ?H7, ?UN, ?UN1, ?H8; auto.
      * injection E as <-. eexists. split; [reflexivity|].
        destruct D as [H1 H2 H3 H4 H5 H6 H7 H8]; constructor; auto; cbn [lose goto set_pc w_threads c_threads]; rewrite DT; auto.
    + (* PeekLoadHead *)
      destruct (nth_error (w_heads s) c) as [hs|] eqn:Qh; try discriminate.
      destruct picks as [|k [|]]; try discriminate.
      destruct (read_at hs (seen (view_of s t) (Head c)) k) as [m|] eqn:Q; try discriminate. injection E as <-.
      pose proof (read_forced _ _ _ _ Q (CH c hs Qh)) as F.
      destruct (Forall2_nth _ _ _ c hs (D_heads s cs D) Qh) as (h & Hh & m' & F' & Vm). rewrite F in F'. injection F' as <-.
      rewrite Hh, <- Vm. eexists. split; [reflexivity|].
      destruct D as [H1 H2 H3 H4 H5 H6 H7 H8]; constructor; auto; cbn [goto set_pc w_threads c_threads]; rewrite DT; auto.
    + (* PeekLoadTail *)
      destruct picks as [|k js]; try discriminate.
      destruct (read_at (w_pub s) (seen (view_of s t) Pub) k) as [m|] eqn:Q; try discriminate.
      destruct (read_slots s (view_of s t) 0 js) as [contents|] eqn:Qs; try discriminate.
      rewrite Er in E. pose proof (read_forced _ _ _ _ Q CP) as F. rewrite Ep in F. injection F as <-.
      pose proof (read_slots_forced s _ js CS 0 contents Qs) as HC. cbn [skipn] in HC.
      rewrite (peek_same (Ring (m_val mr) (m_val mp) contents []) (c_ring cs)) in E;
        [|exact Vr|exact Vp|cbn [slots]; rewrite HC, (D_slots s cs D); reflexivity].
      destruct (peek_event bld (c_ring cs) c h) as [e|q|]; try discriminate; injection E as <-; (eexists; split; [reflexivity|]);
        destruct D as [H1 H2 H3 H4 H5 H6 H7 H8]; constructor; auto;
        cbn [race wlog goto log set_pc w_threads c_threads w_events c_events w_races]; rewrite ?DT, ?H7, ?UN, ?UN1, ?H8; auto.
    + (* ConsLoad *)
      destruct picks as [|k [|]]; try discriminate.
      destruct (read_at (w_pub s) (seen (view_of s t) Pub) k) as [m|] eqn:Q; try discriminate.
      pose proof (read_forced _ _ _ _ Q CP) as F. rewrite Ep in F. injection F as <-. injection E as <-.
      eexists. split; [reflexivity|]. pose proof (Forall2_len' _ _ _ (D_heads s cs D)) as LH.
      destruct D as [H1 H2 H3 H4 H5 H6 H7 H8]; constructor; auto;
        cbn [add_consumer wlog goto log set_pc w_threads c_threads w_events c_events w_heads c_heads]; unfold consumer; rewrite ?DT, ?H7, ?LH, <- ?Vp; auto.
      apply Forall2_app1; [exact H3|]. exists (Msg (m_val mp) []). split; reflexivity.
  - destruct (nth_error (w_threads s) t) as [[]|]; try discriminate. injection E as <-.
    exists cs. split; [reflexivity|]. destruct D; constructor; auto.
  - destruct (nth_error (w_threads s) t) as [[]|] eqn:Ht; try discriminate. split_step E. injection E as <-.
    exists cs. split; [reflexivity|]. destruct D; constructor; auto. cbn [goto w_threads]. rewrite upd_self by exact Ht. exact DT.
Qed.

Lemma slots_len (s : wstate) a s' : wstep bld s a = Some s' -> length (w_slots s') = length (w_slots s).
Proof.
  intros E. destruct a as [t op|t fails picks|t|t k]; cbn [wstep] in E.
  1,3,4: split_step E; injection E as <-; reflexivity.
  destruct (nth_error (w_threads s) t) as [p|]; try discriminate.
  destruct p as [|x|rt x|rt x|c|c h|c h|c h|c|c h| |q]; cbn [wthread_step] in E; try discriminate;
    split_step E; injection E as <-; cbn [race wlog lose goto w_slots]; rewrite ?upd_length; reflexivity.
Qed.

Lemma Sim_init sz n : Sim (winit sz n : wstate) (cinit sz n).
Proof.
  constructor; cbn [winit cinit ring_new w_res w_pub w_heads w_slots w_threads w_hist w_events w_races
     c_ring c_heads c_threads c_hist c_events reserved_tail published_tail slots]; auto.
  - eexists. split; reflexivity.
  - eexists. split; reflexivity.
  - induction sz as [|k IH]; cbn [repeat map]; [reflexivity|]. rewrite <- IH. reflexivity.
Qed.

Lemma crun_snoc (s : cstate) a b : crun bld s (a ++ b) = match crun bld s a with Some m => crun bld m b | None => None end.
Proof.
  revert s; induction a as [|x a IH]; intros s; cbn [app crun]; [reflexivity|].
  destruct (cstep bld s x); [apply IH|reflexivity].
Qed.

Lemma synchronised_is_interleaving sz n (sched : list waction) s : (1 <= sz)%nat -> synchronised sched ->
  wrun bld (winit sz n) sched = Some s ->
  exists cs, crun bld (cinit sz n) (erase sched) = Some cs /\
    c_events cs = w_events s /\ c_threads cs = w_threads s /\ c_hist cs = w_hist s /\ w_races s = [].
Proof.
  intros HS SY E.
  assert (G : forall m s, at_ bld sz n sched m = Some s ->
    exists cs, crun bld (cinit sz n) (erase (firstn m sched)) = Some cs /\ Sim s cs /\ Known s /\ length (w_slots s) = sz).
  { induction m as [|m IH]; intros s0 H.
    - cbn in H. injection H as <-. exists (cinit sz n). split; [reflexivity|]. split; [apply Sim_init|]. split; [apply Known_init|apply repeat_length].
    - destruct (at_prev _ _ _ _ _ _ H) as (s1 & H1). destruct (IH s1 H1) as (cs & E1 & D & K & L).
      destruct (nth_error sched m) as [a|] eqn:Ha.
      + pose proof (at_S _ _ _ _ _ _ _ _ Ha H1 H) as Es.
        destruct (sim_step s1 cs a s0) as (cs' & Ec & D'); auto; [lia| |].
        { destruct a; auto. eapply complete_at; eauto. }
        exists cs'. unfold erase in *. rewrite (firstn_S _ _ _ Ha), flat_map_app, crun_snoc, E1. cbn [flat_map]. rewrite app_nil_r.
        split; [exact Ec|]. split; [exact D'|]. split; [eapply Known_step; eauto|]. rewrite (slots_len _ _ _ Es). exact L.
      + rewrite (at_nth bld sz n sched m s1 s0 H1 H Ha). exists cs. apply nth_error_None in Ha.
        rewrite firstn_all2 in * by lia. auto. }
  destruct (G (length sched) s) as (cs & Ec & D & _).
  - unfold at_. rewrite firstn_all. exact E.
  - rewrite firstn_all in Ec. exists cs. destruct D. auto.
Qed.

(** ** A lock synchronises *)
Lemma hb_app (l r : list waction) i j : hb l i j -> hb (l ++ r) i j.
Proof.
  induction 1 as [i j a a' L H1 H2 Ht|i j t u H1 H2 L|i j k H1 IH1 H2 IH2].
  - eapply hb_thread; [exact L| | |exact Ht]; rewrite nth_error_app1; auto; apply nth_error_Some; congruence.
  - assert (i < length l)%nat by (apply nth_error_Some; congruence). assert (j < length l)%nat by (apply nth_error_Some; congruence).
    apply (hb_sync _ i j t u); [rewrite nth_error_app1; auto| |exact L].
    rewrite nth_error_app1 by assumption. rewrite firstn_app. replace (i - length l)%nat with 0%nat by lia.
    cbn [firstn]. rewrite app_nil_r. exact H2.
  - eapply hb_trans; eauto.
Qed.

Definition total (l : list waction) : Prop := forall i j, (i < j < length l)%nat -> hb l i j.

Lemma total_snoc (l : list waction) a : total l ->
  (l = [] \/ hb (l ++ [a]) (length l - 1) (length l)) -> total (l ++ [a]).
Proof.
  intros T H i j L. rewrite app_length in L. cbn [length] in L.
  destruct (Nat.eq_dec j (length l)) as [->|N]; [|apply hb_app, T; lia].
  destruct H as [->|H]; [cbn in L; lia|].
  destruct (Nat.eq_dec i (length l - 1)) as [->|N]; [exact H|]. eapply hb_trans; [|exact H]. apply hb_app, T. lia.
Qed.

Lemma total_body (l body : list waction) a : total (l ++ [a]) -> Forall (fun b => actor b = actor a) body -> total ((l ++ [a]) ++ body).
Proof.
  revert l a. induction body as [|b body IH]; intros l a T F; [rewrite app_nil_r; exact T|].
  inversion F as [|b' body' Hb F']; subst.
  replace ((l ++ [a]) ++ b :: body) with (((l ++ [a]) ++ [b]) ++ body) by (rewrite <- !app_assoc; reflexivity).
  apply IH.
  - apply total_snoc; [exact T|]. right. rewrite app_length. cbn [length].
    apply (hb_thread _ _ _ a b); [lia| | |symmetry; exact Hb].
    + rewrite nth_error_app1 by (rewrite app_length; cbn; lia). rewrite nth_error_app2 by lia.
      replace (length l + 1 - 1 - length l)%nat with 0%nat by lia. reflexivity.
    + rewrite nth_error_app2 by (rewrite app_length; cbn; lia). rewrite app_length. cbn [length].
      replace (length l + 1 - (length l + 1))%nat with 0%nat by lia. reflexivity.
  - eapply Forall_impl; [|exact F']. cbn beta. congruence.
Qed.

Lemma total_nil : total [].
Proof. intros i j L. cbn in L. lia. Qed.

Lemma total_body0 (body : list waction) t : Forall (fun b => actor b = t) body -> total body.
Proof.
  destruct body as [|b body]; intros F; [apply total_nil|]. inversion F as [|b' body' Hb F']; subst.
  apply (total_body [] body b); [|exact F']. apply (total_snoc [] b total_nil). left. reflexivity.
Qed.

Lemma sends_body (body : list waction) t : section_ok (t, body) -> filter is_send body = [].
Proof.
  unfold section_ok. cbn [fst snd]. intros F. induction F as [|a l [_ H] F IH]; cbn [filter]; [reflexivity|].
  destruct a; try contradiction; exact IH.
Qed.

Lemma locked_total sections : forall (l : list waction) k, Forall section_ok sections ->
  total l -> length (filter is_send l) = k -> (l = [] /\ k = 0%nat \/ exists l0 t, l = l0 ++ [Send t]) ->
  total (l ++ locked k sections).
Proof.
  induction sections as [|[t body] rest IH]; intros l k F T HC HL; [rewrite app_nil_r; exact T|].
  inversion F as [|sec rest' Hs F']; subst sec rest'. cbn [locked].
  assert (FB : Forall (fun b => actor b = t) body) by (eapply Forall_impl; [|exact Hs]; cbn beta; intros a [H _]; exact H).
  assert (FS : Forall (fun b : waction => actor b = t) (body ++ [Send t])) by (apply Forall_app; split; [exact FB|constructor; [reflexivity|constructor]]).
  pose proof (sends_body body t Hs) as SB.
  destruct HL as [[-> ->]|(l0 & u & ->)].
  - cbn [app Nat.eqb]. replace (body ++ Send t :: locked 1 rest) with ((body ++ [Send t]) ++ locked 1 rest) by (rewrite <- app_assoc; reflexivity).
    apply IH; [exact F'| | |].
    + apply (total_body0 _ t). exact FS.
    + rewrite filter_app, SB. reflexivity.
    + right. eauto.
  - assert (EK : k = S (length (filter is_send l0))).
    { rewrite <- HC, filter_app, app_length. cbn [filter is_send length]. lia. }
    assert (k =? 0 = false)%nat as -> by (apply Nat.eqb_neq; lia).
    replace ((l0 ++ [Send u]) ++ [Recv t (k - 1)] ++ body ++ [Send t] ++ locked (S k) rest)
      with ((((l0 ++ [Send u]) ++ [Recv t (k - 1)]) ++ body ++ [Send t]) ++ locked (S k) rest)
      by (rewrite <- !app_assoc; reflexivity).
    apply IH; [exact F'| | |].
    + apply total_body; [|exact FS]. apply total_snoc; [exact T|]. right.
      assert (LL : (length (l0 ++ [Send u]) = S (length l0))%nat) by (rewrite app_length; cbn; lia). rewrite LL.
      apply (hb_sync _ _ _ u t); [| |lia].
      * rewrite nth_error_app1 by (rewrite LL; lia). rewrite nth_error_app2 by lia.
        replace (S (length l0) - 1 - length l0)%nat with 0%nat by lia. reflexivity.
      * rewrite nth_error_app2 by lia. rewrite LL, Nat.sub_diag. cbn [nth_error]. do 2 f_equal.
        rewrite <- app_assoc, firstn_app. replace (S (length l0) - 1 - length l0)%nat with 0%nat by lia.
        cbn [firstn]. rewrite app_nil_r, firstn_all2 by lia. lia.
    + rewrite !filter_app, SB, !app_length. cbn [filter is_send length app]. lia.
    + right. exists (((l0 ++ [Send u]) ++ [Recv t (k - 1)]) ++ body), t. rewrite <- !app_assoc. reflexivity.
Qed.

Lemma locked_synchronised (sections : list (nat * list waction)) : Forall section_ok sections -> synchronised (locked 0 sections).
Proof.
  intros F i j a a' L Hi Hj _ _.
  assert (B : (j < length (locked 0 sections))%nat) by (apply nth_error_Some; rewrite Hj; discriminate).
  exact (locked_total sections [] 0 F total_nil eq_refl (or_introl (conj eq_refl eq_refl)) i j (conj L B)).
Qed.
End Drf.
