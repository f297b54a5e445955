(** * The retry loop of test_crud_algorithms: specification and proofs for C39-C43. *)
From Coq Require Import List ZArith Lia Bool String.
From Verif Require Import Machine Complexity Analysis AnalysisF64d AllocSpec IterPass IterSpec IterPassProofs PropsIter Report ReportProofs Crud CrudSpec CrudProofs CrudMain.
Import ListNotations.
Open Scope Z_scope.

(** ** Specification *)
(** successive analyses, numbered from [k], of the adapted configurations; each but
    the last failed on time and was followed by one call [reset_fn(100)], announced by
    a message that counts the attempts from 1.  The list holds the outcomes in order. *)
Definition retrying (k : Z) : list event :=
  [EvOutput (IText (newline ++ "Attempt " ++ dec (k + 1) ++ " failed. Resetting before retrying")%string);
   EvReset 100;
   EvOutput (IText ("..." ++ newline)%string)].
Inductive session {S} (b : build) t l (u : user S) (cfg : crud_cfg) :
  Z -> S -> list (res (crud_result + crud_error)) -> list event -> S -> Prop :=
| session_last k cfg' s tr s' o :
    adapted b k cfg = Val cfg' ->
    exec b u (internal_analyse_crud_algorithms b t l cfg') s tr s' o ->
    session b t l u cfg k s [o] tr s'
| session_again k cfg' s tr s1 e s2 v outs tr' s' :
    adapted b k cfg = Val cfg' ->
    exec b u (internal_analyse_crud_algorithms b t l cfg') s tr s1 (Val (inr e)) ->
    ce_analysis e = Time ->
    u_reset u s1 100 = (s2, Some v) ->
    session b t l u cfg (k + 1) s2 outs tr' s' ->
    session b t l u cfg k s (Val (inr e) :: outs) (tr ++ retrying k ++ tr') s'.
Definition failed (e : crud_error) : res (crud_result + crud_error) := Val (inr e).
Definition on_time (e : crud_error) : Prop := ce_analysis e = Time.
Definition on_space (e : crud_error) : Prop := ce_analysis e = Space.

(** the divisor documented for attempt [k]: 10, 10, 10, 8, 8, 8, 6, ... *)
Definition divisor (k : Z) : Z := 10 - 2 * (k mod 15 / 3).
(** every adapted configuration can be handled *)
Definition roomy (cfg : crud_cfg) : Prop :=
  forall op, 3 * iterations cfg op < two31 /\ 3 * iterations cfg op * cc_warmup cfg < two32 /\
    (is_enabled cfg op -> 0 < oc_threads (cfg_of cfg op) < two31).

(** ** adapt *)
Lemma divisor_cases k : 0 <= k -> In (divisor k) [10; 8; 6; 4; 2].
Proof.
  intros H. unfold divisor. pose proof (Z.mod_pos_bound k 15 ltac:(lia)) as M.
  assert (D : 0 <= k mod 15 / 3 <= 4).
  { split; [apply Z.div_pos; lia|]. assert (k mod 15 / 3 < 5) by (apply Z.div_lt_upper_bound; lia). lia. }
  cbn [In]. lia.
Qed.
Lemma u32_val b z : 0 <= z < two32 -> checked b two32 z = Val z.
Proof. intros H. apply checked_in. exact H. Qed.
Lemma adapt_value b k n : 0 <= k < two32 -> 0 <= n < two32 ->
  adapt b k n =
    if k =? 0 then Val n
    else if (k - 1) mod 3 =? 0 then Val (n / divisor k)
    else if (k - 1) mod 3 =? 1 then Val (n - n / divisor k)
    else checked b two32 (n + n / divisor k).
Proof.
  intros Hk Hn. unfold adapt. pose proof (divisor_cases k ltac:(lia)) as DC. unfold divisor in *.
  assert (D : 0 <= k mod 15 / 3 <= 4).
  { pose proof (Z.mod_pos_bound k 15 ltac:(lia)) as M. split; [apply Z.div_pos; lia|]. assert (k mod 15 / 3 < 5) by (apply Z.div_lt_upper_bound; lia). lia. }
  unfold u32_mul, u32_sub, u32_add. rewrite two32_val in *. 
  rewrite checked_in by lia. cbn [bind]. rewrite checked_in by lia. cbn [bind].
  destruct (Z.eqb_spec k 0) as [->|Hz]; [reflexivity|].
  rewrite checked_in by lia. cbn [bind].
  replace (k mod 15 / 3 * 2) with (2 * (k mod 15 / 3)) by ring.
  set (f := 10 - 2 * (k mod 15 / 3)) in *.
  assert (F : 2 <= f <= 10) by (unfold f; lia). clearbody f. clear DC D.
  destruct (Z.eqb_spec f 0) as [|_]; [lia|]. cbn [bind].
  pose proof (Z.mod_pos_bound (k - 1) 3 ltac:(lia)) as M3.
  assert (Q : 0 <= n / f <= n) by (split; [apply Z.div_pos; lia|apply Z.div_le_upper_bound; nia]).
  assert (C3 : (k - 1) mod 3 = 0 \/ (k - 1) mod 3 = 1 \/ (k - 1) mod 3 = 2) by lia.
  destruct C3 as [-> | [-> | ->]]; cbn [Z.eqb Pos.eqb]; [reflexivity| |reflexivity].
  rewrite checked_in by lia. reflexivity.
Qed.
Lemma adapt_bounds b k n v : 0 <= k < two32 -> 0 <= n -> 2 * n < two32 -> adapt b k n = Val v -> n / 10 <= v <= n + n / 2.
Proof.
  intros Hk Hn H2 E. rewrite adapt_value in E by lia.
  pose proof (divisor_cases k ltac:(lia)) as DC. set (f := divisor k) in *.
  assert (F : 2 <= f <= 10) by (cbn [In] in DC; lia). clearbody f.
  assert (Q1 : n / 10 <= n / f) by (apply Z.div_le_compat_l; lia).
  assert (Q2 : n / f <= n / 2) by (apply Z.div_le_compat_l; lia).
  pose proof (Z.div_mod n 2 ltac:(lia)). pose proof (Z.mod_pos_bound n 2 ltac:(lia)).
  pose proof (Z.div_mod n 10 ltac:(lia)). pose proof (Z.mod_pos_bound n 10 ltac:(lia)).
  assert (0 <= n / 10) by (apply Z.div_pos; lia).
  assert (C : checked b two32 (n + n / f) = Val (n + n / f)) by (apply checked_in; lia).
  destruct (k =? 0); [injection E as <-; lia|].
  destruct (_ =? 0); [injection E as <-; lia|].
  destruct (_ =? 1); [injection E as <-; lia|]. rewrite C in E. injection E as <-. lia.
Qed.
Lemma adapt_ok b k n : 0 <= k < two32 -> 0 <= n -> 2 * n < two32 -> exists v, adapt b k n = Val v.
Proof.
  intros Hk Hn H2. rewrite adapt_value by lia. destruct (k =? 0); [eauto|]. destruct (_ =? 0); [eauto|]. destruct (_ =? 1); [eauto|].
  rewrite checked_in; [eauto|]. pose proof (divisor_cases k ltac:(lia)) as DC. set (f := divisor k) in *.
  assert (F : 2 <= f <= 10) by (cbn [In] in DC; lia). clearbody f.
  assert (Q2 : n / f <= n / 2) by (apply Z.div_le_compat_l; lia). assert (0 <= n / f) by (apply Z.div_pos; lia).
  pose proof (Z.div_mod n 2 ltac:(lia)). pose proof (Z.mod_pos_bound n 2 ltac:(lia)). lia.
Qed.

(** what an adapted configuration is *)
Definition adapts b k (cfg cfg' : crud_cfg) : Prop :=
  cc_warmup cfg' = cc_warmup cfg /\
  forall op, adapt b k (iterations cfg op) = Val (iterations cfg' op) /\
             cfg_of cfg' op = with_iterations (cfg_of cfg op) (iterations cfg' op).
Lemma adapted_spec b k cfg cfg' : adapted b k cfg = Val cfg' -> adapts b k cfg cfg'.
Proof.
  unfold adapted. intros E.
  destruct (adapt b k (iterations cfg Create)) as [c|p|] eqn:E1; cbn [bind] in E; try discriminate.
  destruct (adapt b k (iterations cfg Read)) as [r|p|] eqn:E2; cbn [bind] in E; try discriminate.
  destruct (adapt b k (iterations cfg Update)) as [u|p|] eqn:E3; cbn [bind] in E; try discriminate.
  destruct (adapt b k (iterations cfg Delete)) as [d|p|] eqn:E4; cbn [bind] in E; try discriminate.
  injection E as <-. split; [reflexivity|]. intros [| | |]; (split; [assumption|reflexivity]).
Qed.
Lemma adapted_ok b k cfg : 0 <= k < two32 -> cfg_ok cfg -> roomy cfg -> exists cfg', adapted b k cfg = Val cfg'.
Proof.
  intros Hk [_ C] R. unfold adapted.
  assert (A : forall op, exists v, adapt b k (iterations cfg op) = Val v).
  { intros op. destruct (C op) as [[I _] _]. destruct (R op) as [H _]. apply adapt_ok; auto. rewrite two31_val in H. rewrite two32_val. lia. }
  destruct (A Create) as [c ->]. cbn [bind]. destruct (A Read) as [r ->]. cbn [bind].
  destruct (A Update) as [u ->]. cbn [bind]. destruct (A Delete) as [d ->]. cbn [bind]. eauto.
Qed.
Lemma adapted_u32 b k cfg cfg' : 0 <= k < two32 -> cfg_ok cfg -> adapted b k cfg = Val cfg' -> cfg_ok cfg'.
Proof.
  intros Hk [W C] E. apply adapted_spec in E. destruct E as [E1 E2]. split; [rewrite E1; exact W|].
  intros op. destruct (E2 op) as [A ->]. destruct (C op) as [Ci Ct]. split; [|exact Ct].
  unfold u32 in *. unfold iterations at 1. rewrite adapt_value in A by assumption.
  pose proof (divisor_cases k ltac:(lia)) as DC. set (f := divisor k) in *.
  assert (F : 2 <= f <= 10) by (cbn [In] in DC; lia). clearbody f.
  change (oc_iterations (cfg_of cfg' op)) with (iterations cfg' op).
  assert (Q : 0 <= iterations cfg op / f <= iterations cfg op) by (split; [apply Z.div_pos; lia|apply Z.div_le_upper_bound; nia]).
  destruct (k =? 0); [injection A as <-; lia|].
  destruct (_ =? 0); [injection A as <-; lia|].
  destruct (_ =? 1); [injection A as <-; lia|].
  unfold checked in A. destruct (_ && _) eqn:B; [injection A as <-; lia|]. destruct b; [discriminate|]. injection A as <-. apply Z.mod_pos_bound. reflexivity.
Qed.
Lemma adapted_usable b k cfg cfg' : 0 <= k < two32 -> cfg_ok cfg -> roomy cfg -> adapted b k cfg = Val cfg' -> usable cfg'.
Proof.
  intros Hk [W C] R E. apply adapted_spec in E. destruct E as [E1 E2].
  assert (B : forall op, 0 <= iterations cfg' op <= iterations cfg op + iterations cfg op / 2).
  { intros op. destruct (E2 op) as [A _]. destruct (C op) as [[I1 I2] _]. destruct (R op) as [R1 _].
    apply adapt_bounds in A; auto; [|rewrite two31_val in R1; rewrite two32_val; lia].
    assert (0 <= iterations cfg op / 10) by (apply Z.div_pos; lia). lia. }
  split.
  - intros op. destruct (B op) as [B1 B2]. destruct (R op) as (R1 & R2 & R3). destruct W as [W1 W2]. destruct (C op) as [[I1 I2] _].
    pose proof (Z.div_mod (iterations cfg op) 2 ltac:(lia)). pose proof (Z.mod_pos_bound (iterations cfg op) 2 ltac:(lia)).
    rewrite E1. split; [rewrite two31_val in R1; rewrite two32_val; lia|].
    apply Z.le_lt_trans with (3 * iterations cfg op * cc_warmup cfg); [|exact R2]. apply Z.mul_le_mono_nonneg_r; lia.
  - intros op En. destruct (B op) as [B1 B2]. destruct (R op) as (R1 & R2 & R3). destruct (C op) as [[I1 I2] _].
    pose proof (Z.div_mod (iterations cfg op) 2 ltac:(lia)). pose proof (Z.mod_pos_bound (iterations cfg op) 2 ltac:(lia)).
    destruct (E2 op) as [_ ->]. cbn [with_iterations oc_threads]. split; [lia|]. apply R3. unfold is_enabled in *. lia.
Qed.

(** ** The loop *)
Section Loop.
Context {S : Type}.
Variables (b : build) (t : tolerance) (l : libm) (u : user S).

(** how a test ends, given the number of attempts left when it is entered at attempt [k] *)
Definition ends (max k : Z) (cfg : crud_cfg) s tr s' (collected : list crud_error) (o : test_end) : Prop :=
  match o with
  | Passed => exists errs r, session b t l u cfg k s (map failed errs ++ [Val (inl r)]) tr s' /\ Forall on_time errs
                /\ k + Z.of_nat (length errs) < max
  | GaveUp e c => exists errs, session b t l u cfg k s (map failed (errs ++ [e])) tr s' /\ Forall on_time (errs ++ [e])
                /\ k + Z.of_nat (length errs) = max - 1 /\ c = collected ++ errs
  | SpaceMismatch a e => exists errs, session b t l u cfg k s (map failed (errs ++ [e])) tr s' /\ Forall on_time errs /\ on_space e
                /\ a = k + Z.of_nat (length errs) /\ a < max
  end.

Lemma lift_exec {A B} (m : res A) (k : A -> prog B) s tr s' o : exec b u (pbind (lift m) k) s tr s' o ->
  (exists a, m = Val a /\ exec b u (k a) s tr s' o) \/ ((forall a, m <> Val a) /\ tr = [] /\ s' = s /\ exists p, o = Panic p).
Proof.
  intros E. destruct m as [a|p|]; cbn [lift pbind] in E.
  - left. eauto.
  - right. inversion E; subst. repeat split; [discriminate|eauto].
  - right. inversion E; subst. repeat split; [discriminate|eauto].
Qed.

Lemma attempts_spec cfg max : 0 <= max < two32 -> forall n k collected s tr s' o,
  0 <= k -> k + Z.of_nat n = max -> (0 < n)%nat ->
  exec b u (attempts b t l cfg max n k collected) s tr s' (Val o) -> ends max k cfg s tr s' collected o.
Proof.
  intros Hm. induction n as [|n IH]; intros k collected s tr s' o Hk Hn Hpos E; [lia|]. cbn [attempts] in E.
  apply lift_exec in E. destruct E as [(cfg' & AD & E)|(_ & _ & _ & p & X)]; [|discriminate].
  apply exec_pbind in E. destruct E as [(x & tr1 & s1 & tr2 & E1 & E2 & ->)|(p & _ & X)]; [|discriminate].
  destruct x as [r|e].
  - inversion E2; subst. rewrite app_nil_r. exists [], r. cbn [map app]. split; [|split; [constructor|cbn [length]; lia]].
    eapply session_last; eassumption.
  - destruct (ce_analysis e) eqn:CE.
    + apply lift_exec in E2. destruct E2 as [(lastn & SUB & E2)|(_ & _ & _ & p & X)]; [|discriminate].
      unfold u32_sub in SUB. rewrite checked_in in SUB by lia. injection SUB as <-.
      destruct (Z.ltb_spec k (max - 1)) as [LT|GE].
      * inversion E2 as [| | | | | |? ? ? ? ? ? E3|]; subst. inversion E3 as [| | | |? ? ? ? ? ? ? ? RS0 E4| | |]; subst. inversion E4; subst.
        match goal with H : u_reset _ _ _ = _ |- _ => rename H into RS end.
        match goal with H : exec _ _ (attempts _ _ _ _ _ _ _ _) _ _ _ _ |- _ => rename H into EX end.
        apply IH in EX; [|lia|lia|lia].
        destruct o as [|e' c|a e']; cbn [ends] in *.
        -- destruct EX as (errs & r & SE & F & L). exists (e :: errs), r. split; [|split; [constructor; assumption|cbn [length]; lia]].
           cbn [map app]. eapply session_again; eassumption.
        -- destruct EX as (errs & SE & F & L & ->). exists (e :: errs). split; [|split; [constructor; assumption|split; [cbn [length]; lia|rewrite <- app_assoc; reflexivity]]].
           cbn [map app]. eapply session_again; eassumption.
        -- destruct EX as (errs & SE & F & Sp & -> & L). exists (e :: errs). split; [|split; [constructor; assumption|split; [assumption|cbn [length]; lia]]].
           cbn [map app]. eapply session_again; eassumption.
      * inversion E2; subst. rewrite app_nil_r. exists []. cbn [map app length]. split; [eapply session_last; eassumption|].
        split; [repeat constructor; exact CE|]. split; [lia|rewrite app_nil_r; reflexivity].
    + inversion E2; subst. rewrite app_nil_r. exists []. cbn [map app length]. split; [eapply session_last; eassumption|].
      split; [constructor|]. split; [exact CE|]. lia.
Qed.

(** with usable configurations, returning closures and sane measurements nothing else can happen *)
Lemma attempts_no_panic cfg max : 0 <= max < two32 -> cfg_ok cfg -> roomy cfg -> closures_return u -> forall n k collected s tr s' o,
  0 <= k -> k + Z.of_nat n = max ->
  exec b u (attempts b t l cfg max n k collected) s tr s' o -> sane_measurements tr -> exists e, o = Val e.
Proof.
  intros Hm CF RM CR. induction n as [|n IH]; intros k collected s tr s' o Hk Hn E SM; cbn [attempts] in E.
  { inversion E; eauto. }
  apply lift_exec in E. destruct E as [(cfg' & AD & E)|(N & _)].
  2:{ destruct (adapted_ok b k cfg ltac:(lia) CF RM) as [x X]. destruct (N x X). }
  assert (CF' : cfg_ok cfg') by (eapply adapted_u32; [|exact CF|exact AD]; lia).
  assert (US : usable cfg') by (eapply adapted_usable; [|exact CF|exact RM|exact AD]; lia).
  apply exec_pbind in E. destruct E as [(x & tr1 & s1 & tr2 & E1 & E2 & ->)|(p & E1 & ->)].
  - destruct x as [r|e]; [inversion E2; eauto|]. apply sane_app in SM. destruct SM as [_ SM].
    destruct (ce_analysis e); [|inversion E2; eauto].
    apply lift_exec in E2. destruct E2 as [(lastn & SUB & E2)|(N & _)].
    2:{ exfalso. eapply N. unfold u32_sub. apply checked_in. lia. }
    destruct (k <? lastn); [|inversion E2; eauto].
    inversion E2 as [| | | | | |? ? ? ? ? ? E3|]; subst. inversion E3 as [| | | |? ? ? ? ? ? ? ? RS0 E4| | |]; subst.
    + inversion E4; subst. eapply IH; [| |eassumption|]; [lia|lia|]. do 3 (apply Forall_inv_tail in SM). exact SM.
    + destruct CR as [_ CR]. exfalso. eapply (CR s1 100). match goal with H : u_reset _ _ _ = _ |- _ => rewrite H end. reflexivity.
  - exfalso. pose proof (internal_spec b t l u cfg' s tr s' _ CF' (or_intror (proj1 US)) E1) as [_ F]. apply F. split; [split; [assumption|left; assumption]|assumption].
Qed.
End Loop.
