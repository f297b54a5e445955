(** * Theorem C76: the computed number of a CRUD analysis. *)
From Coq Require Import List ZArith Lia Bool String.
From Verif Require Import Machine Complexity Analysis IterPass IterSpec IterPassProofs PropsIter Report ReportProofs Crud CrudSpec CrudProofs PropsCrud Demo.
Import ListNotations.
Open Scope Z_scope.

(** [returned b u tr vs]: the passes of [tr], in order, all completed and returned the numbers
    [vs] ([run_iterator_pass]'s second component, C32) *)
Inductive returned {S} (b : build) (u : user S) : list event -> list Z -> Prop :=
| ret_nil : returned b u [] []
| ret_pass ph op ty r T s1 log s2 v m tr vs :
    iterator_pass (u_op u op) b ty r T s1 log s2 (Val v) -> returned b u tr vs ->
    returned b u (EvPass ph op r T log (Some m) :: tr) (v :: vs)
| ret_reset n tr vs : returned b u tr vs -> returned b u (EvReset n :: tr) vs
| ret_output i tr vs : returned b u tr vs -> returned b u (EvOutput i :: tr) vs
| ret_clock d tr vs : returned b u tr vs -> returned b u (EvClock d :: tr) vs.

Lemma returned_app {S} b (u : user S) tr1 vs1 tr2 vs2 : returned b u tr1 vs1 -> returned b u tr2 vs2 -> returned b u (tr1 ++ tr2) (vs1 ++ vs2).
Proof. induction 1; intros H2; cbn [app]; [exact H2| | | |]; econstructor; eauto. Qed.
Lemma xor_all_app2 a c : xor_all (a ++ c) = Z.lxor (xor_all a) (xor_all c).
Proof. induction a as [|x a IH]; cbn [app xor_all fold_right]; [rewrite Z.lxor_0_l; reflexivity|]. fold (xor_all (a ++ c)) (xor_all a). rewrite IH, Z.lxor_assoc. reflexivity. Qed.

Section Number.
Context {S : Type}.
Variables (b : build) (t : tolerance) (l : libm) (cfg : crud_cfg) (u : user S).

(** every computed number in [tr] is [r0] xor the numbers of the passes before it *)
Definition numbers_ok (r0 : Z) (tr : list event) : Prop :=
  forall tr1 x tr2, tr = tr1 ++ EvOutput (IComputed x) :: tr2 ->
  exists vs, returned b u tr1 vs /\ x = Z.lxor r0 (xor_all vs).

(** [pend]: numbers returned but not yet folded into the local [r] *)
Definition tracks {A} (pend : Z) (m : stmt A) (post : A -> Z) : Prop :=
  forall lo s tr s' o, exec b u (m lo) s tr s' o ->
  numbers_ok (Z.lxor (lo_r lo) pend) tr /\
  (forall x, o = Val x -> exists vs, returned b u tr vs /\
     forall a lo', x = inl (a, lo') -> Z.lxor (lo_r lo') (post a) = Z.lxor (Z.lxor (lo_r lo) pend) (xor_all vs)).

Lemma numbers_nil r0 : numbers_ok r0 [].
Proof. intros [|e tr1] x tr2 H; discriminate. Qed.
Lemma numbers_app r0 tr1 vs tr2 : numbers_ok r0 tr1 -> returned b u tr1 vs -> numbers_ok (Z.lxor r0 (xor_all vs)) tr2 -> numbers_ok r0 (tr1 ++ tr2).
Proof.
  intros H1 R H2 p x q E. apply app_eq_app in E. destruct E as (mid & [[E1 E2]|[E1 E2]]).
  - destruct mid as [|e mid].
    + rewrite app_nil_r in E1. subst p. destruct (H2 [] x q ltac:(symmetry; exact E2)) as (vs2 & R2 & X). exists (vs ++ vs2).
      rewrite <- (app_nil_r tr1). split; [apply returned_app; assumption|]. rewrite xor_all_app2, <- Z.lxor_assoc. exact X.
    + cbn [app] in E2. injection E2 as <- E3. apply (H1 p x mid). exact E1.
  - destruct (H2 mid x q E2) as (vs2 & R2 & X). exists (vs ++ vs2). subst p.
    split; [apply returned_app; assumption|]. rewrite xor_all_app2, <- Z.lxor_assoc. exact X.
Qed.

Lemma tracks_ret {A} pend (a : A) post : post a = pend -> tracks pend (sret a) post.
Proof.
  intros H lo s tr s' o E. unfold sret in E. inversion E; subst. split; [apply numbers_nil|]. intros x X. injection X as <-.
  exists []. split; [constructor|]. intros a' lo' Y. injection Y as <- <-. cbn. rewrite Z.lxor_0_r. reflexivity.
Qed.
Lemma tracks_bind {A B} pend (m : stmt A) (k : A -> stmt B) mid post :
  tracks pend m mid -> (forall a, tracks (mid a) (k a) post) -> tracks pend (sbind m k) post.
Proof.
  intros Hm Hk lo s tr s' o E. unfold sbind in E. apply exec_pbind in E.
  destruct E as [(x & tr1 & s1 & tr2 & E1 & E2 & ->)|(p & E1 & ->)].
  - destruct (Hm _ _ _ _ _ E1) as [N1 P1]. destruct (P1 _ eq_refl) as (vs1 & R1 & L1).
    destruct x as [[a lo']|e].
    + specialize (L1 a lo' eq_refl). destruct (Hk a _ _ _ _ _ E2) as [N2 P2]. rewrite L1 in *. split.
      * eapply numbers_app; eassumption.
      * intros y Y. destruct (P2 y Y) as (vs2 & R2 & L2). exists (vs1 ++ vs2). split; [apply returned_app; assumption|].
        intros a' lo2 Z0. rewrite (L2 a' lo2 Z0). rewrite xor_all_app2, <- Z.lxor_assoc. reflexivity.
    + inversion E2; subst. rewrite app_nil_r. split; [exact N1|]. intros y Y. injection Y as <-. exists vs1. split; [exact R1|discriminate].
  - destruct (Hm _ _ _ _ _ E1) as [N1 _]. split; [exact N1|discriminate].
Qed.
Lemma tracks_lift {A} pend (m : res A) : tracks pend (slift m) (fun _ => pend).
Proof.
  intros lo s tr s' o E. unfold slift, lift in E. destruct m as [a|p|]; cbn [pbind] in E; inversion E; subst; (split; [apply numbers_nil|]); try discriminate.
  intros x X. injection X as <-. exists []. split; [constructor|]. intros a' lo' Y. injection Y as <- <-. cbn. rewrite Z.lxor_0_r. reflexivity.
Qed.
Lemma tracks_output pend i : (forall x, i <> IComputed x) -> tracks pend (output_ i) (fun _ => pend).
Proof.
  intros N lo s tr s' o E. unfold output_ in E. inversion E; subst. match goal with H : exec _ _ (Ret _) _ _ _ _ |- _ => inversion H; subst end.
  split.
  - intros [|e [|]] x tr2 H; cbn [app] in H; try discriminate. injection H as H _. destruct (N x H).
  - intros x X. injection X as <-. exists []. split; [repeat constructor|]. intros a' lo' Y. injection Y as <- <-. cbn [lo_r xor_all fold_right]. rewrite Z.lxor_0_r. reflexivity.
Qed.
Lemma tracks_computed : tracks 0 (fun lo => output_ (IComputed (lo_r lo)) lo) (fun _ => 0).
Proof.
  intros lo s tr s' o E. unfold output_ in E. inversion E; subst. match goal with H : exec _ _ (Ret _) _ _ _ _ |- _ => inversion H; subst end.
  split.
  - intros [|e [|]] x tr2 H; cbn [app] in H; try discriminate. injection H as <- _. exists []. split; [constructor|]. cbn [xor_all fold_right]. rewrite !Z.lxor_0_r. reflexivity.
  - intros x X. injection X as <-. exists []. split; [repeat constructor|]. intros a' lo' Y. injection Y as <- <-. cbn [lo_r xor_all fold_right]. rewrite !Z.lxor_0_r. reflexivity.
Qed.
Lemma tracks_pass ph op ty r T : tracks 0 (run_iterator_pass ph op ty r T) (fun x => snd x).
Proof.
  intros lo s tr s' o E. unfold run_iterator_pass in E. inversion E; subst.
  - match goal with H : exec _ _ (Ret _) _ _ _ _ |- _ => inversion H; subst end. split.
    + intros [|e [|]] x tr2 H; cbn [app] in H; discriminate.
    + intros x X. injection X as <-. exists [v]. split; [econstructor; [eassumption|constructor]|].
      intros a' lo' Y. injection Y as <- <-. cbn [snd xor_all fold_right]. rewrite !Z.lxor_0_r. reflexivity.
  - split; [|discriminate]. intros [|e [|]] x tr2 H; cbn [app] in H; discriminate.
Qed.
Lemma tracks_verbose ph op pre suf ty r T : tracks 0 (run_iterator_pass_verbosely b ph op pre suf ty r T) (fun x => snd x).
Proof.
  unfold run_iterator_pass_verbosely. eapply tracks_bind; [apply tracks_pass|]. intros x.
  eapply tracks_bind; [apply tracks_lift|]. intros sh. eapply tracks_bind; [apply tracks_output; discriminate|]. intros ?.
  apply tracks_ret. reflexivity.
Qed.
Lemma tracks_store op n m v : tracks v (store op n m v) (fun _ => 0).
Proof.
  intros lo s tr s' o E. unfold store in E. inversion E; subst. split; [apply numbers_nil|]. intros x X. injection X as <-.
  exists []. split; [constructor|]. intros a' lo' Y. injection Y as <- <-. cbn [lo_r xor_all fold_right]. rewrite !Z.lxor_0_r. reflexivity.
Qed.
Lemma tracks_load op i : tracks 0 (load op i) (fun _ => 0).
Proof.
  intros lo s tr s' o E. unfold load in E. destruct (nth_error _ _); inversion E; subst; (split; [apply numbers_nil|]); [|discriminate].
  intros x X. injection X as <-. exists []. split; [constructor|]. intros a' lo' Y. injection Y as <- <-. cbn [xor_all fold_right]. rewrite !Z.lxor_0_r. reflexivity.
Qed.
Lemma tracks_err {A} (f : locals -> crud_error) : tracks 0 (fun lo => Ret (inr (f lo)) : prog (A * locals + crud_error)) (fun _ => 0).
Proof.
  intros lo s tr s' o E. inversion E; subst. split; [apply numbers_nil|]. intros x X. injection X as <-. exists []. split; [constructor|discriminate].
Qed.
Lemma tracks_yield op i m1 m2 tc sc : tracks 0 (yield_analysis cfg op i m1 m2 tc sc) (fun _ => 0).
Proof.
  unfold yield_analysis. cbv zeta. destruct (worse_than tc _).
  - eapply tracks_bind; [apply tracks_output; discriminate|]. intros ?. apply tracks_err.
  - destruct (worse_than sc _).
    + eapply tracks_bind; [apply tracks_output; discriminate|]. intros ?. apply tracks_err.
    + apply tracks_ret. reflexivity.
Qed.
Lemma tracks_constant op suf n : tracks 0 (run_constant_set_pass b t l cfg op suf n) (fun _ => 0).
Proof.
  unfold run_constant_set_pass. cbv zeta. destruct (0 <? _); [|apply tracks_ret; reflexivity].
  eapply tracks_bind; [apply tracks_lift|]. intros r. eapply tracks_bind; [apply tracks_verbose|]. intros x.
  eapply tracks_bind; [apply tracks_store|]. intros ?. destruct (n =? 2 - 1); [|apply tracks_ret; reflexivity].
  eapply tracks_bind; [apply tracks_lift|]. intros tw. eapply tracks_bind; [apply tracks_load|]. intros m1.
  eapply tracks_bind; [apply tracks_load|]. intros m2. eapply tracks_bind; [apply tracks_lift|]. intros sc. apply tracks_yield.
Qed.
Lemma tracks_resizing op suf pf rf n0 n : tracks 0 (run_set_resizing_pass b t l cfg op suf pf rf n0 n) (fun _ => 0).
Proof.
  unfold run_set_resizing_pass. cbv zeta. destruct (0 <? _); [|apply tracks_ret; reflexivity].
  eapply tracks_bind; [apply tracks_lift|]. intros r. eapply tracks_bind; [apply tracks_verbose|]. intros x.
  eapply tracks_bind; [apply tracks_store|]. intros ?. destruct (n =? n0); [|apply tracks_ret; reflexivity].
  eapply tracks_bind; [apply tracks_load|]. intros m1.
  eapply tracks_bind; [apply tracks_load|]. intros m2. eapply tracks_bind; [apply tracks_lift|]. intros sc. apply tracks_yield.
Qed.
Lemma tracks_warm op letter ty rf : tracks 0 (warmup_pass cfg op letter ty rf) (fun _ => 0).
Proof.
  unfold warmup_pass. cbv zeta. destruct (0 <? _); [|apply tracks_ret; reflexivity].
  eapply tracks_bind; [apply tracks_output; discriminate|]. intros ?.
  eapply tracks_bind; [apply tracks_lift|]. intros r. eapply tracks_bind; [apply tracks_pass|]. intros x.
  intros lo s tr s' o E. inversion E; subst. split; [apply numbers_nil|]. intros y X. injection X as <-.
  exists []. split; [constructor|]. intros a' lo' Y. injection Y as <- <-. cbn [lo_r xor_all fold_right]. rewrite !Z.lxor_0_r. reflexivity.
Qed.
Lemma tracks_warmup : tracks 0 (warmup b cfg) (fun _ => 0).
Proof.
  unfold warmup. destruct (0 <? _); [|apply tracks_ret; reflexivity].
  eapply tracks_bind; [apply tracks_output; discriminate|]. intros ?.
  do 4 (eapply tracks_bind; [apply tracks_warm|]; intros ?).
  eapply tracks_bind; [apply tracks_output; discriminate|]. intros ?.
  eapply tracks_bind; [apply tracks_lift|]. intros n. eapply tracks_bind with (mid := fun _ => 0).
  2:{ intros ?. eapply tracks_bind with (mid := fun _ => 0); [|intros d; apply tracks_output; discriminate].
      intros lo s tr s' o E. inversion E; subst. match goal with H : exec _ _ (Ret _) _ _ _ _ |- _ => inversion H; subst end.
      split; [intros [|e [|]] x tr2 H; cbn [app] in H; discriminate|].
      intros x X. injection X as <-. exists []. split; [repeat constructor|]. intros a' lo' Y. injection Y as <- <-. cbn [xor_all fold_right]. rewrite !Z.lxor_0_r. reflexivity. }
  intros lo s tr s' o E. inversion E; subst.
  - match goal with H : exec _ _ (Ret _) _ _ _ _ |- _ => inversion H; subst end. split.
    + intros [|e [|]] x tr2 H; cbn [app] in H; discriminate.
    + intros x X. injection X as <-. exists []. split; [repeat constructor|]. intros a' lo' Y. injection Y as <- <-. cbn [xor_all fold_right]. rewrite !Z.lxor_0_r. reflexivity.
  - split; [|discriminate]. intros [|e [|]] x tr2 H; cbn [app] in H; discriminate.
Qed.
Lemma tracks_report op a : tracks 0 (report_analysis b cfg op a) (fun _ => 0).
Proof.
  unfold report_analysis. destruct (0 <? _); [|apply tracks_ret; reflexivity]. destruct a as [a|]; [|apply tracks_lift].
  eapply tracks_bind; [apply tracks_lift|]. intros r. apply tracks_output. discriminate.
Qed.
Lemma tracks_cru : tracks 0 (cru_passes b t l cfg) (fun _ => 0).
Proof.
  unfold cru_passes, run_create_pass, run_read_pass, run_update_pass.
  eapply tracks_bind; [apply tracks_output; discriminate|]. intros ?.
  eapply tracks_bind; [apply tracks_warmup|]. intros ?. eapply tracks_bind; [apply tracks_output; discriminate|]. intros ?.
  eapply tracks_bind; [apply tracks_resizing|]. intros ?.
  do 2 (eapply tracks_bind; [apply tracks_constant|]; intros ?).
  eapply tracks_bind; [apply tracks_output; discriminate|]. intros ?.
  eapply tracks_bind; [apply tracks_resizing|]. intros ca.
  eapply tracks_bind; [apply tracks_constant|]. intros ra. eapply tracks_bind; [apply tracks_constant|]. intros ua.
  eapply tracks_bind; [apply tracks_output; discriminate|]. intros ?.
  apply tracks_ret. reflexivity.
Qed.
Lemma tracks_delete : tracks 0 (delete_passes b t l cfg) (fun _ => 0).
Proof.
  unfold delete_passes, run_delete_pass. destruct (0 <? _); [|apply tracks_ret; reflexivity].
  eapply tracks_bind; [apply tracks_output; discriminate|]. intros ?.
  eapply tracks_bind; [apply tracks_resizing|]. intros ?. eapply tracks_bind; [apply tracks_resizing|]. intros da.
  eapply tracks_bind; [apply tracks_computed|]. intros ?. eapply tracks_bind; [apply tracks_report|]. intros ?. apply tracks_ret. reflexivity.
Qed.
Lemma tracks_body : tracks 0 (internal_body b t l cfg) (fun _ => 0).
Proof.
  unfold internal_body. eapply tracks_bind; [apply tracks_cru|]. intros [[ca ra] ua].
  do 3 (eapply tracks_bind; [apply tracks_report|]; intros ?).
  eapply tracks_bind with (mid := fun _ => 0); [apply tracks_delete|].
  intros da lo s tr s' o E. inversion E; subst. split; [apply numbers_nil|]. intros x X. injection X as <-.
    exists []. split; [constructor|]. intros a' lo' Y. injection Y as <- <-. cbn [xor_all fold_right]. rewrite !Z.lxor_0_r. reflexivity.
Qed.
End Number.

(** ** C76: whenever a CRUD analysis reports a computed number, it is the xor of the numbers
    returned by all the passes -- warm-up, first and second -- executed before the report; for any
    closures, any configuration, any schedule and any measurements *)
Theorem C76_computed_number : forall S b t l (u : user S) cfg s tr s' o tr1 x tr2,
  exec b u (internal_analyse_crud_algorithms b t l cfg) s tr s' o ->
  tr = tr1 ++ EvOutput (IComputed x) :: tr2 ->
  exists vs, returned b u tr1 vs /\ x = xor_all vs.
Proof.
  intros S b t l u cfg s tr s' o tr1 x tr2 E H. unfold internal_analyse_crud_algorithms in E. apply exec_pbind in E.
  assert (N : numbers_ok b u 0 tr).
  { destruct E as [(y & t1 & s1 & t2 & E1 & E2 & ->)|(p & E1 & ->)].
    - inversion E2; subst. rewrite app_nil_r. exact (proj1 (tracks_body b t l cfg u _ _ _ _ _ E1)).
    - exact (proj1 (tracks_body b t l cfg u _ _ _ _ _ E1)). }
  destruct (N _ _ _ H) as (vs & R & X). exists vs. split; [exact R|]. rewrite X. apply Z.lxor_0_l.
Qed.
Print Assumptions C76_computed_number.

(** *** The number is reported once, after every pass, exactly when deletes are analysed *)
Definition computed (tr : list event) : list Z :=
  flat_map (fun e => match e with EvOutput (IComputed x) => [x] | _ => [] end) tr.
Lemma computed_app a c : computed (a ++ c) = computed a ++ computed c.
Proof. apply flat_map_app. Qed.

Section Once.
Context {S : Type}.
Variables (b : build) (t : tolerance) (l : libm) (cfg : crud_cfg) (u : user S).
(** emits no computed number *)
Definition quiet {A} (m : stmt A) : Prop := forall lo s tr s' o, exec b u (m lo) s tr s' o -> computed tr = [].
(** does nothing but report, and reports no computed number *)
Definition idle {A} (m : stmt A) : Prop := forall lo s tr s' o, exec b u (m lo) s tr s' o -> computed tr = [] /\ acts tr = [].
(** emits [n] computed numbers if it succeeds, none or [n] otherwise, and nothing is called after the first *)
Definition final {A} (n : nat) (m : stmt A) : Prop := forall lo s tr s' o, exec b u (m lo) s tr s' o ->
  (forall a lo', o = Val (inl (a, lo')) -> length (computed tr) = n) /\
  (forall tr1 x tr2, tr = tr1 ++ EvOutput (IComputed x) :: tr2 -> acts tr2 = []).

Ltac one_step E := inversion E; subst; try match goal with H : exec _ _ (Ret _) _ _ _ _ |- _ => inversion H; subst end.
Lemma quiet_idle {A} (m : stmt A) : idle m -> quiet m.
Proof. intros H lo s tr s' o E. exact (proj1 (H _ _ _ _ _ E)). Qed.
Lemma quiet_bind {A B} (m : stmt A) (k : A -> stmt B) : quiet m -> (forall a, quiet (k a)) -> quiet (sbind m k).
Proof.
  intros Hm Hk lo s tr s' o E. unfold sbind in E. apply exec_pbind in E.
  destruct E as [(x & tr1 & s1 & tr2 & E1 & E2 & ->)|(p & E1 & ->)]; [|exact (Hm _ _ _ _ _ E1)].
  rewrite computed_app, (Hm _ _ _ _ _ E1). destruct x as [[a lo']|e]; [exact (Hk _ _ _ _ _ _ E2)|]. inversion E2; subst. reflexivity.
Qed.
Lemma idle_bind {A B} (m : stmt A) (k : A -> stmt B) : idle m -> (forall a, idle (k a)) -> idle (sbind m k).
Proof.
  intros Hm Hk lo s tr s' o E. unfold sbind in E. apply exec_pbind in E.
  destruct E as [(x & tr1 & s1 & tr2 & E1 & E2 & ->)|(p & E1 & ->)]; [|exact (Hm _ _ _ _ _ E1)].
  rewrite computed_app, acts_app. destruct (Hm _ _ _ _ _ E1) as [-> ->]. destruct x as [[a lo']|e]; [exact (Hk _ _ _ _ _ _ E2)|]. inversion E2; subst. split; reflexivity.
Qed.
Lemma idle_ret {A} (a : A) : idle (sret a). Proof. intros lo s tr s' o E. unfold sret in E. one_step E. split; reflexivity. Qed.
Lemma idle_lift {A} (m : res A) : idle (slift m).
Proof. intros lo s tr s' o E. unfold slift, lift in E. destruct m; cbn [pbind] in E; one_step E; split; reflexivity. Qed.
Lemma idle_output i : (forall x, i <> IComputed x) -> idle (output_ i).
Proof. intros N lo s tr s' o E. unfold output_ in E. one_step E. destruct i; try (split; reflexivity). destruct (N r eq_refl). Qed.
Lemma idle_store op n m v : idle (store op n m v).
Proof. intros lo s tr s' o E. unfold store in E. one_step E. split; reflexivity. Qed.
Lemma idle_load op i : idle (load op i).
Proof. intros lo s tr s' o E. unfold load in E. destruct (nth_error _ _); one_step E; split; reflexivity. Qed.
Lemma quiet_pass ph op ty r T : quiet (run_iterator_pass ph op ty r T).
Proof. intros lo s tr s' o E. unfold run_iterator_pass in E. one_step E; reflexivity. Qed.
Lemma quiet_verbose ph op pre suf ty r T : quiet (run_iterator_pass_verbosely b ph op pre suf ty r T).
Proof.
  unfold run_iterator_pass_verbosely. apply quiet_bind; [apply quiet_pass|]. intros x. apply quiet_idle.
  apply idle_bind; [apply idle_lift|]. intros ?. apply idle_bind; [apply idle_output; discriminate|]. intros ?. apply idle_ret.
Qed.
Lemma idle_yield op i m1 m2 tc sc : idle (yield_analysis cfg op i m1 m2 tc sc).
Proof.
  assert (EE : forall f : locals -> crud_error, idle (fun lo => Ret (inr (f lo)) : prog (option analysis * locals + crud_error))).
  { intros f lo s tr s' o E. inversion E; subst. split; reflexivity. }
  unfold yield_analysis. cbv zeta. destruct (worse_than tc _); [|destruct (worse_than sc _); [|apply idle_ret]];
    (apply idle_bind; [apply idle_output; discriminate|intros ?; apply EE]).
Qed.
Lemma quiet_constant op suf n : quiet (run_constant_set_pass b t l cfg op suf n).
Proof.
  unfold run_constant_set_pass. cbv zeta. destruct (0 <? _); [|apply quiet_idle, idle_ret].
  apply quiet_bind; [apply quiet_idle, idle_lift|]. intros r. apply quiet_bind; [apply quiet_verbose|]. intros x. apply quiet_idle.
  apply idle_bind; [apply idle_store|]. intros ?. destruct (n =? 2 - 1); [|apply idle_ret].
  apply idle_bind; [apply idle_lift|]. intros ?. apply idle_bind; [apply idle_load|]. intros ?. apply idle_bind; [apply idle_load|]. intros ?.
  apply idle_bind; [apply idle_lift|]. intros ?. apply idle_yield.
Qed.
Lemma quiet_resizing op suf pf rf n0 n : quiet (run_set_resizing_pass b t l cfg op suf pf rf n0 n).
Proof.
  unfold run_set_resizing_pass. cbv zeta. destruct (0 <? _); [|apply quiet_idle, idle_ret].
  apply quiet_bind; [apply quiet_idle, idle_lift|]. intros r. apply quiet_bind; [apply quiet_verbose|]. intros x. apply quiet_idle.
  apply idle_bind; [apply idle_store|]. intros ?. destruct (n =? n0); [|apply idle_ret].
  apply idle_bind; [apply idle_load|]. intros ?. apply idle_bind; [apply idle_load|]. intros ?.
  apply idle_bind; [apply idle_lift|]. intros ?. apply idle_yield.
Qed.
Lemma quiet_warm op letter ty rf : quiet (warmup_pass cfg op letter ty rf).
Proof.
  unfold warmup_pass. cbv zeta. destruct (0 <? _); [|apply quiet_idle, idle_ret].
  apply quiet_bind; [apply quiet_idle, idle_output; discriminate|]. intros ?.
  apply quiet_bind; [apply quiet_idle, idle_lift|]. intros r. apply quiet_bind; [apply quiet_pass|]. intros x.
  intros lo s tr s' o E. one_step E. reflexivity.
Qed.
Lemma quiet_warmup : quiet (warmup b cfg).
Proof.
  unfold warmup. destruct (0 <? _); [|apply quiet_idle, idle_ret].
  apply quiet_bind; [apply quiet_idle, idle_output; discriminate|]. intros ?.
  do 4 (apply quiet_bind; [apply quiet_warm|]; intros ?).
  apply quiet_bind; [apply quiet_idle, idle_output; discriminate|]. intros ?.
  apply quiet_bind; [apply quiet_idle, idle_lift|]. intros n. apply quiet_bind; [intros lo s tr s' o E; one_step E; reflexivity|]. intros ?.
  apply quiet_bind; [intros lo s tr s' o E; one_step E; reflexivity|]. intros d. apply quiet_idle, idle_output. discriminate.
Qed.
Lemma idle_report op a : idle (report_analysis b cfg op a).
Proof.
  unfold report_analysis. destruct (0 <? _); [|apply idle_ret]. destruct a as [a|]; [|apply idle_lift].
  apply idle_bind; [apply idle_lift|]. intros r. apply idle_output. discriminate.
Qed.
Lemma no_computed tr : computed tr = [] -> forall tr1 x tr2, tr <> tr1 ++ EvOutput (IComputed x) :: tr2.
Proof. intros H tr1 x tr2 ->. rewrite computed_app in H. cbn in H. apply app_eq_nil in H. destruct H; discriminate. Qed.
Lemma final_quiet {A} (m : stmt A) : quiet m -> final 0 m.
Proof.
  intros H lo s tr s' o E. pose proof (H _ _ _ _ _ E) as C. split; [rewrite C; reflexivity|].
  intros tr1 x tr2 X. destruct (no_computed _ C _ _ _ X).
Qed.
Lemma final_after {A B} n (m : stmt A) (k : A -> stmt B) : quiet m -> (forall a, final n (k a)) -> final n (sbind m k).
Proof.
  intros Hm Hk lo s tr s' o E. unfold sbind in E. apply exec_pbind in E.
  destruct E as [(x & tr1 & s1 & tr2 & E1 & E2 & ->)|(p & E1 & ->)].
  2:{ split; [discriminate|]. intros p1 x p2 X. destruct (no_computed _ (Hm _ _ _ _ _ E1) _ _ _ X). }
  pose proof (Hm _ _ _ _ _ E1) as C. rewrite computed_app, C. cbn [app].
  destruct x as [[a lo']|e].
  - destruct (Hk _ _ _ _ _ _ E2) as [K1 K2]. split; [exact K1|]. intros p x q X. apply app_eq_app in X.
    destruct X as (mid & [[X1 X2]|[X1 X2]]).
    + destruct mid as [|ev mid].
      * apply (K2 [] x q). symmetry. exact X2.
      * cbn [app] in X2. injection X2 as <- X2. destruct (no_computed _ C _ _ _ X1).
    + apply (K2 mid x q). exact X2.
  - inversion E2; subst. split; [discriminate|]. rewrite app_nil_r. intros p x q X. destruct (no_computed _ C _ _ _ X).
Qed.
Lemma final_then_idle {A B} n (m : stmt A) (k : A -> stmt B) : final n m -> (forall a, idle (k a)) -> final n (sbind m k).
Proof.
  intros Hm Hk lo s tr s' o E. unfold sbind in E. apply exec_pbind in E.
  destruct E as [(x & tr1 & s1 & tr2 & E1 & E2 & ->)|(p & E1 & ->)].
  2:{ split; [discriminate|]. apply (proj2 (Hm _ _ _ _ _ E1)). }
  destruct (Hm _ _ _ _ _ E1) as [M1 M2].
  assert (I : computed tr2 = [] /\ acts tr2 = [] ).
  { destruct x as [[a lo']|e]; [exact (Hk _ _ _ _ _ _ E2)|]. inversion E2; subst. split; reflexivity. }
  destruct I as [C2 A2]. rewrite computed_app, C2, app_nil_r. split.
  - intros a lo' X. destruct x as [[a1 lo1]|e]; [exact (M1 a1 lo1 eq_refl)|]. inversion E2; subst. discriminate.
  - intros p y q X. apply app_eq_app in X. destruct X as (mid & [[X1 X2]|[X1 X2]]).
    + destruct mid as [|ev mid].
      * destruct (no_computed _ C2 [] y q). symmetry. exact X2.
      * cbn [app] in X2. injection X2 as <- X2. rewrite X2, acts_app, A2, app_nil_r. apply (M2 p y mid). exact X1.
    + destruct (no_computed _ C2 _ _ _ X2).
Qed.
Lemma final_computed : final 1 (fun lo => output_ (IComputed (lo_r lo)) lo).
Proof.
  intros lo s tr s' o E. unfold output_ in E. one_step E. split; [reflexivity|].
  intros [|e [|]] x tr2 H; cbn [app] in H; try discriminate. injection H as H1 H2. subst. reflexivity.
Qed.
Lemma quiet_cru : quiet (cru_passes b t l cfg).
Proof.
  unfold cru_passes, run_create_pass, run_read_pass, run_update_pass.
  apply quiet_bind; [apply quiet_idle, idle_output; discriminate|]. intros ?.
  apply quiet_bind; [apply quiet_warmup|]. intros ?. apply quiet_bind; [apply quiet_idle, idle_output; discriminate|]. intros ?.
  apply quiet_bind; [apply quiet_resizing|]. intros ?.
  do 2 (apply quiet_bind; [apply quiet_constant|]; intros ?).
  apply quiet_bind; [apply quiet_idle, idle_output; discriminate|]. intros ?.
  apply quiet_bind; [apply quiet_resizing|]. intros ?. do 2 (apply quiet_bind; [apply quiet_constant|]; intros ?).
  apply quiet_bind; [apply quiet_idle, idle_output; discriminate|]. intros ?.
  apply quiet_idle, idle_ret.
Qed.
Lemma final_body : final (if 0 <? iterations cfg Delete then 1 else 0) (internal_body b t l cfg).
Proof.
  unfold internal_body. apply final_after; [apply quiet_cru|]. intros [[ca ra] ua].
  do 3 (apply final_after; [apply quiet_idle, idle_report|]; intros ?).
  apply final_then_idle.
  - unfold delete_passes, run_delete_pass. destruct (0 <? _); [|apply final_quiet, quiet_idle, idle_ret].
    apply final_after; [apply quiet_idle, idle_output; discriminate|]. intros ?.
    do 2 (apply final_after; [apply quiet_resizing|]; intros ?).
    apply final_then_idle; [apply final_computed|]. intros ?.
    apply idle_bind; [apply idle_report|]. intros ?. apply idle_ret.
  - intros da lo s tr s' o E. one_step E. split; reflexivity.
Qed.
End Once.

Theorem C76_reported_once_after_every_pass : forall S b t l (u : user S) cfg s tr s' r,
  cfg_ok cfg -> overflow_free b cfg ->
  exec b u (internal_analyse_crud_algorithms b t l cfg) s tr s' (Val (inl r)) ->
  if 0 <? iterations cfg Delete
  then exists x tr1 tr2, tr = tr1 ++ EvOutput (IComputed x) :: tr2 /\ acts tr1 = all_acts cfg /\ acts tr2 = [] /\ computed tr = [x]
  else computed tr = [].
Proof.
  intros S b t l u cfg s tr s' r C F E.
  pose proof (proj2 (C34_call_sequence _ _ _ _ _ _ _ _ _ _ C F E) r eq_refl) as A.
  unfold internal_analyse_crud_algorithms in E. apply exec_pbind in E.
  destruct E as [(y & t1 & s1 & t2 & E1 & E2 & ->)|(p & E1 & X)]; [|discriminate].
  destruct y as [[r' lo]|e]; inversion E2; subst. rewrite app_nil_r in *.
  destruct (final_body b t l cfg u _ _ _ _ _ E1) as [L P]. specialize (L _ _ eq_refl).
  destruct (0 <? iterations cfg Delete).
  - destruct (computed t1) as [|x [|]] eqn:EC; try discriminate.
    assert (SP : forall tr, computed tr = [x] -> exists a c, tr = a ++ EvOutput (IComputed x) :: c).
    { induction tr as [|e tr IH]; intros H; [discriminate|].
      destruct e as [ph op rg T log m|n|i|d]; cbn in H;
        try (destruct (IH H) as (a & c & ->); eexists (_ :: a), c; reflexivity).
      destruct i; cbn in H; try (destruct (IH H) as (a & c & ->); eexists (_ :: a), c; reflexivity).
      injection H as -> H. exists [], tr. reflexivity. }
    destruct (SP t1 EC) as (a & c & ->). exists x, a, c. specialize (P a x c eq_refl).
    rewrite acts_app in A. cbn [acts flat_map act_of app] in A. fold (acts c) in A. rewrite P, app_nil_r in A.
    split; [reflexivity|]. split; [exact A|]. split; [exact P|reflexivity].
  - destruct (computed t1); [reflexivity|discriminate].
Qed.
Print Assumptions C76_reported_once_after_every_pass.
(** a run with enabled deletes, so that the number is reported *)
Example C76_example : exists tr s' r x tr1 tr2,
  exec Debug demo_user (internal_analyse_crud_algorithms Debug Tol25 demo_libm (no_maxima demo_cfg)) tt tr s' (Val (inl r))
  /\ tr = tr1 ++ EvOutput (IComputed x) :: tr2 /\ acts tr1 = all_acts (no_maxima demo_cfg).
Proof.
  destruct demo_cfg_ok as (C & U & _).
  destruct (C38_runs_exist _ Debug Tol25 demo_libm demo_user demo_cfg tt demo_measure C U demo_user_ok demo_sane) as (tr & s' & r & E & SM & _).
  destruct (analyse_inv _ _ _ _ _ _ _ _ _ E) as (o' & E' & O). destruct o' as [[r'|e]|p|]; try discriminate; [|destruct O].
  pose proof (C76_reported_once_after_every_pass _ _ _ _ _ _ _ _ _ _ (no_maxima_ok _ C) (or_introl eq_refl) E') as H.
  change (0 <? iterations (no_maxima demo_cfg) Delete) with true in H. cbv iota in H. destruct H as (x & tr1 & tr2 & X & A & _).
  exists tr, s', r', x, tr1, tr2. auto.
Qed.
