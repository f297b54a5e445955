(** * Consequences of the Hoare logic: complete executions of the CRUD runner. *)
From Coq Require Import List ZArith Lia Bool String Permutation.
From Verif Require Import Machine Complexity Analysis AnalysisF64d AllocSpec IterPass IterSpec IterPassProofs PropsIter Report ReportProofs Crud CrudSpec CrudProofs.
Import ListNotations.
Open Scope Z_scope.

Section Main.
Context {S : Type}.
Variables (b : build) (t : tolerance) (l : libm) (u : user S).

(** what every execution of an analysis looks like *)
Lemma internal_spec cfg s tr s' o : cfg_ok cfg -> overflow_free b cfg ->
  exec b u (internal_analyse_crud_algorithms b t l cfg) s tr s' o ->
  match o with
  | Val (inl r) => acts tr = all_acts cfg /\ cr_report r = outputs tr /\ forall op, verdict b t l cfg tr op (analysis_of r op)
  | Val (inr e) => mismatch b t l cfg e tr
  | Panic p => fails cfg u p tr
  | Spin => False
  end.
Proof.
  intros CFG OVF E. unfold internal_analyse_crud_algorithms in E. apply exec_pbind in E.
  destruct E as [(x & tr1 & s1 & tr2 & E1 & E2 & ->)|(p & E1 & ->)].
  - pose proof (triple_body b t l cfg u CFG OVF locals_init [] s tr1 s1 _ (conj eq_refl eq_refl) E1) as P. cbn [app] in P.
    inversion E2; subst. rewrite app_nil_r. destruct x as [[r lo]|e]; cbn [post] in P; exact P.
  - exact (triple_body b t l cfg u CFG OVF locals_init [] s tr s' _ (conj eq_refl eq_refl) E1).
Qed.

(** every pass in a trace is an execution of the closure it names *)
Definition valid (e : event) : Prop :=
  match e with
  | EvPass _ op r T log (Some _) => exists ty s1 s2 v, iterator_pass (u_op u op) b ty r T s1 log s2 (Val v)
  | EvPass _ op r T log None => exists ty s1 s2 p, iterator_pass (u_op u op) b ty r T s1 log s2 (Panic p)
  | _ => True
  end.
Lemma exec_valid {A} (m : prog A) s tr s' o : exec b u m s tr s' o -> Forall valid tr.
Proof. induction 1; repeat constructor; cbn [valid]; eauto 6. Qed.
Lemma exec_measured {A} (m : prog A) s tr s' o : exec b u m s tr s' o -> (forall p, o <> Panic p) ->
  Forall (fun e => match e with EvPass _ _ _ _ _ m => m <> None | _ => True end) tr.
Proof. induction 1; intros N; try constructor; auto; try discriminate; try (exfalso; eapply N; reflexivity). Qed.

Lemma acts_event tr ph op r T : In (APass ph op r T) (acts tr) -> exists log m, In (EvPass ph op r T log m) tr.
Proof.
  unfold acts. rewrite in_flat_map. intros (e & He & H). destruct e as [ph' op' r' T' log m|n|i|d]; cbn [act_of] in H;
    [destruct H as [H|[]]|destruct H as [H|[]]; discriminate|destruct H|destruct H].
  injection H as -> -> -> ->. eauto.
Qed.
Lemma event_acts tr ph op r T log m : In (EvPass ph op r T log m) tr -> In (APass ph op r T) (acts tr).
Proof. intros H. unfold acts. rewrite in_flat_map. eexists. split; [exact H|]. left. reflexivity. Qed.
Lemma resets_acts tr : resets tr = flat_map (fun a => match a with AReset n => [n] | _ => [] end) (acts tr).
Proof.
  induction tr as [|e tr IH]; [reflexivity|]. unfold resets, acts in *. cbn [flat_map]. rewrite flat_map_app, <- IH. f_equal.
  destruct e; reflexivity.
Qed.

(** ** Existence of executions, whatever the clock and the allocator measure *)
Lemma chunks_no_spin r T : chunks b r T <> Spin.
Proof.
  assert (CH : forall z, checked_i32 b z <> Spin) by (intros z; unfold checked_i32; destruct (_ && _), b; discriminate).
  assert (DV : forall x y, i32_div x y <> Spin) by (intros x y; unfold i32_div; destruct (_ =? 0); [discriminate|]; destruct (_ && _); discriminate).
  assert (BI : forall X Y (m : res X) (k : X -> res Y), m <> Spin -> (forall x, k x <> Spin) -> bind m k <> Spin)
    by (intros X Y [x|p|] k H1 H2; cbn [bind]; [apply H2|discriminate|contradiction]).
  assert (RL : forall X (ms : list (res X)), Forall (fun m => m <> Spin) ms -> res_list ms <> Spin).
  { intros X ms H. induction H as [|m ms Hm H IH]; cbn [res_list]; [discriminate|]. apply BI; [exact Hm|]. intros x. apply BI; [exact IH|]. discriminate. }
  unfold chunks. cbv zeta. apply BI; [apply CH|]. intros d. apply BI; [apply DV|]. intros cs. apply RL.
  apply Forall_forall. intros m Hm. apply in_map_iff in Hm. destruct Hm as (n & <- & _). unfold chunk, i32_mul, i32_add.
  repeat (apply BI; [apply CH|intros ?]). discriminate.
Qed.
Lemma join_no_spin ths r : join ths r <> Spin.
Proof. revert r. induction ths as [|th ths IH]; intros r; cbn [join]; [discriminate|]. destruct th; [apply IH|discriminate]. Qed.

Lemma pass_exists (f : S -> Z -> S * option Z) ty r T s : exists log s' o, iterator_pass f b ty r T s log s' o /\ o <> Spin.
Proof.
  destruct (chunks b r T) as [cs|p|] eqn:C.
  - destruct (completes f (pass_init ty s cs)) as (sched & st & R & A). eexists _, _, _. split; [eapply pass_done; eassumption|].
    unfold finish. unfold u32_add, checked. destruct (_ && _); cbn [bind]; [apply join_no_spin|]. destruct b; cbn [bind]; [discriminate|apply join_no_spin].
  - eexists _, _, _. split; [eapply pass_no_chunks; eassumption|discriminate].
  - destruct (chunks_no_spin r T C).
Qed.

(** the environment measured [M] in every pass that returned *)
Definition measures (M : phase -> operation -> pass_result) (tr : list event) : Prop :=
  Forall (fun e => match e with EvPass ph op _ _ _ (Some m) => m = M ph op | _ => True end) tr.
Lemma exec_exists {A} (M : phase -> operation -> pass_result) (m : prog A) : forall s,
  exists tr s' o, exec b u m s tr s' o /\ measures M tr.
Proof.
  induction m as [a|p|ph op ty r T c IH|n c IH|i c IH|c IH]; intros s.
  - eexists [], _, _. split; [constructor|constructor].
  - eexists [], _, _. split; [constructor|constructor].
  - destruct (pass_exists (u_op u op) ty r T s) as (log & s1 & o & P & NS). destruct o as [v|p|]; [| |contradiction].
    + destruct (IH (M ph op) v s1) as (tr & s2 & o & E & MM). eexists _, _, _. split; [eapply ex_pass; eassumption|]. constructor; [reflexivity|exact MM].
    + eexists _, _, _. split; [eapply ex_pass_panic; eassumption|]. repeat constructor.
  - destruct (u_reset u s n) as [s1 [v|]] eqn:R.
    + destruct (IH s1) as (tr & s2 & o & E & MM). eexists _, _, _. split; [eapply ex_reset; eassumption|]. constructor; [exact I|exact MM].
    + eexists _, _, _. split; [eapply ex_reset_panic; eassumption|]. repeat constructor.
  - destruct (IH s) as (tr & s2 & o & E & MM). eexists _, _, _. split; [eapply ex_output; eassumption|]. constructor; [exact I|exact MM].
  - destruct (IH 0 s) as (tr & s2 & o & E & MM). eexists _, _, _. split; [eapply ex_clock; [apply Z.le_refl|exact E]|]. constructor; [exact I|exact MM].
Qed.
Lemma measures_sane M tr : (forall ph op, sane (M ph op)) -> measures M tr -> sane_measurements tr.
Proof.
  intros H. unfold measures, sane_measurements. apply Forall_impl. intros [ph op r T log [m|]|n|i|d]; auto. intros ->. apply H.
Qed.
Lemma measures_measurement M tr ph op m : measures M tr -> measurement tr ph op = Some m -> m = M ph op.
Proof.
  induction tr as [|e tr IH]; intros H E; [discriminate|]. inversion H as [|x y H1 H2]; subst.
  destruct e as [ph' op' r T log m'|n|i|d]; cbn [measurement] in E; auto.
  destruct (phase_eqb ph' ph && operation_eqb op' op) eqn:B; [|auto]. apply andb_true_iff in B. rewrite phase_eqb_eq, operation_eqb_eq in B.
  destruct B as [-> ->]. subst m'. exact H1.
Qed.

(** ** Arguments of the calls *)
Lemma arguments_app op l1 l2 : arguments op (l1 ++ l2) = arguments op l1 ++ arguments op l2.
Proof. apply flat_map_app. Qed.
Lemma arguments_none op tr : (forall ph r T, ~ In (APass ph op r T) (acts tr)) -> arguments op tr = [].
Proof.
  induction tr as [|e tr IH]; intros H; [reflexivity|]. unfold arguments in *. cbn [flat_map].
  destruct e as [ph' op' r T log m|n|i|d]; cbn [app].
  - destruct (operation_eqb op' op) eqn:E.
    + apply operation_eqb_eq in E. subst op'. exfalso. apply (H ph' r T). left. reflexivity.
    + cbn [app]. apply IH. intros ph r' T' X. apply (H ph r' T'). right. exact X.
  - apply IH. intros ph r' T' X. apply (H ph r' T'). right. exact X.
  - apply IH. intros ph r' T' X. apply (H ph r' T'). exact X.
  - apply IH. intros ph r' T' X. apply (H ph r' T'). exact X.
Qed.
End Main.

(** the calls of a trace, given its acts: split the trace where the acts split *)
Lemma acts_split tr A B : acts tr = A ++ B -> exists tr1 tr2, tr = tr1 ++ tr2 /\ acts tr1 = A /\ acts tr2 = B.
Proof.
  revert tr. induction A as [|a A IH]; intros tr E; [exists [], tr; auto|].
  induction tr as [|e tr IHtr]; [discriminate|].
  destruct (act_of e) as [|x [|y z]] eqn:Ea.
  - unfold acts in E. cbn [flat_map] in E. rewrite Ea in E. destruct (IHtr E) as (tr1 & tr2 & -> & E1 & E2).
    exists (e :: tr1), tr2. split; [reflexivity|]. split; [|exact E2]. unfold acts. cbn [flat_map]. rewrite Ea. exact E1.
  - unfold acts in E. cbn [flat_map] in E. rewrite Ea in E. cbn [app] in E. injection E as -> E.
    destruct (IH tr E) as (tr1 & tr2 & -> & E1 & E2). exists (e :: tr1), tr2. split; [reflexivity|]. split; [|exact E2].
    unfold acts. cbn [flat_map]. rewrite Ea. cbn [app]. f_equal. exact E1.
  - destruct e; discriminate.
Qed.
Lemma acts_one tr ph op r T : acts tr = [APass ph op r T] -> exists log m, (In (EvPass ph op r T log m) tr /\ arguments op tr = calls log)
  /\ forall op', op' <> op -> arguments op' tr = [].
Proof.
  induction tr as [|e tr IH]; intros E; [discriminate|]. destruct e as [ph' op' r' T' log m|n|i|d].
  - cbn [acts flat_map act_of app] in E. injection E as -> -> -> -> E. exists log, m.
    assert (N : forall op', arguments op' tr = []) by (intros op'; apply arguments_none; intros ph1 r1 T1 X; fold (acts tr) in E; rewrite E in X; destruct X).
    unfold arguments in *. cbn [flat_map]. split.
    + split; [left; reflexivity|]. rewrite operation_eqb_refl, N, app_nil_r. reflexivity.
    + intros op' Ne. destruct (operation_eqb op op') eqn:X; [apply operation_eqb_eq in X; congruence|]. apply N.
  - discriminate.
  - destruct (IH E) as (log & m & (H1 & H2) & H3). exists log, m. split; [split; [right; exact H1|exact H2]|exact H3].
  - destruct (IH E) as (log & m & (H1 & H2) & H3). exists log, m. split; [split; [right; exact H1|exact H2]|exact H3].
Qed.
