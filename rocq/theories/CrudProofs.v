(** * Proofs about the CRUD runner: a small Hoare logic over its programs. *)
From Coq Require Import List ZArith Lia Bool String.
From Verif Require Import Machine Complexity Analysis AnalysisF64d AllocSpec IterPass IterSpec IterPassProofs PropsIter Report ReportProofs Crud CrudSpec.
Import ListNotations.
Open Scope Z_scope.

(** ** Executions of composed programs *)
Lemma exec_pbind {S A B} b (u : user S) (m : prog A) (k : A -> prog B) : forall s tr s' o,
  exec b u (pbind m k) s tr s' o ->
  (exists a tr1 s1 tr2, exec b u m s tr1 s1 (Val a) /\ exec b u (k a) s1 tr2 s' o /\ tr = tr1 ++ tr2)
  \/ (exists p, exec b u m s tr s' (Panic p) /\ o = Panic p).
Proof.
  induction m as [a|p|ph op ty r T c IH|n c IH|i c IH|c IH]; intros s tr s' o H; cbn [pbind] in H.
  - left. exists a, [], s, tr. repeat split; [constructor|exact H].
  - inversion H; subst. right. exists p. split; [constructor|reflexivity].
  - inversion H; subst.
    + match goal with X : exec b u (pbind _ _) _ _ _ _ |- _ => apply IH in X; destruct X as [(a & tr1 & s3 & tr2 & E1 & E2 & ->)|(p & E1 & ->)] end.
      * left. eexists a, (_ :: tr1), s3, tr2. split; [eapply ex_pass; eassumption|]. split; [exact E2|reflexivity].
      * right. exists p. split; [eapply ex_pass; eassumption|reflexivity].
    + right. eexists. split; [eapply ex_pass_panic; eassumption|reflexivity].
  - inversion H; subst.
    + match goal with X : exec b u (pbind _ _) _ _ _ _ |- _ => apply IH in X; destruct X as [(a & tr1 & s3 & tr2 & E1 & E2 & ->)|(p & E1 & ->)] end.
      * left. eexists a, (_ :: tr1), s3, tr2. split; [eapply ex_reset; eassumption|]. split; [exact E2|reflexivity].
      * right. exists p. split; [eapply ex_reset; eassumption|reflexivity].
    + right. eexists. split; [eapply ex_reset_panic; eassumption|reflexivity].
  - inversion H; subst.
    match goal with X : exec b u (pbind _ _) _ _ _ _ |- _ => apply IH in X; destruct X as [(a & tr1 & s3 & tr2 & E1 & E2 & ->)|(p & E1 & ->)] end.
    + left. eexists a, (_ :: tr1), s3, tr2. split; [eapply ex_output; eassumption|]. split; [exact E2|reflexivity].
    + right. exists p. split; [eapply ex_output; eassumption|reflexivity].
  - inversion H; subst.
    match goal with X : exec b u (pbind _ _) _ _ _ _ |- _ => apply IH in X; destruct X as [(a & tr1 & s3 & tr2 & E1 & E2 & ->)|(p & E1 & ->)] end.
    + left. eexists a, (_ :: tr1), s3, tr2. split; [eapply ex_clock; eassumption|]. split; [exact E2|reflexivity].
    + right. exists p. split; [eapply ex_clock; eassumption|reflexivity].
Qed.

Lemma exec_pbind_intro {S A B} b (u : user S) (m : prog A) (k : A -> prog B) s tr1 s1 a tr2 s' o :
  exec b u m s tr1 s1 (Val a) -> exec b u (k a) s1 tr2 s' o -> exec b u (pbind m k) s (tr1 ++ tr2) s' o.
Proof.
  intros H. remember (Val a) as o1 eqn:E. revert a E. induction H; intros a0 E H2; cbn [pbind app]; try discriminate.
  - injection E as ->. exact H2.
  - eapply ex_pass; eauto.
  - eapply ex_reset; eauto.
  - eapply ex_output; eauto.
  - eapply ex_clock; eauto.
Qed.
Lemma exec_pbind_panic {S A B} b (u : user S) (m : prog A) (k : A -> prog B) s tr s' p :
  exec b u m s tr s' (Panic p) -> exec b u (pbind m k) s tr s' (Panic p).
Proof.
  intros H. remember (Panic p) as o1 eqn:E. revert E. induction H; intros E; cbn [pbind]; try discriminate.
  - injection E as ->. constructor.
  - eapply ex_pass; eauto.
  - injection E as ->. eapply ex_pass_panic; eassumption.
  - eapply ex_reset; eauto.
  - injection E as <-. eapply ex_reset_panic; eassumption.
  - eapply ex_output; eauto.
  - eapply ex_clock; eauto.
Qed.
Lemma exec_no_spin {S A} b (u : user S) (m : prog A) s tr s' o : exec b u m s tr s' o -> o <> Spin.
Proof. induction 1; congruence. Qed.

(** ** Traces *)
Lemma acts_app l1 l2 : acts (l1 ++ l2) = acts l1 ++ acts l2.
Proof. apply flat_map_app. Qed.
Lemma outputs_app l1 l2 : outputs (l1 ++ l2) = outputs l1 ++ outputs l2.
Proof. apply flat_map_app. Qed.
Lemma operation_eqb_eq a c : operation_eqb a c = true <-> a = c.
Proof. destruct a, c; cbn; split; congruence. Qed.
Lemma operation_eqb_refl a : operation_eqb a a = true. Proof. destruct a; reflexivity. Qed.
Lemma phase_eqb_refl a : phase_eqb a a = true. Proof. destruct a; reflexivity. Qed.
Lemma phase_eqb_eq a c : phase_eqb a c = true <-> a = c.
Proof. destruct a, c; cbn; split; congruence. Qed.

Definition labelled ph op (a : act) : Prop := match a with APass ph' op' _ _ => ph' = ph /\ op' = op | AReset _ => False end.
Definition fresh ph op (A : list act) : Prop := Forall (fun a => ~ labelled ph op a) A.

Lemma measurement_app_fresh tr tr' ph op : fresh ph op (acts tr) -> measurement (tr ++ tr') ph op = measurement tr' ph op.
Proof.
  induction tr as [|e tr IH]; intros F; [reflexivity|]. destruct e as [ph' op' r T log m|n|i|d]; cbn [app measurement].
  - cbn [acts flat_map act_of app] in F. inversion F as [|x y F1 F2]; subst.
    destruct (phase_eqb ph' ph && operation_eqb op' op) eqn:E; [|apply IH; exact F2].
    exfalso. apply F1. apply andb_true_iff in E. rewrite phase_eqb_eq, operation_eqb_eq in E. exact E.
  - apply IH. cbn [acts flat_map act_of app] in F. inversion F; assumption.
  - apply IH. exact F.
  - apply IH. exact F.
Qed.
Lemma measurement_app tr tr' ph op m : measurement tr ph op = Some m -> measurement (tr ++ tr') ph op = Some m.
Proof.
  induction tr as [|e tr IH]; intros F; [discriminate|]. destruct e as [ph' op' r T log m'|n|i|d]; cbn [app measurement] in *; auto.
  destruct (phase_eqb ph' ph && operation_eqb op' op); auto.
Qed.
Lemma measurement_other tr' ph op ph' op' r T log m tr : ~ (ph' = ph /\ op' = op) ->
  measurement (tr' ++ EvPass ph' op' r T log m :: tr) ph op = measurement (tr' ++ tr) ph op.
Proof.
  intros N. induction tr' as [|e tr' IH]; cbn [app measurement].
  - destruct (phase_eqb ph' ph && operation_eqb op' op) eqn:E; [|reflexivity].
    exfalso. apply N. apply andb_true_iff in E. rewrite phase_eqb_eq, operation_eqb_eq in E. exact E.
  - destruct e; cbn [app measurement]; auto. destruct (_ && _); auto.
Qed.
Lemma measurement_output tr' i tr ph op : measurement (tr' ++ EvOutput i :: tr) ph op = measurement (tr' ++ tr) ph op.
Proof. induction tr' as [|e tr' IH]; cbn [app measurement]; [reflexivity|]. destruct e; cbn [app measurement]; auto. destruct (_ && _); auto. Qed.
Lemma measurement_clock tr' i tr ph op : measurement (tr' ++ EvClock i :: tr) ph op = measurement (tr' ++ tr) ph op.
Proof. induction tr' as [|e tr' IH]; cbn [app measurement]; [reflexivity|]. destruct e; cbn [app measurement]; auto. destruct (_ && _); auto. Qed.
Lemma measurement_reset tr' i tr ph op : measurement (tr' ++ EvReset i :: tr) ph op = measurement (tr' ++ tr) ph op.
Proof. induction tr' as [|e tr' IH]; cbn [app measurement]; [reflexivity|]. destruct e; cbn [app measurement]; auto. destruct (_ && _); auto. Qed.

Lemma sane_app tr tr' : sane_measurements (tr ++ tr') <-> sane_measurements tr /\ sane_measurements tr'.
Proof. unfold sane_measurements. apply Forall_app. Qed.
Lemma sane_measured tr ph op m : sane_measurements tr -> measurement tr ph op = Some m -> sane m.
Proof.
  unfold sane_measurements. induction tr as [|e tr IH]; intros H E; [discriminate|]. inversion H as [|x y H1 H2]; subst.
  destruct e as [ph' op' r T log m'|n|i|d]; cbn [measurement] in E; auto.
  destruct (phase_eqb ph' ph && operation_eqb op' op); [subst m'; exact H1|auto].
Qed.

(** ** Hoare triples over accumulated traces *)
Section Logic.
Context {S : Type}.
Variables (b : build) (t : tolerance) (l : libm) (cfg : crud_cfg) (u : user S).
Hypothesis CFG : cfg_ok cfg.
Hypothesis OVF : overflow_free b cfg.

(** no closure has panicked: no pass was cut short, and the last thing that happened is not a reset *)
Definition uncut (tr : list event) : Prop :=
  Forall (fun e => match e with EvPass _ _ _ _ _ None => False | _ => True end) tr /\ forall tr0 n, tr <> tr0 ++ [EvReset n].
Definition good (p : panic) (tr : list event) : Prop := usable cfg /\ (closures_return u \/ uncut tr \/ p <> PClosure).
(** a panic: a prefix of the sequence was executed, and something was unusual *)
Definition fails (p : panic) (tr : list event) : Prop :=
  (exists rest, all_acts cfg = acts tr ++ rest) /\ ~ (good p tr /\ sane_measurements tr).
Definition mismatch (e : crud_error) (tr : list event) : Prop :=
  let op := ce_operation e in
  is_enabled cfg op /\ acts tr = acts_until cfg op /\ ce_report e = outputs tr /\
  (forall op', In op' (before op) -> is_enabled cfg op' -> met b t l cfg tr op') /\
  exists m1 m2 tc sc, observed b t l cfg tr op m1 m2 tc sc /\
    match ce_analysis e with
    | Time => clt (oc_max_time (cfg_of cfg op)) tc /\ ce_complexity e = tc /\ ce_max e = oc_max_time (cfg_of cfg op)
    | Space => cle tc (oc_max_time (cfg_of cfg op)) /\ clt (oc_max_space (cfg_of cfg op)) sc
               /\ ce_complexity e = sc /\ ce_max e = oc_max_space (cfg_of cfg op)
    end.

Definition post {A} (Q : A -> locals -> list event -> Prop) (o : res (A * locals + crud_error)) (tr : list event) : Prop :=
  match o with
  | Val (inl (a, lo)) => Q a lo tr
  | Val (inr e) => mismatch e tr
  | Panic p => fails p tr
  | Spin => False
  end.
Definition triple {A} (P : locals -> list event -> Prop) (m : stmt A) (Q : A -> locals -> list event -> Prop) : Prop :=
  forall lo tr0 s tr s' o, P lo tr0 -> exec b u (m lo) s tr s' o -> post Q o (tr0 ++ tr).

Lemma triple_conseq {A} (P P' : locals -> list event -> Prop) (m : stmt A) (Q Q' : A -> locals -> list event -> Prop) :
  triple P m Q -> (forall lo tr, P' lo tr -> P lo tr) -> (forall a lo tr, Q a lo tr -> Q' a lo tr) -> triple P' m Q'.
Proof.
  intros H HP HQ lo tr0 s tr s' o H0 E. specialize (H lo tr0 s tr s' o (HP _ _ H0) E).
  destruct o as [[[a lo']|e]|p|]; cbn [post] in *; auto.
Qed.
Lemma triple_bind {A B} (P : locals -> list event -> Prop) (m : stmt A) (k : A -> stmt B) Q R :
  triple P m Q -> (forall a, triple (Q a) (k a) R) -> triple P (sbind m k) R.
Proof.
  intros Hm Hk lo tr0 s tr s' o H0 E. unfold sbind in E. apply exec_pbind in E.
  destruct E as [(x & tr1 & s1 & tr2 & E1 & E2 & ->)|(p & E1 & ->)].
  - specialize (Hm lo tr0 s tr1 s1 _ H0 E1). destruct x as [[a lo']|e]; cbn [post] in Hm.
    + specialize (Hk a lo' (tr0 ++ tr1) s1 tr2 s' o Hm E2). rewrite <- app_assoc in Hk. exact Hk.
    + inversion E2; subst. rewrite app_nil_r. exact Hm.
  - exact (Hm lo tr0 s tr s' _ H0 E1).
Qed.
Lemma triple_ret {A} (P : locals -> list event -> Prop) (a : A) (Q : A -> locals -> list event -> Prop) : (forall lo tr, P lo tr -> Q a lo tr) -> triple P (sret a) Q.
Proof. intros H lo tr0 s tr s' o H0 E. unfold sret in E. inversion E; subst. rewrite app_nil_r. cbn. auto. Qed.
Lemma triple_lift {A} (P : locals -> list event -> Prop) (m : res A) (Q : A -> locals -> list event -> Prop) :
  (forall a lo tr, m = Val a -> P lo tr -> Q a lo tr) ->
  (forall lo tr p, P lo tr -> (forall a, m <> Val a) -> fails p tr) -> triple P (slift m) Q.
Proof.
  intros H HF lo tr0 s tr s' o H0 E. unfold slift, lift in E. destruct m as [a|p|]; cbn [pbind] in E; inversion E; subst; rewrite app_nil_r; cbn [post].
  - apply H; auto.
  - apply (HF lo); [exact H0|discriminate].
  - apply (HF lo); [exact H0|discriminate].
Qed.

(** ** The invariant *)
Definition idx (ph : phase) : nat := match ph with Second => 1%nat | _ => 0%nat end.
Record inv (A : list act) (lo : locals) (tr : list event) : Prop := Inv {
  inv_acts : acts tr = A;
  inv_rep : lo_report lo = outputs tr;
  inv_len : forall op, List.length (lo_results lo op) = 2%nat;
  inv_res : forall op ph m, ph <> Warmup -> measurement tr ph op = Some m -> nth_error (lo_results lo op) (idx ph) = Some m
}.
Definition stable (F : list event -> Prop) : Prop := forall tr tr', F tr -> F (tr ++ tr').
Definition prefix (A : list act) : Prop := exists rest, all_acts cfg = A ++ rest.
Lemma prefix_l A B : prefix (A ++ B) -> prefix A.
Proof. intros [rest E]. exists (B ++ rest). rewrite app_assoc. exact E. Qed.

Lemma pass_returns (r : range) T ty op s log s1 o : closures_return u -> fits b r -> 0 < T < two31 ->
  iterator_pass (u_op u op) b ty r T s log s1 o -> exists v, o = Val v.
Proof. intros [C _] F HT H. destruct (C30_skipped_indices _ _ _ _ _ _ _ _ _ _ (C op) F HT H) as (_ & _ & _ & V). exact V. Qed.

Lemma pass_panics (r : range) T ty op s log s1 p : fits b r -> 0 < T < two31 ->
  iterator_pass (u_op u op) b ty r T s log s1 (Panic p) -> p = PClosure.
Proof.
  intros F HT H. remember (Panic p) as out eqn:EO.
  destruct (pass_inv _ b ty r T s log s1 out F HT H) as (sched & st & R & A & -> & -> & -> & I).
  unfold finish in EO. rewrite (checked_u32_start b r F) in EO. cbn [bind] in EO.
  assert (DD : (exists t, nth_error (p_threads st) t = Some Dead) \/ (forall t, nth_error (p_threads st) t <> Some Dead)).
  { clear. induction (p_threads st) as [|th l IH]; [right; intros [|t]; discriminate|].
    destruct th as [todo acc|]; [|left; exists 0%nat; reflexivity].
    destruct IH as [[t Ht]|IH]; [left; exists (Datatypes.S t); exact Ht|right; intros [|t]; [discriminate|apply IH]]. }
  destruct DD as [DD|DD]; [rewrite join_dead in EO by exact DD; congruence|].
  destruct (join_alive (p_threads st) (r_start r + 1) DD) as [v V]. rewrite V in EO. discriminate.
Qed.
(** output keeps the invariant *)
Lemma triple_output A F i : stable F ->
  triple (fun lo tr => inv A lo tr /\ F tr) (output_ i) (fun _ lo tr => inv A lo tr /\ F tr).
Proof.
  intros SF lo tr0 s tr s' o [I HF] E. unfold output_ in E. inversion E; subst. match goal with X : exec _ _ (Ret _) _ _ _ _ |- _ => inversion X; subst end.
  cbn [post]. split; [|apply SF; exact HF]. destruct I as [I1 I2 I3 I4]. constructor; cbn [lo_results lo_report].
  - rewrite acts_app. cbn [acts flat_map act_of app]. rewrite app_nil_r. exact I1.
  - rewrite outputs_app, I2. reflexivity.
  - exact I3.
  - intros op ph m Hp E2. rewrite measurement_output in E2. rewrite app_nil_r in E2. auto.
Qed.

Lemma triple_then {B} A F i (k : unit -> stmt B) Q : stable F ->
  triple (fun lo tr => inv A lo tr /\ F tr) (k tt) Q -> triple (fun lo tr => inv A lo tr /\ F tr) (sbind (output_ i) k) Q.
Proof. intros SF H. eapply triple_bind; [apply triple_output; exact SF|]. intros []. exact H. Qed.

(** a measured pass: [slift range; run_iterator_pass_verbosely; store] *)
Lemma triple_measured {B} A F op pre suf n ph rr r T (K : pass_result * Z -> stmt B) Q :
  stable F -> fresh ph op A -> ph = phase_of n -> n = 0 \/ n = 1 ->
  prefix (A ++ [APass ph op r T]) ->
  (forall v, rr = Val v -> v = r) ->
  (usable cfg -> rr = Val r /\ fits b r /\ 0 < T < two31) ->
  (forall x, triple (fun lo tr => inv (A ++ [APass ph op r T]) lo tr /\ F tr /\ measurement tr ph op = Some (fst x)) (K x) Q) ->
  triple (fun lo tr => inv A lo tr /\ F tr)
    (sbind (slift rr) (fun r => sbind (run_iterator_pass_verbosely b ph op pre suf SetResizing r T)
       (fun x => sbind (store op n (fst x) (snd x)) (fun _ => K x)))) Q.
Proof.
  intros SF FR EP Hn PF RV RU HK.
  assert (PH : ph <> Warmup) by (subst ph; unfold phase_of; destruct (n =? 0); discriminate).
  assert (NN : Z.to_nat n = idx ph) by (subst ph; destruct Hn as [-> | ->]; reflexivity).
  assert (FA : forall p tr, acts tr = A -> ~ (good p tr /\ sane_measurements tr) -> fails p tr).
  { intros p tr E N. split; [|exact N]. rewrite E. destruct PF as [rest ->]. eexists. rewrite <- app_assoc. reflexivity. }
  apply triple_bind with (Q := fun r' lo tr => r' = r /\ inv A lo tr /\ F tr).
  { apply triple_lift.
    - intros a lo tr E [I HF]. split; [apply RV; exact E|split; assumption].
    - intros lo tr p [I HF] N. apply FA; [apply I|]. intros [[U C] SM]. apply RU in U. destruct U as [U _]. apply (N _ U). }
  intros r'. intros lo tr0 s tr s' o (-> & I & HF) E.
  unfold sbind at 1, run_iterator_pass_verbosely, run_iterator_pass in E. unfold sbind at 1 in E. cbn [pbind] in E.
  destruct I as [I1 I2 I3 I4].
  inversion E; subst.
  2:{ (* the pass panicked *)
    cbn [post]. split.
    - rewrite acts_app. cbn [acts flat_map act_of app]. exact PF.
    - intros [[U [C|[[C _]|C]]] SM]; [|apply Forall_app in C; destruct C as [_ C]; inversion C; contradiction|].
      2:{ apply RU in U. destruct U as (U & FT & HT). apply C. eapply pass_panics; eassumption. }
      apply RU in U. destruct U as (U & FT & HT).
      match goal with X : iterator_pass _ _ _ _ _ _ _ _ _ |- _ => destruct (pass_returns _ _ _ _ _ _ _ _ C FT HT X) as [v V]; discriminate end. }
  match goal with X : exec b u (pbind (sbind _ _ _) _) _ _ _ _ |- _ => rename X into E2 end.
  assert (AX : forall tr, acts (tr0 ++ EvPass (phase_of n) op r T log (Some m) :: tr) = acts tr0 ++ APass (phase_of n) op r T :: acts tr)
    by (intros; rewrite acts_app; reflexivity).
  unfold sbind at 1, slift, lift in E2.
  destruct (fmt_over_n b (pr_space m) 1) as [sh|p|] eqn:Efmt; cbn [pbind fst snd] in E2.
  2:{ inversion E2; subst. cbn [post]. split; [rewrite AX; exact PF|]. intros [_ SM]. apply sane_app in SM. destruct SM as [_ SM].
      inversion SM as [|x y M1 M2]; subst. destruct M1 as (_ & W & _). destruct (fmt_ok b (pr_space m) 1 W) as [? Ef]. congruence. }
  2:{ inversion E2; subst. cbn [post]. split; [rewrite AX; exact PF|]. intros [_ SM]. apply sane_app in SM. destruct SM as [_ SM].
      inversion SM as [|x y M1 M2]; subst. destruct M1 as (_ & W & _). destruct (fmt_ok b (pr_space m) 1 W) as [? Ef]. congruence. }
  unfold sbind, output_, sret, store in E2. cbn [pbind fst snd lo_results lo_r lo_report] in E2. inversion E2; subst. clear E2.
  match goal with X : exec b u (K _ _) _ ?x _ _ |- _ => rename X into E3; rename x into tr9 end.
  pose (ev := EvPass (phase_of n) op r T log (Some m)). pose (eo := EvOutput (IPass op pre (pr_time m) sh suf)).
  match goal with |- post _ _ ?x => replace x with ((tr0 ++ [ev; eo]) ++ tr9) by (rewrite <- app_assoc; reflexivity) end.
  eapply (HK (m, v)); [|exact E3]. split; [constructor|split; [apply SF; exact HF|]].
  + unfold ev, eo. rewrite acts_app. reflexivity.
  + cbn [lo_report]. unfold ev, eo. rewrite outputs_app, I2. reflexivity.
  + cbn [lo_results]. intros o'. destruct (operation_eqb o' op); rewrite ?upd_length; apply I3.
  + cbn [lo_results]. intros o' ph' m' Hp' Em.
    destruct (operation_eqb o' op) eqn:Eo.
    * apply operation_eqb_eq in Eo. subst o'. destruct (phase_eqb ph' (phase_of n)) eqn:Eph.
      -- apply phase_eqb_eq in Eph. subst ph'. rewrite measurement_app_fresh in Em by exact FR.
         unfold ev in Em. cbn [measurement] in Em. rewrite phase_eqb_refl, operation_eqb_refl in Em. cbn [andb] in Em. injection Em as <-.
         rewrite NN. apply nth_error_upd_eq. rewrite I3. destruct (phase_of n); cbn; lia.
      -- unfold ev, eo in Em. rewrite measurement_other in Em by (intros [X _]; subst ph'; rewrite phase_eqb_refl in Eph; discriminate).
         rewrite measurement_output, app_nil_r in Em. rewrite nth_error_upd_neq; [apply I4; assumption|].
         rewrite NN. destruct ph', (phase_of n); cbn in *; congruence.
    * unfold ev, eo in Em. rewrite measurement_other in Em by (intros [_ X]; subst o'; rewrite operation_eqb_refl in Eo; discriminate).
      rewrite measurement_output, app_nil_r in Em. apply I4; assumption.
  + cbn [fst]. rewrite measurement_app_fresh by exact FR. unfold ev. cbn [measurement]. rewrite phase_eqb_refl, operation_eqb_refl. reflexivity.
Qed.

Lemma triple_load A F op ph m : ph <> Warmup -> 
  triple (fun lo tr => inv A lo tr /\ F tr /\ measurement tr ph op = Some m) (load op (idx ph))
         (fun m' lo tr => m' = m /\ inv A lo tr /\ F tr /\ measurement tr ph op = Some m).
Proof.
  intros Hp lo tr0 s tr s' o (I & HF & M) E. unfold load in E. rewrite (inv_res _ _ _ I op ph m Hp M) in E.
  inversion E; subst. rewrite app_nil_r. cbn [post]. auto.
Qed.

(** ** Arithmetic of the ranges *)
Lemma cfg_iter op : 0 <= iterations cfg op < two32.
Proof. destruct CFG as [_ C]. apply C. Qed.
Lemma mul_val x y v : 0 <= x -> 0 <= y -> (no_overflow cfg -> x * y < two32) -> u32_mul b x y = Val v -> v = x * y.
Proof.
  intros Hx Hy NO H. unfold u32_mul, checked in H. destruct ((0 <=? x * y) && (x * y <? two32)) eqn:E; [congruence|].
  destruct OVF as [-> |NV]; [discriminate|]. apply NO in NV. apply andb_false_iff in E. nia.
Qed.
Lemma mul_ok x y : 0 <= x -> 0 <= y -> x * y < two32 -> u32_mul b x y = Val (x * y).
Proof. intros. apply checked_in. nia. Qed.

Lemma cru_range op n v : n = 0 \/ n = 1 -> calc_regular_cru_range b (iterations cfg op) n = Val v ->
  v = if n =? 0 then block1 cfg op else block2 cfg op.
Proof.
  intros Hn H. unfold calc_regular_cru_range in H. pose proof (cfg_iter op) as Hi.
  assert (NO : no_overflow cfg -> 2 * iterations cfg op < two32) by (intros N; apply N).
  apply bind_val in H. destruct H as (s & Hs & H). apply bind_val in H. destruct H as (p & Hp & H). apply bind_val in H. destruct H as (e & He & H).
  apply val_inj in H. subst v.
  assert (p = n + 1). { unfold u32_add in Hp. rewrite checked_in in Hp by (rewrite two32_val; lia). congruence. } subst p.
  apply mul_val in Hs; [|lia|lia|intros N; apply NO in N; nia]. apply mul_val in He; [|lia|lia|intros N; apply NO in N; nia].
  subst s e. destruct Hn as [-> | ->]; cbn [Z.eqb]; unfold block1, block2; f_equal; lia.
Qed.
Lemma d_range op n v : n = 0 \/ n = 1 -> calc_regular_d_range b (iterations cfg op) n = Val v ->
  v = if n =? 0 then backwards (block1 cfg op) else backwards (block2 cfg op).
Proof.
  intros Hn H. unfold calc_regular_d_range in H. pose proof (cfg_iter op) as Hi.
  assert (NO : no_overflow cfg -> 2 * iterations cfg op < two32) by (intros N; apply N).
  apply bind_val in H. destruct H as (p & Hp & H). apply bind_val in H. destruct H as (s & Hs & H). apply bind_val in H. destruct H as (e & He & H).
  apply val_inj in H. subst v.
  assert (p = n + 1). { unfold u32_add in Hp. rewrite checked_in in Hp by (rewrite two32_val; lia). congruence. } subst p.
  apply mul_val in Hs; [|lia|lia|intros N; apply NO in N; nia]. apply mul_val in He; [|lia|lia|intros N; apply NO in N; nia].
  subst s e. destruct Hn as [-> | ->]; cbn [Z.eqb]; unfold backwards, block1, block2; cbn [r_start r_end]; f_equal; lia.
Qed.
Lemma cru_range_ok op n : n = 0 \/ n = 1 -> 2 * iterations cfg op < two32 ->
  calc_regular_cru_range b (iterations cfg op) n = Val (if n =? 0 then block1 cfg op else block2 cfg op).
Proof.
  intros Hn NO. pose proof (cfg_iter op) as Hi. unfold calc_regular_cru_range, u32_add.
  rewrite mul_ok by nia. cbn [bind]. rewrite checked_in by (rewrite two32_val; lia). cbn [bind]. rewrite mul_ok by nia. cbn [bind].
  destruct Hn as [-> | ->]; cbn [Z.eqb]; unfold block1, block2; do 2 f_equal; lia.
Qed.
Lemma d_range_ok op n : n = 0 \/ n = 1 -> 2 * iterations cfg op < two32 ->
  calc_regular_d_range b (iterations cfg op) n = Val (if n =? 0 then backwards (block1 cfg op) else backwards (block2 cfg op)).
Proof.
  intros Hn NO. pose proof (cfg_iter op) as Hi. unfold calc_regular_d_range, u32_add.
  rewrite checked_in by (rewrite two32_val; lia). cbn [bind]. rewrite mul_ok by nia. cbn [bind]. rewrite mul_ok by nia. cbn [bind].
  destruct Hn as [-> | ->]; cbn [Z.eqb]; unfold backwards, block1, block2; cbn [r_start r_end]; do 2 f_equal; lia.
Qed.
Lemma blocks_fit op : usable cfg -> is_enabled cfg op ->
  fits b (block1 cfg op) /\ fits b (block2 cfg op) /\ fits b (backwards (block1 cfg op)) /\ fits b (backwards (block2 cfg op)).
Proof.
  intros [_ U] E. destruct (U op E) as [U1 _]. pose proof (cfg_iter op) as Hi. unfold is_enabled in E. rewrite two31_val in U1.
  repeat split; try (apply small_ranges_fit; unfold backwards, block1, block2; cbn [r_start r_end]; rewrite two31_val; lia);
  apply (small_ranges_fit b); unfold backwards, block1, block2; cbn [r_start r_end]; rewrite two31_val; lia.
Qed.

(** ** The verdict on one operation *)
Definition verdict (tr : list event) (op : operation) (a : option analysis) : Prop :=
  if 0 <? iterations cfg op then
    exists m1 m2 tc sc, observed b t l cfg tr op m1 m2 tc sc /\
      cle tc (oc_max_time (cfg_of cfg op)) /\ cle sc (oc_max_space (cfg_of cfg op)) /\
      a = Some (Analysis (info cfg op) m1 m2 tc sc)
  else a = None.
Lemma observed_stable op m1 m2 tc sc : stable (fun tr => observed b t l cfg tr op m1 m2 tc sc).
Proof. intros tr tr' (H1 & H2 & H3). split; [|split]; try (apply measurement_app); assumption. Qed.
Lemma verdict_stable op a : stable (fun tr => verdict tr op a).
Proof.
  intros tr tr' H. unfold verdict in *. destruct (0 <? iterations cfg op); [|exact H].
  destruct H as (m1 & m2 & tc & sc & O & H). exists m1, m2, tc, sc. split; [apply observed_stable; exact O|exact H].
Qed.
Lemma verdict_met tr op a : verdict tr op a -> is_enabled cfg op -> met b t l cfg tr op.
Proof.
  unfold verdict, is_enabled. intros H E. destruct (Z.ltb_spec 0 (iterations cfg op)); [|lia].
  destruct H as (m1 & m2 & tc & sc & O & H1 & H2 & _). exists m1, m2, tc, sc. auto.
Qed.

Lemma triple_yield F op m1 m2 tc sc inf :
  stable F -> is_enabled cfg op -> inf = info cfg op ->
  (forall tr, F tr -> forall op', In op' (before op) -> is_enabled cfg op' -> met b t l cfg tr op') ->
  triple (fun lo tr => inv (acts_until cfg op) lo tr /\ F tr /\ observed b t l cfg tr op m1 m2 tc sc)
    (yield_analysis cfg op inf m1 m2 tc sc)
    (fun a lo tr => inv (acts_until cfg op) lo tr /\ F tr /\ verdict tr op a).
Proof.
  intros SF EN -> FB. unfold yield_analysis. cbv zeta.
  assert (SFO : stable (fun tr => F tr /\ observed b t l cfg tr op m1 m2 tc sc)).
  { intros tr tr' [X1 X2]. split; [apply SF; exact X1|apply observed_stable; exact X2]. }
  destruct (worse_than tc (oc_max_time (cfg_of cfg op))) eqn:E1; [|destruct (worse_than sc (oc_max_space (cfg_of cfg op))) eqn:E2].
  - eapply triple_bind; [apply (triple_output (acts_until cfg op) _ (IAborted op Time (oc_max_time (cfg_of cfg op)) tc) SFO)|].
    intros _ lo tr0 s tr s' o (I & HF & O) E. inversion E; subst. rewrite app_nil_r. cbn [post].
    unfold mismatch. cbn [ce_operation ce_analysis ce_report ce_complexity ce_max].
    split; [exact EN|]. split; [apply I|]. split; [apply I|]. split; [apply FB; exact HF|].
    exists m1, m2, tc, sc. split; [exact O|]. apply worse_than_spec in E1. auto.
  - eapply triple_bind; [apply (triple_output (acts_until cfg op) _ (IAborted op Space (oc_max_space (cfg_of cfg op)) sc) SFO)|].
    intros _ lo tr0 s tr s' o (I & HF & O) E. inversion E; subst. rewrite app_nil_r. cbn [post].
    unfold mismatch. cbn [ce_operation ce_analysis ce_report ce_complexity ce_max].
    split; [exact EN|]. split; [apply I|]. split; [apply I|]. split; [apply FB; exact HF|].
    exists m1, m2, tc, sc. split; [exact O|]. apply worse_than_spec in E2. apply not_worse_than_spec in E1. auto.
  - apply triple_ret. intros lo tr (I & HF & O). split; [exact I|]. split; [exact HF|].
    unfold verdict, is_enabled in *. destruct (Z.ltb_spec 0 (iterations cfg op)); [|lia].
    exists m1, m2, tc, sc. apply not_worse_than_spec in E1. apply not_worse_than_spec in E2. auto.
Qed.

Lemma max_growth_ok m : well_formed m -> exists v, max_growth b m = Val v.
Proof.
  intros W. unfold max_growth, usize_sub. unfold well_formed in W. rewrite checked_in by lia. cbn [bind]. eexists; reflexivity.
Qed.
Lemma space_resizing_ok d m1 m2 : well_formed m1 -> well_formed m2 -> exists c, analyse_space_complexity_set_resizing b t l d m1 m2 = Val c.
Proof.
  intros W1 W2. unfold analyse_space_complexity_set_resizing. destruct (max_growth_ok m1 W1) as [v1 ->]. destruct (max_growth_ok m2 W2) as [v2 ->].
  cbn [bind]. eexists; reflexivity.
Qed.
Lemma space_constant_ok a c m1 m2 : well_formed m1 -> well_formed m2 -> exists x, analyse_space_complexity_constant_set b t l a c m1 m2 = Val x.
Proof.
  intros W1 W2. unfold analyse_space_complexity_constant_set. destruct (max_growth_ok m1 W1) as [v1 ->]. destruct (max_growth_ok m2 W2) as [v2 ->].
  cbn [bind]. eexists; reflexivity.
Qed.

Definition has_measure ph op (tr : list event) : Prop := is_enabled cfg op -> exists m, measurement tr ph op = Some m.
Lemma has_measure_stable ph op : stable (has_measure ph op).
Proof. intros tr tr' H E. destruct (H E) as [m M]. exists m. apply measurement_app. exact M. Qed.
Lemma and_stable F G : stable F -> stable G -> stable (fun tr => F tr /\ G tr).
Proof. intros H1 H2 tr tr' [X Y]. split; auto. Qed.

Lemma triple_exists {X A} (P : X -> locals -> list event -> Prop) (m : stmt A) Q :
  (forall x, triple (P x) m Q) -> triple (fun lo tr => exists x, P x lo tr) m Q.
Proof. intros H lo tr0 s tr s' o [x Hx] E. exact (H x lo tr0 s tr s' o Hx E). Qed.

(** a panic in the middle of an analysis: the acts done so far are those until [op] *)
Lemma until_prefix op : prefix (acts_until cfg op).
Proof.
  unfold prefix, all_acts.
  exists match op with
    | Create => pass_on cfg Second Read (block2 cfg Read) ++ pass_on cfg Second Update (block2 cfg Update) ++
              pass_on cfg Second Delete (backwards (block2 cfg Delete)) ++ pass_on cfg First Delete (backwards (block1 cfg Delete))
    | Read => pass_on cfg Second Update (block2 cfg Update) ++
              pass_on cfg Second Delete (backwards (block2 cfg Delete)) ++ pass_on cfg First Delete (backwards (block1 cfg Delete))
    | Update => pass_on cfg Second Delete (backwards (block2 cfg Delete)) ++ pass_on cfg First Delete (backwards (block1 cfg Delete))
    | Delete => [] end.
  destruct op; unfold acts_until; rewrite <- ?app_assoc, ?app_nil_r; reflexivity.
Qed.
Lemma fails_analysis op lo tr m1 m2 p : inv (acts_until cfg op) lo tr ->
  measurement tr First op = Some m1 -> measurement tr Second op = Some m2 ->
  ~ (usable cfg /\ sane m1 /\ sane m2) -> fails p tr.
Proof.
  intros I M1 M2 N. split; [rewrite (inv_acts _ _ _ I); apply until_prefix|]. intros [[U C] SM]. apply N.
  split; [exact U|]. split; eapply sane_measured; eassumption.
Qed.

Definition measured_both op m1 m2 (tr : list event) : Prop := measurement tr First op = Some m1 /\ measurement tr Second op = Some m2.
Lemma measured_both_stable op m1 m2 : stable (measured_both op m1 m2).
Proof. intros tr tr' [X Y]. split; apply measurement_app; assumption. Qed.

Lemma triple_loads {B} A F op m1 m2 (k : pass_result -> pass_result -> stmt B) Q :
  triple (fun lo tr => inv A lo tr /\ F tr /\ measured_both op m1 m2 tr) (k m1 m2) Q ->
  triple (fun lo tr => inv A lo tr /\ F tr /\ measured_both op m1 m2 tr)
    (sbind (load op 0%nat) (fun x => sbind (load op 1%nat) (fun y => k x y))) Q.
Proof.
  intros H. eapply triple_bind.
  { intros lo tr0 s tr s' o (I & HF & M1 & M2) E.
    refine (triple_load A (fun tr => F tr /\ measurement tr Second op = Some m2) op First m1 ltac:(discriminate) lo tr0 s tr s' o _ E). auto. }
  intros x. eapply triple_bind.
  { intros lo tr0 s tr s' o (Ex & I & (HF & M2) & M1) E.
    refine (triple_load A (fun tr => x = m1 /\ F tr /\ measurement tr First op = Some m1) op Second m2 ltac:(discriminate) lo tr0 s tr s' o _ E). auto. }
  intros y lo tr0 s tr s' o (-> & I & (-> & HF & M1) & M2) E.
  apply (fun X => H lo tr0 s tr s' o X E). split; [exact I|]. split; [exact HF|]. split; assumption.
Qed.

Lemma resizing_analysis F op m1 m2 :
  op = Create \/ op = Delete -> stable F -> is_enabled cfg op ->
  (forall tr, F tr -> forall op', In op' (before op) -> is_enabled cfg op' -> met b t l cfg tr op') ->
  triple (fun lo tr => inv (acts_until cfg op) lo tr /\ F tr /\ measured_both op m1 m2 tr)
    (sbind (slift (analyse_space_complexity_set_resizing b t l (iterations cfg op) (pr_space m1) (pr_space m2)))
       (fun sc => yield_analysis cfg op (SetResizingInfo (iterations cfg op)) m1 m2
          (analyse_time_complexity_set_resizing t l (iterations cfg op) (pr_time m1) (pr_time m2)) sc))
    (fun a lo tr => inv (acts_until cfg op) lo tr /\ F tr /\ verdict tr op a).
Proof.
  intros Hop SF EN FB. eapply triple_bind; [apply triple_lift|].
  - intros sc lo tr E (I & HF & M1 & M2). refine (conj I (conj HF (_ : observed b t l cfg tr op m1 m2 _ sc))).
    split; [exact M1|]. split; [exact M2|]. split; [reflexivity|]. destruct Hop as [-> | ->]; exact E.
  - intros lo tr p (I & HF & M1 & M2) N. apply (fails_analysis op lo tr m1 m2 p I M1 M2). intros (U & (_ & W1 & _) & (_ & W2 & _)).
    destruct (space_resizing_ok (iterations cfg op) _ _ W1 W2) as [c Hc]. apply (N c Hc).
  - intros sc.
    replace (observed_time t l cfg op m1 m2) with (analyse_time_complexity_set_resizing t l (iterations cfg op) (pr_time m1) (pr_time m2))
      by (destruct Hop as [-> | ->]; reflexivity).
    apply triple_yield; try assumption. destruct Hop as [-> | ->]; reflexivity.
Qed.

Lemma constant_analysis F op m1 m2 :
  op = Read \/ op = Update -> stable F -> is_enabled cfg op ->
  (forall tr, F tr -> forall op', In op' (before op) -> is_enabled cfg op' -> met b t l cfg tr op') ->
  triple (fun lo tr => inv (acts_until cfg op) lo tr /\ F tr /\ measured_both op m1 m2 tr)
    (sbind (slift (analyse_space_complexity_constant_set b t l (iterations cfg Create) (2 * iterations cfg Create) (pr_space m1) (pr_space m2)))
       (fun sc => yield_analysis cfg op (ConstantSetInfo (iterations cfg Create) (2 * iterations cfg Create) (iterations cfg op)) m1 m2
          (analyse_time_complexity_constant_set t l (iterations cfg Create) (2 * iterations cfg Create) (pr_time m1) (pr_time m2)) sc))
    (fun a lo tr => inv (acts_until cfg op) lo tr /\ F tr /\ verdict tr op a).
Proof.
  intros Hop SF EN FB. eapply triple_bind; [apply triple_lift|].
  - intros sc lo tr E (I & HF & M1 & M2). refine (conj I (conj HF (_ : observed b t l cfg tr op m1 m2 _ sc))).
    split; [exact M1|]. split; [exact M2|]. split; [reflexivity|]. destruct Hop as [-> | ->]; exact E.
  - intros lo tr p (I & HF & M1 & M2) N. apply (fails_analysis op lo tr m1 m2 p I M1 M2). intros (U & (_ & W1 & _) & (_ & W2 & _)).
    destruct (space_constant_ok (iterations cfg Create) (2 * iterations cfg Create) _ _ W1 W2) as [c Hc]. apply (N c Hc).
  - intros sc.
    replace (observed_time t l cfg op m1 m2) with (analyse_time_complexity_constant_set t l (iterations cfg Create) (2 * iterations cfg Create) (pr_time m1) (pr_time m2))
      by (destruct Hop as [-> | ->]; reflexivity).
    apply triple_yield; try assumption. destruct Hop as [-> | ->]; reflexivity.
Qed.

(** ** The passes *)
Lemma pass_on_disabled ph op r : iterations cfg op <= 0 -> pass_on cfg ph op r = [].
Proof. intros H. unfold pass_on, enabled_. destruct (Z.ltb_spec 0 (iterations cfg op)); [lia|reflexivity]. Qed.
Lemma pass_on_enabled ph op r : is_enabled cfg op -> pass_on cfg ph op r = [APass ph op r (oc_threads (cfg_of cfg op))].
Proof. unfold is_enabled. intros H. unfold pass_on, enabled_. destruct (Z.ltb_spec 0 (iterations cfg op)); [reflexivity|lia]. Qed.

Lemma resizing_quiet A F op suf pf rf last n r :
  stable F -> fresh (phase_of n) op A -> n = 0 \/ n = 1 -> n <> last ->
  prefix (A ++ pass_on cfg (phase_of n) op r) ->
  (forall v, rf (iterations cfg op) n = Val v -> v = r) ->
  (usable cfg -> is_enabled cfg op -> rf (iterations cfg op) n = Val r /\ fits b r) ->
  triple (fun lo tr => inv A lo tr /\ F tr) (run_set_resizing_pass b t l cfg op suf pf rf last n)
    (fun _ lo tr => inv (A ++ pass_on cfg (phase_of n) op r) lo tr /\ F tr /\ has_measure (phase_of n) op tr).
Proof.
  intros SF FR Hn NL PF RV RU. unfold run_set_resizing_pass. cbv zeta. change (oc_iterations (cfg_of cfg op)) with (iterations cfg op).
  destruct (Z.ltb_spec 0 (iterations cfg op)) as [EN|DIS].
  - rewrite pass_on_enabled in * by exact EN.
    apply triple_measured with (r := r); try assumption; try reflexivity.
    + intros U. destruct (RU U EN) as [R1 R2]. split; [exact R1|]. split; [exact R2|]. destruct U as [_ U]. apply U. exact EN.
    + intros x. destruct (Z.eqb_spec n last) as [X|X]; [contradiction|]. apply triple_ret. intros lo tr (I & HF & M).
      split; [exact I|]. split; [exact HF|]. intros _. eexists; exact M.
  - apply triple_ret. rewrite pass_on_disabled, app_nil_r by lia. intros lo tr [I HF]. split; [exact I|]. split; [exact HF|].
    intros EN. unfold is_enabled in EN. lia.
Qed.

Lemma constant_quiet A F op suf :
  stable F -> fresh First op A -> prefix (A ++ pass_on cfg First op (block1 cfg op)) ->
  triple (fun lo tr => inv A lo tr /\ F tr) (run_constant_set_pass b t l cfg op suf 0)
    (fun _ lo tr => inv (A ++ pass_on cfg First op (block1 cfg op)) lo tr /\ F tr /\ has_measure First op tr).
Proof.
  intros SF FR PF. unfold run_constant_set_pass. cbv zeta. change (oc_iterations (cfg_of cfg op)) with (iterations cfg op).
  destruct (Z.ltb_spec 0 (iterations cfg op)) as [EN|DIS].
  - rewrite pass_on_enabled in * by exact EN.
    apply triple_measured with (r := block1 cfg op) (ph := First); try assumption; try reflexivity; try (left; reflexivity).
    + intros v Hv. apply (cru_range op 0 v (or_introl eq_refl) Hv).
    + intros U. split; [apply (cru_range_ok op 0 (or_introl eq_refl)); destruct U as [U _]; apply U|]. split; [apply blocks_fit; assumption|].
      destruct U as [_ U]. apply U. exact EN.
    + intros x. cbn [Z.eqb Z.sub]. apply triple_ret. intros lo tr (I & HF & M).
      split; [exact I|]. split; [exact HF|]. intros _. eexists; exact M.
  - apply triple_ret. rewrite pass_on_disabled, app_nil_r by lia. intros lo tr [I HF]. split; [exact I|]. split; [exact HF|].
    intros EN. unfold is_enabled in EN. lia.
Qed.

Definition other (ph : phase) : phase := match ph with First => Second | _ => First end.
Lemma resizing_last A F op suf pf rf n r :
  op = Create \/ op = Delete ->
  stable F -> fresh (phase_of n) op A -> n = 0 \/ n = 1 ->
  A ++ pass_on cfg (phase_of n) op r = acts_until cfg op ->
  (forall v, rf (iterations cfg op) n = Val v -> v = r) ->
  (usable cfg -> is_enabled cfg op -> rf (iterations cfg op) n = Val r /\ fits b r) ->
  (forall tr, F tr -> forall op', In op' (before op) -> is_enabled cfg op' -> met b t l cfg tr op') ->
  triple (fun lo tr => inv A lo tr /\ F tr /\ has_measure (other (phase_of n)) op tr) (run_set_resizing_pass b t l cfg op suf pf rf n n)
    (fun a lo tr => inv (acts_until cfg op) lo tr /\ F tr /\ verdict tr op a).
Proof.
  intros Hop SF FR Hn EA RV RU FB. unfold run_set_resizing_pass. cbv zeta. change (oc_iterations (cfg_of cfg op)) with (iterations cfg op).
  destruct (Z.ltb_spec 0 (iterations cfg op)) as [EN|DIS].
  - rewrite pass_on_enabled in EA by exact EN.
    apply triple_measured with (r := r); try assumption; try reflexivity.
    + apply and_stable; [exact SF|apply has_measure_stable].
    + rewrite EA. apply until_prefix.
    + intros U. destruct (RU U EN) as [R1 R2]. split; [exact R1|]. split; [exact R2|]. destruct U as [_ U]. apply U. exact EN.
    + intros x. rewrite Z.eqb_refl, EA.
      eapply triple_conseq with (P := fun lo tr => exists m1, exists m2, inv (acts_until cfg op) lo tr /\ F tr /\ measured_both op m1 m2 tr);
        [|intros lo tr (I & (HF & HM) & M)|intros a lo tr X; exact X].
      * apply triple_exists. intros m1. apply triple_exists. intros m2.
        apply triple_loads. apply resizing_analysis; assumption.
      * destruct (HM EN) as [m' M']. destruct (phase_of n) eqn:EP; [unfold phase_of in EP; destruct (n =? 0); discriminate| |].
        -- exists (fst x), m'. split; [exact I|]. split; [exact HF|]. split; assumption.
        -- exists m', (fst x). split; [exact I|]. split; [exact HF|]. split; assumption.
  - apply triple_ret. rewrite pass_on_disabled, app_nil_r in EA by lia. subst A. intros lo tr (I & HF & _). split; [exact I|]. split; [exact HF|].
    unfold verdict. destruct (Z.ltb_spec 0 (iterations cfg op)); [lia|reflexivity].
Qed.

Lemma constant_last A F op suf :
  op = Read \/ op = Update ->
  stable F -> fresh Second op A ->
  A ++ pass_on cfg Second op (block2 cfg op) = acts_until cfg op ->
  (forall tr, F tr -> forall op', In op' (before op) -> is_enabled cfg op' -> met b t l cfg tr op') ->
  triple (fun lo tr => inv A lo tr /\ F tr /\ has_measure First op tr) (run_constant_set_pass b t l cfg op suf 1)
    (fun a lo tr => inv (acts_until cfg op) lo tr /\ F tr /\ verdict tr op a).
Proof.
  intros Hop SF FR EA FB. unfold run_constant_set_pass. cbv zeta. change (oc_iterations (cfg_of cfg op)) with (iterations cfg op).
  destruct (Z.ltb_spec 0 (iterations cfg op)) as [EN|DIS].
  - rewrite pass_on_enabled in EA by exact EN.
    apply triple_measured with (r := block2 cfg op) (ph := Second); try assumption; try reflexivity; try (right; reflexivity).
    + apply and_stable; [exact SF|apply has_measure_stable].
    + rewrite EA. apply until_prefix.
    + intros v Hv. apply (cru_range op 1 v (or_intror eq_refl) Hv).
    + intros U. split; [apply (cru_range_ok op 1 (or_intror eq_refl)); destruct U as [U _]; apply U|]. split; [apply blocks_fit; assumption|].
      destruct U as [_ U]. apply U. exact EN.
    + intros x. change (1 =? 2 - 1) with true. cbn iota. rewrite EA.
      eapply triple_bind with (Q := fun tw lo tr => tw = 2 * iterations cfg Create /\ exists m1, exists m2, inv (acts_until cfg op) lo tr /\ F tr /\ measured_both op m1 m2 tr).
      * apply triple_lift.
        -- intros tw lo tr E (I & (HF & HM) & M). split.
           ++ pose proof (cfg_iter Create). apply mul_val in E; [lia|lia|lia|]. intros NO. destruct (NO Create). lia.
           ++ destruct (HM EN) as [m' M']. exists m', (fst x). split; [exact I|]. split; [exact HF|]. split; assumption.
        -- intros lo tr p (I & (HF & HM) & M) N. split; [rewrite (inv_acts _ _ _ I); apply until_prefix|].
           intros [[[U _] _] _]. apply (N (iterations cfg Create * 2)). pose proof (cfg_iter Create). destruct (U Create). apply mul_ok; lia.
      * intros tw. intros lo tr0 s tr s' o [-> H] E.
        refine (triple_exists _ _ _ (fun m1 => triple_exists _ _ _ (fun m2 => triple_loads _ F op m1 m2 _ _ (constant_analysis F op m1 m2 Hop SF EN FB))) lo tr0 s tr s' o H E).
  - apply triple_ret. rewrite pass_on_disabled, app_nil_r in EA by lia. subst A. intros lo tr (I & HF & _). split; [exact I|]. split; [exact HF|].
    unfold verdict. destruct (Z.ltb_spec 0 (iterations cfg op)); [lia|reflexivity].
Qed.

(** ** The warm-up *)
Lemma warm_range_val op v : (e <- warmup_count b cfg (iterations cfg op) ;; Val e) = Val v -> v = warm cfg (iterations cfg op).
Proof.
  unfold warmup_count. intros H. apply bind_val in H. destruct H as (x & Hx & H). apply bind_val in Hx. destruct Hx as (y & Hy & Hx).
  apply val_inj in H. apply val_inj in Hx. subst. pose proof (cfg_iter op). destruct CFG as [[W _] _].
  apply mul_val in Hy; [subst; reflexivity|lia|lia|]. intros NO. apply NO.
Qed.
Lemma warmup_count_val op v : warmup_count b cfg (iterations cfg op) = Val v -> v = warm cfg (iterations cfg op).
Proof. intros H. apply warm_range_val. rewrite H. reflexivity. Qed.
Lemma warmup_count_ok op : usable cfg -> warmup_count b cfg (iterations cfg op) = Val (warm cfg (iterations cfg op)).
Proof.
  intros [U _]. unfold warmup_count. pose proof (cfg_iter op). destruct CFG as [[W _] _]. rewrite mul_ok; [reflexivity|lia|lia|apply U].
Qed.
Lemma warm_small op : usable cfg -> 0 <= warm cfg (iterations cfg op) < two31.
Proof.
  intros [U _]. destruct (U op) as [_ U2]. unfold warm. pose proof (cfg_iter op). destruct CFG as [[W _] _].
  rewrite two32_val, two31_val in *. split; [apply Z.div_pos; nia|]. apply Z.div_lt_upper_bound; lia.
Qed.

Lemma warm_pass A F op letter ty rf r :
  stable F -> prefix (A ++ pass_on cfg Warmup op r) ->
  (forall v, rf (iterations cfg op) = Val v -> v = r) ->
  (usable cfg -> rf (iterations cfg op) = Val r /\ fits b r) ->
  triple (fun lo tr => inv A lo tr /\ F tr) (warmup_pass cfg op letter ty rf)
    (fun _ lo tr => inv (A ++ pass_on cfg Warmup op r) lo tr /\ F tr).
Proof.
  intros SF PF RV RU. unfold warmup_pass. cbv zeta. change (oc_iterations (cfg_of cfg op)) with (iterations cfg op).
  destruct (Z.ltb_spec 0 (iterations cfg op)) as [EN|DIS].
  - rewrite pass_on_enabled in * by exact EN.
    apply triple_then; [exact SF|].
    apply triple_bind with (Q := fun r' lo tr => r' = r /\ inv A lo tr /\ F tr).
    { apply triple_lift.
      - intros a lo tr E [I HF]. split; [apply RV; exact E|split; assumption].
      - intros lo tr p [I HF] N. split; [rewrite (inv_acts _ _ _ I); apply (prefix_l _ _ PF)|].
        intros [[U C] SM]. apply RU in U. destruct U as [U _]. apply (N _ U). }
    intros r'. intros lo tr0 s tr s' o (-> & I & HF) E.
    unfold sbind, run_iterator_pass in E. cbn [pbind] in E. destruct I as [I1 I2 I3 I4].
    inversion E; subst.
    + match goal with X : exec b u (Ret _) _ _ _ _ |- _ => inversion X; subst end. cbn [post]. split; [|apply SF; exact HF].
      constructor; cbn [lo_results lo_report].
      * rewrite acts_app. reflexivity.
      * rewrite outputs_app, I2. cbn [outputs flat_map app]. rewrite app_nil_r. reflexivity.
      * exact I3.
      * intros o' ph' m' Hp' Em. rewrite measurement_other in Em by (intros [X _]; subst ph'; contradiction).
        rewrite app_nil_r in Em. auto.
    + cbn [post]. split.
      * rewrite acts_app. exact PF.
      * intros [[U CC] SM]. assert (U' := U). apply RU in U'. destruct U' as (_ & FT). destruct U as [_ U]. destruct (U op EN) as [_ HT].
        destruct CC as [C|[[C _]|C]]; [|apply Forall_app in C; destruct C as [_ C]; inversion C as [|? ? X Y]; contradiction|apply C; eapply pass_panics; eassumption].
        match goal with X : iterator_pass _ _ _ _ _ _ _ _ _ |- _ => destruct (pass_returns _ _ _ _ _ _ _ _ C FT HT X) as [v V]; discriminate end.
  - apply triple_ret. rewrite pass_on_disabled, app_nil_r by lia. auto.
Qed.

Ltac skip_ := let x := fresh in intros x; cbv beta; clear x.
Definition true_ (tr : list event) : Prop := True.
Lemma true_stable : stable true_. Proof. intros tr tr' H. exact I. Qed.

Ltac pfx := unfold prefix, all_acts, acts_until, first_acts; eexists; rewrite <- !app_assoc; reflexivity.

Lemma triple_warmup : triple (fun lo tr => inv [] lo tr /\ true_ tr) (warmup b cfg) (fun _ lo tr => inv (warmup_acts cfg) lo tr /\ true_ tr).
Proof.
  unfold warmup, warmup_acts. destruct (0 <? cc_warmup cfg) eqn:EW.
  2:{ apply triple_ret. auto. }
  assert (PW : forall A B, warmup_acts cfg = A ++ B -> prefix A).
  { intros A B E. unfold prefix, all_acts, acts_until. rewrite E. eexists. rewrite <- !app_assoc. reflexivity. }
  unfold warmup_acts in PW. rewrite EW in PW.
  assert (CR : forall op v, calc_warmup_cru_range b cfg (iterations cfg op) = Val v -> v = Range 0 (warm cfg (iterations cfg op))).
  { intros op v H. unfold calc_warmup_cru_range in H. apply bind_val in H. destruct H as (x & Hx & H). apply val_inj in H. subst v.
    apply warmup_count_val in Hx. subst x. reflexivity. }
  assert (CU : forall op, usable cfg -> calc_warmup_cru_range b cfg (iterations cfg op) = Val (Range 0 (warm cfg (iterations cfg op)))
     /\ fits b (Range 0 (warm cfg (iterations cfg op)))).
  { intros op U. unfold calc_warmup_cru_range. rewrite (warmup_count_ok op U). split; [reflexivity|].
    pose proof (warm_small op U). apply small_ranges_fit; cbn [r_start r_end]; [rewrite two31_val; lia|assumption]. }
  apply (triple_then [] true_ _ _ _ true_stable).
  eapply triple_bind; [apply (warm_pass [] true_ Create _ SetResizing _ (Range 0 (warm cfg (iterations cfg Create))) true_stable); [|exact (CR Create)|exact (CU Create)]|].
  { eapply PW. cbn [app]. reflexivity. }
  skip_. eapply triple_bind; [apply (warm_pass _ true_ Read _ ConstantSet _ (Range 0 (warm cfg (iterations cfg Read))) true_stable); [|exact (CR Read)|exact (CU Read)]|].
  { eapply PW. cbn [app]. rewrite <- !app_assoc. reflexivity. }
  skip_. eapply triple_bind; [apply (warm_pass _ true_ Update _ ConstantSet _ (Range 0 (warm cfg (iterations cfg Update))) true_stable); [|exact (CR Update)|exact (CU Update)]|].
  { eapply PW. cbn [app]. rewrite <- !app_assoc. reflexivity. }
  skip_. eapply triple_bind; [apply (warm_pass _ true_ Delete _ SetResizing _ (Range (warm cfg (iterations cfg Delete)) 0) true_stable)|].
  { eapply PW. cbn [app]. rewrite <- !app_assoc. reflexivity. }
  { intros v H. unfold calc_warmup_d_range in H. apply bind_val in H. destruct H as (x & Hx & H). apply val_inj in H. subst v.
    apply warmup_count_val in Hx. subst x. reflexivity. }
  { intros U. unfold calc_warmup_d_range. rewrite (warmup_count_ok Delete U). split; [reflexivity|].
    pose proof (warm_small Delete U). apply small_ranges_fit; cbn [r_start r_end]; [assumption|rewrite two31_val; lia]. }
  skip_. cbn [app].
  match goal with |- triple (fun lo tr => inv ?A lo tr /\ _) _ _ => set (AW := A) end.
  apply (triple_then AW true_ _ _ _ true_stable).
  assert (EAW : warmup_acts cfg = AW ++ [AReset (warm cfg (iterations cfg Create))]).
  { unfold warmup_acts, AW. rewrite EW. rewrite <- !app_assoc. reflexivity. }
  unfold warmup_acts in EAW. rewrite EW in EAW. rewrite EAW in *. 
  eapply triple_bind with (Q := fun n lo tr => n = warm cfg (iterations cfg Create) /\ inv AW lo tr).
  { apply triple_lift.
    - intros n lo tr E [I _]. split; [apply warmup_count_val; exact E|exact I].
    - intros lo tr p [I _] N. split; [rewrite (inv_acts _ _ _ I); eapply PW; reflexivity|].
      intros [[U _] _]. apply (N _ (warmup_count_ok Create U)). }
  intros n. match goal with |- triple _ _ (fun _ lo tr => inv ?A lo tr /\ _) => set (AW' := A) end.
  apply triple_bind with (Q := fun _ lo tr => inv AW' lo tr /\ true_ tr).
  2:{ skip_. apply triple_bind with (Q := fun _ lo tr => inv AW' lo tr /\ true_ tr).
      - intros lo tr0 s tr s' o H E. inversion E; subst. match goal with X : exec b u (Ret _) _ _ _ _ |- _ => inversion X; subst end.
        destruct H as [[I1 I2 I3 I4] _]. cbn [post]. split; [|exact Logic.I]. constructor.
        + rewrite acts_app, I1. cbn [acts flat_map act_of app]. apply app_nil_r.
        + rewrite outputs_app, I2. cbn [outputs flat_map app]. rewrite app_nil_r; reflexivity.
        + exact I3.
        + intros o' ph' m' Hp' Em. rewrite measurement_clock, app_nil_r in Em. auto.
      - intros d. apply triple_output. exact true_stable. }
  unfold AW'. intros lo tr0 s tr s' o [-> I] E. destruct I as [I1 I2 I3 I4]. inversion E; subst.
  - match goal with X : exec b u (Ret _) _ _ _ _ |- _ => inversion X; subst end. cbn [post]. split; [|exact Logic.I].
    constructor.
    + rewrite acts_app, I1. reflexivity.
    + rewrite outputs_app, I2. cbn [outputs flat_map app]. rewrite app_nil_r. reflexivity.
    + exact I3.
    + intros o' ph' m' Hp' Em. rewrite measurement_reset, app_nil_r in Em. auto.
  - cbn [post]. split.
    + rewrite acts_app, I1. eapply PW. cbn [acts flat_map act_of app]. rewrite app_nil_r. reflexivity.
    + intros [[_ [[_ C]|[[_ C]|C]]] _]; [|eapply C; reflexivity|apply C; reflexivity]. match goal with X : u_reset u s ?n = _ |- _ => pose proof (C s n) as CC; rewrite X in CC; apply CC; reflexivity end.
Qed.

(** ** Reports *)
Lemma display_ok op m1 m2 tc sc : usable cfg -> is_enabled cfg op -> sane m1 -> sane m2 ->
  exists r, display b (Analysis (info cfg op) m1 m2 tc sc) = Val r.
Proof.
  intros [U1 U2] EN (T1 & W1 & S1) (T2 & W2 & S2). destruct (U2 op EN) as [N31 _]. unfold is_enabled in EN.
  pose proof (cfg_iter op) as CI. destruct (space_display_ok b _ _ W1 W2 S1 S2) as [sd Esd].
  unfold display, analysis_display. cbv zeta. cbn [an_info an_pass_1 an_pass_2 an_time an_space].
  assert (R : exists rs, match info cfg op with
    | ConstantSetInfo s1 s2 reps => constant_set_rows b s1 s2 reps (pr_time m1) (pr_time m2) (pr_space m1) (pr_space m2)
    | SetResizingInfo delta => set_resizing_rows b delta (pr_time m1) (pr_time m2) (pr_space m1) (pr_space m2) end = Val rs).
  { destruct op; cbn [info].
    - apply set_resizing_rows_ok; try assumption. lia.
    - apply constant_set_rows_ok; try assumption. lia.
    - apply constant_set_rows_ok; try assumption. lia.
    - apply set_resizing_rows_ok; try assumption. lia. }
  destruct R as [rs ->]. cbn [bind]. rewrite Esd. cbn [bind]. eexists; reflexivity.
Qed.

Lemma report_rule A F op a : stable F -> prefix A -> (forall tr, F tr -> verdict tr op a) ->
  triple (fun lo tr => inv A lo tr /\ F tr) (report_analysis b cfg op a) (fun _ lo tr => inv A lo tr /\ F tr).
Proof.
  intros SF PF FV. unfold report_analysis. destruct (Z.ltb_spec 0 (iterations cfg op)) as [EN|DIS]; [|apply triple_ret; auto].
  intros lo tr0 s tr s' o [I HF] E. pose proof (FV tr0 HF) as V. unfold verdict in V.
  destruct (Z.ltb_spec 0 (iterations cfg op)) as [_|X]; [|lia]. destruct V as (m1 & m2 & tc & sc & O & _ & _ & ->).
  revert E. apply (fun T => T : triple (fun lo tr => inv A lo tr /\ (F tr /\ observed b t l cfg tr op m1 m2 tc sc)) _ (fun (_ : unit) lo tr => inv A lo tr /\ F tr)).
  - apply triple_bind with (Q := fun _ lo tr => inv A lo tr /\ F tr).
    + apply triple_lift; [tauto|]. intros lo1 tr1 p1 (I1 & HF1 & (M1 & M2 & _)) N. split; [rewrite (inv_acts _ _ _ I1); exact PF|].
      intros [[U _] SM]. destruct (display_ok op m1 m2 tc sc U EN (sane_measured _ _ _ _ SM M1) (sane_measured _ _ _ _ SM M2)) as [r R].
      apply (N r R).
    + intros r. apply triple_output. exact SF.
  - split; [exact I|]. split; [exact HF|exact O].
Qed.

(** ** The whole analysis *)
Lemma fresh_app ph op A B : fresh ph op A -> fresh ph op B -> fresh ph op (A ++ B).
Proof. intros H1 H2. apply Forall_app. split; assumption. Qed.
Lemma fresh_pass ph op ph' op' r : ~ (ph' = ph /\ op' = op) -> fresh ph op (pass_on cfg ph' op' r).
Proof. intros N. unfold fresh, pass_on, enabled_. destruct (0 <? _); [constructor; [exact N|constructor]|constructor]. Qed.
Lemma fresh_warmup ph op : ph <> Warmup -> fresh ph op (warmup_acts cfg).
Proof.
  intros H. unfold warmup_acts. destruct (0 <? cc_warmup cfg); [|constructor].
  repeat apply fresh_app; try (apply fresh_pass; intros [X _]; congruence).
  constructor; [exact (fun x => x)|constructor].
Qed.
Ltac frsh := repeat apply fresh_app; try (apply fresh_warmup; discriminate); apply fresh_pass; intros [X Y]; discriminate.

Definition W := warmup_acts cfg.
Definition C1 := pass_on cfg First Create (block1 cfg Create).
Definition R1 := pass_on cfg First Read (block1 cfg Read).
Definition U1 := pass_on cfg First Update (block1 cfg Update).
Definition C2 := pass_on cfg Second Create (block2 cfg Create).
Definition R2 := pass_on cfg Second Read (block2 cfg Read).
Definition U2 := pass_on cfg Second Update (block2 cfg Update).
Definition D2 := pass_on cfg Second Delete (backwards (block2 cfg Delete)).
Definition D1 := pass_on cfg First Delete (backwards (block1 cfg Delete)).
Ltac acts_eq := unfold prefix, all_acts, acts_until, first_acts; fold W C1 R1 U1 C2 R2 U2 D2 D1; rewrite <- ?app_assoc, ?app_nil_r; reflexivity.
Ltac pfx2 := unfold prefix, all_acts, acts_until, first_acts; fold W C1 R1 U1 C2 R2 U2 D2 D1; eexists; rewrite <- ?app_assoc; reflexivity.

Lemma create_facts n : n = 0 \/ n = 1 -> 
  (forall v, calc_regular_cru_range b (iterations cfg Create) n = Val v -> v = if n =? 0 then block1 cfg Create else block2 cfg Create)
  /\ (usable cfg -> is_enabled cfg Create -> calc_regular_cru_range b (iterations cfg Create) n = Val (if n =? 0 then block1 cfg Create else block2 cfg Create)
      /\ fits b (if n =? 0 then block1 cfg Create else block2 cfg Create)).
Proof.
  intros Hn. split; [intros v; apply cru_range; exact Hn|]. intros U EN. split; [apply cru_range_ok; [exact Hn|apply U]|].
  destruct (blocks_fit Create U EN) as (B1 & B2 & _). destruct (n =? 0); assumption.
Qed.
Lemma delete_facts n : n = 0 \/ n = 1 -> 
  (forall v, calc_regular_d_range b (iterations cfg Delete) n = Val v -> v = if n =? 0 then backwards (block1 cfg Delete) else backwards (block2 cfg Delete))
  /\ (usable cfg -> is_enabled cfg Delete -> calc_regular_d_range b (iterations cfg Delete) n = Val (if n =? 0 then backwards (block1 cfg Delete) else backwards (block2 cfg Delete))
      /\ fits b (if n =? 0 then backwards (block1 cfg Delete) else backwards (block2 cfg Delete))).
Proof.
  intros Hn. split; [intros v; apply d_range; exact Hn|]. intros U EN. split; [apply d_range_ok; [exact Hn|apply U]|].
  destruct (blocks_fit Delete U EN) as (_ & _ & B1 & B2). destruct (n =? 0); assumption.
Qed.

Lemma triple_delete F :
  stable F -> (forall tr, F tr -> forall op', In op' (before Delete) -> is_enabled cfg op' -> met b t l cfg tr op') ->
  triple (fun lo tr => inv (acts_until cfg Update) lo tr /\ F tr)
    (delete_passes b t l cfg)
    (fun a lo tr => inv (all_acts cfg) lo tr /\ F tr /\ verdict tr Delete a).
Proof.
  intros SF FB. unfold delete_passes. destruct (Z.ltb_spec 0 (iterations cfg Delete)) as [EN|DIS].
  - destruct (delete_facts 1 (or_intror eq_refl)) as [V1 K1]. destruct (delete_facts 0 (or_introl eq_refl)) as [V0 K0].
    cbn [Z.eqb] in V1, K1, V0, K0.
    apply triple_then; [exact SF|]. eapply triple_bind.
    { apply (resizing_quiet (acts_until cfg Update) F Delete _ _ _ 0 1 (backwards (block2 cfg Delete)) SF); auto; [|lia|].
      - unfold acts_until, first_acts. frsh.
      - change (phase_of 1) with Second. pfx2. }
    skip_. change (phase_of 1) with Second. eapply triple_bind.
    { apply (resizing_last _ F Delete _ _ _ 0 (backwards (block1 cfg Delete)) (or_intror eq_refl) SF); auto.
      - change (phase_of 0) with First. unfold acts_until, first_acts. frsh.
      - change (phase_of 0) with First. acts_eq. }
    intros a. eapply triple_bind with (Q := fun _ lo tr => inv (all_acts cfg) lo tr /\ (F tr /\ verdict tr Delete a)).
    { intros lo tr0 s tr s' o H E. refine (triple_output (all_acts cfg) (fun tr => F tr /\ verdict tr Delete a) _ _ lo tr0 s tr s' o H E).
      apply and_stable; [exact SF|apply verdict_stable]. }
    skip_. eapply triple_bind; [apply (report_rule (all_acts cfg) (fun tr => F tr /\ verdict tr Delete a) Delete a)|].
    + apply and_stable; [exact SF|apply verdict_stable].
    + exists []. rewrite app_nil_r. reflexivity.
    + intros tr H. apply H.
    + skip_. apply triple_ret. auto.
  - apply triple_ret. intros lo tr [I HF].
    replace (all_acts cfg) with (acts_until cfg Update).
    + split; [exact I|]. split; [exact HF|]. unfold verdict. destruct (Z.ltb_spec 0 (iterations cfg Delete)); [lia|reflexivity].
    + unfold all_acts, acts_until. rewrite !(pass_on_disabled _ Delete) by lia. rewrite !app_nil_r. reflexivity.
Qed.

Definition complete (r : crud_result) (lo : locals) (tr : list event) : Prop :=
  acts tr = all_acts cfg /\ cr_report r = outputs tr /\ forall op, verdict tr op (analysis_of r op).

(** after the passes of the creates, reads and updates *)
Definition cru_done (x : option analysis * option analysis * option analysis) (tr : list event) : Prop :=
  (verdict tr Create (fst (fst x)) /\ verdict tr Read (snd (fst x))) /\ verdict tr Update (snd x).
Lemma cru_done_stable x : stable (cru_done x).
Proof. apply and_stable; [apply and_stable|]; apply verdict_stable. Qed.
Theorem triple_cru : triple (fun lo tr => lo = locals_init /\ tr = []) (cru_passes b t l cfg)
  (fun x lo tr => inv (acts_until cfg Update) lo tr /\ cru_done x tr).
Proof.
  unfold cru_passes.
  destruct (create_facts 1 (or_intror eq_refl)) as [V1 K1]. destruct (create_facts 0 (or_introl eq_refl)) as [V0 K0].
  cbn [Z.eqb] in V1, K1, V0, K0.
  apply triple_conseq with (P := fun lo tr => inv [] lo tr /\ true_ tr) (Q := fun x lo tr => inv (acts_until cfg Update) lo tr /\ cru_done x tr); [| |intros a lo tr H; exact H].
  2:{ intros lo tr [-> ->]. split; [|exact I]. constructor; try reflexivity. intros op ph m _ E. discriminate E. }
  apply (triple_then [] true_ _ _ _ true_stable).
  eapply triple_bind; [apply triple_warmup|].
  fold W. skip_. apply (triple_then W true_ _ _ _ true_stable). eapply triple_bind.
  { apply (resizing_quiet W true_ Create _ _ _ (2 - 1) 0 (block1 cfg Create) true_stable); auto; try lia.
    - apply fresh_warmup. discriminate.
    - change (phase_of 0) with First. fold C1. pfx2. }
  change (phase_of 0) with First. fold C1. skip_. eapply triple_bind.
  { apply (constant_quiet (W ++ C1) (fun tr => true_ tr /\ has_measure First Create tr) Read _).
    - apply and_stable; [exact true_stable|apply has_measure_stable].
    - frsh.
    - fold R1. pfx2. }
  fold R1. skip_. eapply triple_bind.
  { apply (triple_conseq (fun lo tr => inv ((W ++ C1) ++ R1) lo tr /\ ((true_ tr /\ has_measure First Create tr) /\ has_measure First Read tr)) _ _ _ _
      (constant_quiet ((W ++ C1) ++ R1) (fun tr => (true_ tr /\ has_measure First Create tr) /\ has_measure First Read tr) Update _
         (and_stable _ _ (and_stable _ _ true_stable (has_measure_stable First Create)) (has_measure_stable First Read))
         ltac:(frsh) ltac:(fold U1; pfx2))); auto. intros a lo tr H. exact H. }
  fold U1. skip_.
  pose (FM := fun tr => has_measure First Read tr /\ has_measure First Update tr).
  assert (SFM : stable FM) by (apply and_stable; apply has_measure_stable).
  apply (triple_then (((W ++ C1) ++ R1) ++ U1) (fun tr => ((true_ tr /\ has_measure First Create tr) /\ has_measure First Read tr) /\ has_measure First Update tr)).
  { repeat apply and_stable; try apply has_measure_stable. exact true_stable. }
  eapply triple_bind.
  { eapply triple_conseq.
    - apply (resizing_last (((W ++ C1) ++ R1) ++ U1) FM Create _ _ _ 1 (block2 cfg Create) (or_introl eq_refl) SFM); auto.
      + change (phase_of 1) with Second. frsh.
      + change (phase_of 1) with Second. acts_eq.
      + intros tr _ op' [].
    - intros lo tr (I & ((_ & H1) & H2) & H3). exact (conj I (conj (conj H2 H3) H1)).
    - intros a lo tr H. exact H. }
  intros ca.
  pose (F4 := fun tr => has_measure First Update tr /\ verdict tr Create ca).
  assert (SF4 : stable F4) by (apply and_stable; [apply has_measure_stable|apply verdict_stable]).
  eapply triple_bind.
  { eapply triple_conseq.
    - apply (constant_last (acts_until cfg Create) F4 Read _ (or_introl eq_refl) SF4).
      + unfold acts_until, first_acts. rewrite app_nil_r. frsh.
      + acts_eq.
      + intros tr [_ V] op' [<-|[]] EN. apply (verdict_met _ _ _ V EN).
    - intros lo tr (I & (H1 & H2) & H3). exact (conj I (conj (conj H2 H3) H1)).
    - intros a lo tr H. exact H. }
  intros ra.
  pose (F5 := fun tr => verdict tr Create ca /\ verdict tr Read ra).
  assert (SF5 : stable F5) by (apply and_stable; apply verdict_stable).
  eapply triple_bind.
  { eapply triple_conseq.
    - apply (constant_last (acts_until cfg Read) F5 Update _ (or_intror eq_refl) SF5).
      + unfold acts_until, first_acts. frsh.
      + acts_eq.
      + intros tr [V1' V2'] op' [<-|[<-|[]]] EN; [apply (verdict_met _ _ _ V1' EN)|apply (verdict_met _ _ _ V2' EN)].
    - intros lo tr (I & (H1 & H2) & H3). exact (conj I (conj (conj H2 H3) H1)).
    - intros a lo tr H. exact H. }
  intros ua.
  pose (F6 := fun tr => F5 tr /\ verdict tr Update ua).
  assert (SF6 : stable F6) by (apply and_stable; [exact SF5|apply verdict_stable]).
  apply (triple_then (acts_until cfg Update) F6 _ _ _ SF6).
  apply triple_ret. intros lo tr [I H]. exact (conj I H).
Qed.
Theorem triple_body : triple (fun lo tr => lo = locals_init /\ tr = []) (internal_body b t l cfg) complete.
Proof.
  unfold internal_body. eapply triple_bind; [exact triple_cru|]. intros [[ca ra] ua].
  pose (F6 := cru_done (ca, ra, ua)). assert (SF6 : stable F6) by apply cru_done_stable.
  fold F6.
  assert (PU : prefix (acts_until cfg Update)) by apply until_prefix.
  eapply triple_bind; [apply (report_rule (acts_until cfg Update) F6 Create ca SF6 PU); intros tr [[H _] _]; exact H|]. skip_.
  eapply triple_bind; [apply (report_rule (acts_until cfg Update) F6 Read ra SF6 PU); intros tr [[_ H] _]; exact H|]. skip_.
  eapply triple_bind; [apply (report_rule (acts_until cfg Update) F6 Update ua SF6 PU); intros tr [_ H]; exact H|]. skip_.
  eapply triple_bind; [apply (triple_delete F6 SF6)|].
  { intros tr [[VC VR] VU] op' [<-|[<-|[<-|[]]]] EN; eapply verdict_met; eassumption. }
  intros da lo tr0 s tr s' o (I & [[VC VR] VU] & VD) E. inversion E; subst. rewrite app_nil_r. cbn [post].
  split; [apply I|]. split; [apply I|]. intros []; assumption.
Qed.
End Logic.
