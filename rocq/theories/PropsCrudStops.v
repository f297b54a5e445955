(** * C106, interrupted: what a CRUD analysis has printed when a closure panics. *)
From Coq Require Import ZArith Reals String Ascii List Bool Lia.
From Verif Require Import Machine Complexity Analysis AnalysisF64d AllocSpec IterPass IterSpec IterPassProofs PropsIter Report ReportProofs Crud CrudMsg CrudSpec CrudProofs CrudMain CrudRetry PropsCrud CrudNumber TextProofs
  PropsCrudMsg FormatProofs Format ReadSpec ReportText ReportTextSpec PropsReport PropsReportText RunTextSpec PropsStdText CrudText PropsCrudText Demo.
Import ListNotations.
Open Scope list_scope.
Open Scope Z_scope.

(** ** Specification *)
(** the operations up to and including [op], in the order of the warm-up *)
Definition through (op : operation) : list operation :=
  match op with Create => [Create] | Read => [Create; Read] | Update => [Create; Read; Update] | Delete => [Create; Read; Update; Delete] end.
(** a finished pass, and a comma because another one was running *)
Definition then_comma (tr : list event) (ph : phase) (op : operation) (txt : string) : Prop :=
  exists P, txt = (P ++ ", ")%string /\ introduced tr ph op P.
(** what has been printed when the pass [ph] of [op] panics; [tr] is what happened before that pass ended *)
Definition interrupted_says b t l cfg (tr : list event) (ph : phase) (op : operation) (txt : string) : Prop :=
  match ph, op with
  | Warmup, op => txt = (heading cfg ++ "warming up [" ++ String.concat "" (map letter (only_enabled cfg (through op))))%string
  | Second, Delete => exists C, txt = (C ++ "Delete Passes (")%string /\ cru_says b t l cfg tr C
  | First, Delete => exists C P, txt = (C ++ "Delete Passes (2nd: " ++ P)%string /\ cru_says b t l cfg tr C /\ pass_says tr Second Delete P
  | First, op => exists W Ps, txt = (heading cfg ++ W ++ "First Pass (" ++ String.concat "" Ps)%string /\ warmup_says cfg tr W /\
                   Forall2 (then_comma tr First) (only_enabled cfg (before op)) Ps
  | Second, op => exists H Ps, txt = (H ++ String.concat "" Ps)%string /\ first_says cfg tr H /\
                   Forall2 (then_comma tr Second) (only_enabled cfg (before op)) Ps
  end.
(** ... and when the [reset_fn] of the warm-up panics *)
Definition reset_interrupted_says cfg (txt : string) : Prop :=
  txt = (heading cfg ++ "warming up [" ++ String.concat "" (map letter (only_enabled cfg [Create; Read; Update; Delete])) ++ "] ")%string.

(** ** Proofs *)
Definition cutting (e : event) : Prop := match e with EvPass _ _ _ _ _ None => True | EvReset _ => True | _ => False end.
Lemma app_last {A} (l1 l2 : list A) x e : l1 ++ l2 = x ++ [e] -> (l2 = [] /\ l1 = x ++ [e]) \/ exists y, l2 = y ++ [e] /\ x = l1 ++ y.
Proof.
  intros H. destruct l2 as [|a l2] using rev_ind; [left; rewrite app_nil_r in H; auto|]. right. clear IHl2.
  rewrite app_assoc in H. apply app_inj_tail in H. destruct H as [H ->]. exists l2. auto.
Qed.
Section Stops.
Context {S : Type}.
Variables (b : build) (t : tolerance) (l : libm) (u : user S) (cfg : crud_cfg).
Variable TR : list event.
Hypothesis SANE : sane_measurements TR.
Local Notation says := (says b u TR).

(** a statement that returns does not end with a reset *)
Definition settled {A} (m : stmt A) : Prop := forall lo s tr s' x n, ~ exec b u (m lo) s (tr ++ [EvReset n]) s' (Val x).
Lemma settled_bind {A B} (m : stmt A) (k : A -> stmt B) : settled m -> (forall a, settled (k a)) -> settled (sbind m k).
Proof.
  intros H1 H2 lo s tr s' x n E. unfold sbind in E. apply exec_pbind in E. destruct E as [(y & tr1 & s1 & tr2 & E1 & E2 & ET)|(p & _ & Y)]; [|discriminate].
  symmetry in ET. apply app_last in ET. destruct ET as [[-> ->]|(z & -> & ->)]; [exact (H1 _ _ _ _ _ _ E1)|].
  destruct y as [[a lo']|e]; [exact (H2 _ _ _ _ _ _ _ E2)|]. inversion E2. destruct z; discriminate.
Qed.
Definition silent_stmt {A} (m : stmt A) : Prop := forall lo s tr s' o, exec b u (m lo) s tr s' o -> tr = [].
Lemma settled_silent {A} (m : stmt A) : silent_stmt m -> settled m.
Proof. intros H lo s tr s' x n E. apply H in E. destruct tr; discriminate. Qed.
Lemma silent_ret {A} (a : A) : silent_stmt (sret a).
Proof. intros lo s tr s' o E. inversion E; reflexivity. Qed.
Lemma silent_lift {A} (m : res A) : silent_stmt (slift m).
Proof. intros lo s tr s' o E. unfold slift, lift in E. destruct m; cbn [pbind] in E; inversion E; reflexivity. Qed.
Lemma silent_store op n m v : silent_stmt (store op n m v).
Proof. intros lo s tr s' o E. inversion E; reflexivity. Qed.
Lemma silent_load op i : silent_stmt (load op i).
Proof. intros lo s tr s' o E. unfold load in E. destruct (nth_error _ _); inversion E; reflexivity. Qed.
Lemma settled_output i : settled (output_ i).
Proof.
  intros lo s tr s' x n E. unfold output_ in E. inversion E; subst. match goal with H : exec _ _ (Ret _) _ _ _ _ |- _ => inversion H; subst end.
  destruct tr as [|? [|]]; discriminate.
Qed.
Lemma settled_pass ph op ty r T : settled (run_iterator_pass ph op ty r T).
Proof.
  intros lo s tr s' x n E. unfold run_iterator_pass in E. inversion E; subst. match goal with H : exec _ _ (Ret _) _ _ _ _ |- _ => inversion H; subst end.
  destruct tr as [|? [|]]; discriminate.
Qed.
Lemma settled_yield op i m1 m2 tc sc : settled (yield_analysis cfg op i m1 m2 tc sc).
Proof.
  unfold yield_analysis. cbv zeta.
  assert (K : forall w mx c, settled (sbind (output_ (IAborted op w mx c)) (fun _ lo => Ret (inr (CrudError op w c mx (lo_report lo)))) : stmt (option analysis))).
  { intros. apply settled_bind; [apply settled_output|]. intros a lo s tr s' x n E. inversion E. destruct tr; discriminate. }
  destruct (worse_than tc _); [apply K|]. destruct (worse_than sc _); [apply K|apply settled_silent, silent_ret].
Qed.
Ltac settle := repeat first
  [ apply settled_bind; [|intros ?]
  | apply settled_output | apply settled_pass | apply settled_yield
  | apply settled_silent, silent_ret | apply settled_silent, silent_lift | apply settled_silent, silent_store | apply settled_silent, silent_load
  | match goal with |- settled (if ?c then _ else _) => destruct c end ].

(** ends in a cut: [Z] of the cut and of the text *)
Definition stops {A} (m : stmt A) (Z : event -> string -> Prop) : Prop :=
  forall lo s tr e s' p, exec b u (m lo) s (tr ++ [e]) s' (Panic p) -> cutting e -> incl tr TR -> Z e (crud_printed tr).
Definition never : event -> string -> Prop := fun _ _ => False.
Lemma stops_weak {A} (m : stmt A) (Z Z' : event -> string -> Prop) : stops m Z -> (forall e x, Z e x -> Z' e x) -> stops m Z'.
Proof. intros H W lo s tr e s' p E C I. eauto. Qed.
Lemma exec_val_cut {A} (m : prog A) s tr s' x e : exec b u m s tr s' (Val x) -> In e tr -> cutting e -> exists n, e = EvReset n.
Proof.
  intros E I C. pose proof (exec_measured b u m s tr s' (Val x) E ltac:(discriminate)) as F. rewrite Forall_forall in F. specialize (F _ I).
  destruct e as [ph op r T log [m0|]|n|i|d]; cbn in *; try contradiction; try (exfalso; apply F; reflexivity); eauto.
Qed.
Lemma stops_bind {A B} (m : stmt A) (k : A -> stmt B) Z1 P E1 Z2 :
  settled m -> stops m Z1 -> says m (fun _ => P) E1 -> (forall a, stops (k a) Z2) ->
  stops (sbind m k) (fun e txt => Z1 e txt \/ exists x y, txt = (x ++ y)%string /\ P x /\ Z2 e y).
Proof.
  intros ST S1 SA S2 lo s tr e s' p E C I. unfold sbind in E. apply exec_pbind in E. destruct E as [(y & tr1 & s1 & tr2 & X1 & X2 & ET)|(q & X & Y)].
  - symmetry in ET. apply app_last in ET. destruct ET as [[-> ->]|(z & -> & ->)].
    + exfalso. destruct (exec_val_cut _ _ _ _ _ e X1 ltac:(apply in_or_app; right; left; reflexivity) C) as [n ->]. exact (ST _ _ _ _ _ _ X1).
    + apply app_in in I. destruct I as [I1 I2]. specialize (SA _ _ _ _ _ X1 I1). destruct y as [[a lo']|er]; [|inversion X2].
      right. rewrite printed_app. eexists _, _. split; [reflexivity|]. split; [exact SA|]. exact (S2 _ _ _ _ _ _ _ X2 C I2).
  - left. injection Y as <-. exact (S1 _ _ _ _ _ _ X C I).
Qed.
(** what comes first cannot be cut *)
Lemma stops_then {A B} (m : stmt A) (k : A -> stmt B) P E1 Z2 :
  settled m -> stops m never -> says m (fun _ => P) E1 -> (forall a, stops (k a) Z2) ->
  stops (sbind m k) (fun e txt => exists x y, txt = (x ++ y)%string /\ P x /\ Z2 e y).
Proof. intros H1 H2 H3 H4. eapply stops_weak; [exact (stops_bind m k _ P E1 _ H1 H2 H3 H4)|]. intros e x [[]|H]; exact H. Qed.
Lemma stops_silent {A} (m : stmt A) : silent_stmt m -> stops m never.
Proof. intros H lo s tr e s' p E. apply H in E. destruct tr; discriminate. Qed.
Lemma stops_after_silent {A B} (m : stmt A) (k : A -> stmt B) Z : silent_stmt m -> (forall a, stops (k a) Z) -> stops (sbind m k) Z.
Proof.
  intros H1 H2 lo s tr e s' p E C I. unfold sbind in E. apply exec_pbind in E. destruct E as [(y & tr1 & s1 & tr2 & X1 & X2 & ET)|(q & X & Y)].
  - apply H1 in X1. subst tr1. cbn [app] in ET. subst tr2. destruct y as [[a lo']|er]; [exact (H2 _ _ _ _ _ _ _ X2 C I)|inversion X2].
  - apply H1 in X. destruct tr; discriminate.
Qed.
Lemma stops_output i : stops (output_ i) never.
Proof. intros lo s tr e s' p E. unfold output_ in E. inversion E; subst. match goal with H : exec _ _ (Ret _) _ _ _ _ |- _ => inversion H end. Qed.
(** the pass [ph] of [op] is what was cut *)
Definition pass_cut ph op (e : event) : Prop := exists r T log, e = EvPass ph op r T log None.
Lemma stops_pass ph op ty r T : stops (run_iterator_pass ph op ty r T) (fun e x => pass_cut ph op e /\ x = ""%string).
Proof.
  intros lo s tr e s' p E C I. unfold run_iterator_pass in E. inversion E; subst.
  - match goal with H : exec _ _ (Ret _) _ _ _ _ |- _ => inversion H end.
  - destruct tr as [|? [|]]; try discriminate. cbn [app] in *. match goal with H : [_] = [_] |- _ => injection H as <- end. split; [eexists _, _, _; reflexivity|reflexivity].
Qed.
Lemma stops_verbose ph op pre suf ty r T : stops (run_iterator_pass_verbosely b ph op pre suf ty r T) (fun e x => pass_cut ph op e /\ x = ""%string).
Proof.
  unfold run_iterator_pass_verbosely. eapply stops_weak.
  - eapply stops_bind with (P := fun _ => True) (Z2 := never) (E1 := fun _ _ => True); [apply settled_pass|apply stops_pass|..].
    + eapply says_weak; [apply says_pass|auto|auto].
    + intros x. apply stops_after_silent; [apply silent_lift|]. intros c.
      eapply stops_weak; [eapply stops_then with (P := fun _ => True) (E1 := fun _ _ => True) (Z2 := never); [apply settled_output|apply stops_output|..]|].
      * eapply says_weak; [apply says_output|auto|auto].
      * intros ?. apply stops_silent, silent_ret.
      * intros e y (p & q & _ & _ & []).
  - intros e x [H|(p & q & _ & _ & [])]. exact H.
Qed.
Lemma stops_yield op i m1 m2 tc sc : stops (yield_analysis cfg op i m1 m2 tc sc) never.
Proof.
  unfold yield_analysis. cbv zeta. assert (K : forall w mx c, stops (sbind (output_ (IAborted op w mx c)) (fun _ lo => Ret (inr (CrudError op w c mx (lo_report lo)))) : stmt (option analysis)) never).
  { intros w mx c lo s tr e s' p E. unfold sbind, output_ in E. cbn [pbind] in E. inversion E; subst. match goal with H : exec _ _ (Ret _) _ _ _ _ |- _ => inversion H end. }
  destruct (worse_than tc _); [apply K|]. destruct (worse_than sc _); [apply K|apply stops_silent, silent_ret].
Qed.
Lemma stops_constant op suf n :
  stops (run_constant_set_pass b t l cfg op suf n) (fun e x => (0 <? iterations cfg op) = true /\ pass_cut (phase_of n) op e /\ x = ""%string).
Proof.
  unfold run_constant_set_pass. cbv zeta. change (oc_iterations (cfg_of cfg op)) with (iterations cfg op).
  destruct (0 <? iterations cfg op); [|eapply stops_weak; [apply stops_silent, silent_ret|intros ? ? []]].
  apply stops_after_silent; [apply silent_lift|]. intros r. eapply stops_weak.
  - eapply stops_bind with (P := fun _ => True) (Z2 := never) (E1 := fun _ _ => True); [unfold run_iterator_pass_verbosely; settle|apply stops_verbose|..].
    + eapply says_weak; [apply says_verbose; exact SANE|auto|auto].
    + intros x. apply stops_after_silent; [apply silent_store|]. intros ?. destruct (n =? 2 - 1); [|apply stops_silent, silent_ret].
      apply stops_after_silent; [apply silent_lift|]. intros tw. apply stops_after_silent; [apply silent_load|]. intros m1. apply stops_after_silent; [apply silent_load|]. intros m2.
      apply stops_after_silent; [apply silent_lift|]. intros sc. apply stops_yield.
  - intros e x [H|(p & q & _ & _ & [])]. split; [reflexivity|exact H].
Qed.
Lemma stops_resizing op suf pf rf lst n :
  stops (run_set_resizing_pass b t l cfg op suf pf rf lst n) (fun e x => (0 <? iterations cfg op) = true /\ pass_cut (phase_of n) op e /\ x = ""%string).
Proof.
  unfold run_set_resizing_pass. cbv zeta. change (oc_iterations (cfg_of cfg op)) with (iterations cfg op).
  destruct (0 <? iterations cfg op); [|eapply stops_weak; [apply stops_silent, silent_ret|intros ? ? []]].
  apply stops_after_silent; [apply silent_lift|]. intros r. eapply stops_weak.
  - eapply stops_bind with (P := fun _ => True) (Z2 := never) (E1 := fun _ _ => True); [unfold run_iterator_pass_verbosely; settle|apply stops_verbose|..].
    + eapply says_weak; [apply says_verbose; exact SANE|auto|auto].
    + intros x. apply stops_after_silent; [apply silent_store|]. intros ?. destruct (n =? lst); [|apply stops_silent, silent_ret].
      apply stops_after_silent; [apply silent_load|]. intros m1. apply stops_after_silent; [apply silent_load|]. intros m2.
      apply stops_after_silent; [apply silent_lift|]. intros sc. apply stops_yield.
  - intros e x [H|(p & q & _ & _ & [])]. split; [reflexivity|exact H].
Qed.
Lemma settled_constant op suf n : settled (run_constant_set_pass b t l cfg op suf n).
Proof. unfold run_constant_set_pass, run_iterator_pass_verbosely. cbv zeta. settle. Qed.
Lemma settled_resizing op suf pf rf lst n : settled (run_set_resizing_pass b t l cfg op suf pf rf lst n).
Proof. unfold run_set_resizing_pass, run_iterator_pass_verbosely. cbv zeta. settle. Qed.
Lemma settled_warm op c ty rf : settled (warmup_pass cfg op c ty rf).
Proof.
  unfold warmup_pass. cbv zeta. destruct (0 <? _); settle.
  apply settled_silent. intros lo s tr s' o E. inversion E; reflexivity.
Qed.
Lemma stops_warm op c ty rf : stops (warmup_pass cfg op c ty rf) (fun e x => (0 <? iterations cfg op) = true /\ pass_cut Warmup op e /\ x = c).
Proof.
  unfold warmup_pass. cbv zeta. change (oc_iterations (cfg_of cfg op)) with (iterations cfg op).
  destruct (0 <? iterations cfg op); [|eapply stops_weak; [apply stops_silent, silent_ret|intros ? ? []]].
  eapply stops_weak.
  - eapply stops_then with (Z2 := fun e x => pass_cut Warmup op e /\ x = ""%string); [apply settled_output|apply stops_output|apply says_text|]. intros ?.
    apply stops_after_silent; [apply silent_lift|]. intros r. eapply stops_weak.
    + eapply stops_bind with (P := fun _ => True) (Z2 := never) (E1 := fun _ _ => True); [apply settled_pass|apply stops_pass|..].
      * eapply says_weak; [apply says_pass|auto|auto].
      * intros x. apply stops_silent. intros lo s tr s' o E. inversion E; reflexivity.
    + intros e x [H|(p & q & _ & _ & [])]. exact H.
  - intros e x (p & q & -> & -> & PC & ->). split; [reflexivity|]. split; [exact PC|apply str_app_nil].
Qed.
Definition warmup_cut (e : event) (txt : string) : Prop :=
  (exists op, pass_cut Warmup op e /\ txt = ("warming up [" ++ String.concat "" (map letter (only_enabled cfg (through op))))%string) \/
  ((exists n, e = EvReset n) /\ txt = ("warming up [" ++ String.concat "" (map letter (only_enabled cfg [Create; Read; Update; Delete])) ++ "] ")%string).
Lemma stops_warmup : stops (warmup b cfg) (fun e x => (0 <? cc_warmup cfg) = true /\ warmup_cut e x).
Proof.
  unfold warmup. destruct (0 <? cc_warmup cfg); [|eapply stops_weak; [apply stops_silent, silent_ret|intros ? ? []]].
  eapply stops_weak.
  - eapply stops_then; [apply settled_output|apply stops_output|apply says_text|]. intros ?.
    eapply stops_bind; [apply settled_warm|apply stops_warm|apply says_warm|]. intros ?.
    eapply stops_bind; [apply settled_warm|apply stops_warm|apply says_warm|]. intros ?.
    eapply stops_bind; [apply settled_warm|apply stops_warm|apply says_warm|]. intros ?.
    eapply stops_bind; [apply settled_warm|apply stops_warm|apply says_warm|]. intros ?.
    eapply stops_then; [apply settled_output|apply stops_output|apply says_text|]. intros ?.
    apply stops_after_silent; [apply silent_lift|]. intros n.
    intros lo s tr e s' p E C I. instantiate (1 := fun e x => (exists n, e = EvReset n) /\ x = ""%string). cbv beta.
    unfold sbind in E. cbn [pbind] in E. inversion E; subst.
    + exfalso. match goal with H : exec _ _ (Clock _) _ _ _ _ |- _ => inversion H; subst end.
      match goal with H : exec _ _ (output_ _ _) _ _ _ _ |- _ => unfold output_ in H; inversion H; subst end.
      match goal with H : exec _ _ (Ret _) _ _ _ _ |- _ => inversion H end.
    + destruct tr as [|? [|]]; try discriminate. cbn [app] in *. match goal with H : [_] = [_] |- _ => injection H as <- end. split; [eauto|reflexivity].
  - intros e txt (x0 & y0 & -> & -> & H). split; [reflexivity|].
    assert (L : forall op c, c = letter op -> (if (0 <? iterations cfg op)%Z then c else ""%string) = String.concat "" (map letter (only_enabled cfg [op]))).
    { intros op c ->. unfold only_enabled. cbn [filter]. destruct (0 <? iterations cfg op); reflexivity. }
    assert (J : forall o1 o2, String.concat "" (map letter (only_enabled cfg (o1 ++ o2))) = (String.concat "" (map letter (only_enabled cfg o1)) ++ String.concat "" (map letter (only_enabled cfg o2)))%string).
    { intros o1 o2. unfold only_enabled. rewrite filter_app, map_app. apply PropsStdText.concat_app. }
    assert (EN : forall op, (0 <? iterations cfg op) = true -> only_enabled cfg [op] = [op]) by (intros op Q; unfold only_enabled; cbn [filter]; rewrite Q; reflexivity).
    destruct H as [(EN0 & PC & ->)|(x1 & y1 & -> & -> & H)].
    { left. exists Create. split; [exact PC|]. cbn [through]. rewrite (EN _ EN0). reflexivity. }
    rewrite (L Create "C"%string eq_refl). destruct H as [(EN0 & PC & ->)|(x2 & y2 & -> & -> & H)].
    { left. exists Read. split; [exact PC|]. change (through Read) with ([Create] ++ [Read]). rewrite J, (EN _ EN0). reflexivity. }
    rewrite (L Read "R"%string eq_refl). destruct H as [(EN0 & PC & ->)|(x3 & y3 & -> & -> & H)].
    { left. exists Update. split; [exact PC|]. change (through Update) with ([Create] ++ [Read] ++ [Update]). rewrite !J, (EN _ EN0), <- ?str_app_assoc. reflexivity. }
    rewrite (L Update "U"%string eq_refl). destruct H as [(EN0 & PC & ->)|(x4 & y4 & -> & -> & H)].
    { left. exists Delete. split; [exact PC|]. change (through Delete) with ([Create] ++ [Read] ++ [Update] ++ [Delete]). rewrite !J, (EN _ EN0), <- ?str_app_assoc. reflexivity. }
    rewrite (L Delete "D"%string eq_refl). destruct H as (x5 & y5 & -> & -> & (n & ->) & ->).
    right. split; [eauto|]. change [Create; Read; Update; Delete] with ([Create] ++ [Read] ++ [Update] ++ [Delete]). rewrite !J, <- ?str_app_assoc, ?str_app_nil. reflexivity.
Qed.
Lemma settled_warmup : settled (warmup b cfg).
Proof.
  unfold warmup. destruct (0 <? _); [|apply settled_silent, silent_ret].
  apply settled_bind; [apply settled_output|intros ?]. do 4 (apply settled_bind; [apply settled_warm|intros ?]).
  apply settled_bind; [apply settled_output|intros ?]. apply settled_bind; [apply settled_silent, silent_lift|intros k].
  (* the reset is followed by the clock and an output *)
  intros lo s tr s' x n E. unfold sbind in E. cbn [pbind] in E. inversion E; subst.
  match goal with H : exec _ _ (Clock _) _ _ _ _ |- _ => inversion H; subst end.
  match goal with H : exec _ _ (output_ _ _) _ _ _ _ |- _ => unfold output_ in H; inversion H; subst end.
  match goal with H : exec _ _ (Ret _) _ _ _ _ |- _ => inversion H; subst end.
  destruct tr as [|? [|? [|? [|]]]]; discriminate.
Qed.

(** what the finished passes of creates, reads and updates have printed when [op] is running *)
Definition prior ph op (txt : string) : Prop :=
  match op with
  | Create => txt = ""%string
  | Read => piece cfg TR ph Create (intro Create) (sep cfg Create) txt
  | Update => exists c r, txt = (c ++ r)%string /\ piece cfg TR ph Create (intro Create) (sep cfg Create) c /\ piece cfg TR ph Read (intro Read) (sep cfg Read) r
  | Delete => False
  end.
Definition cru_cut (e : event) (txt : string) : Prop :=
  (exists y, txt = (heading cfg ++ y)%string /\ warmup_cut e y) \/
  (exists op W y, (0 <? iterations cfg op) = true /\ pass_cut First op e /\ txt = (heading cfg ++ W ++ "First Pass (" ++ y)%string /\ warmup_says cfg TR W /\ prior First op y) \/
  (exists op H y, (0 <? iterations cfg op) = true /\ pass_cut Second op e /\ txt = (H ++ y)%string /\ first_texts cfg TR H /\ prior Second op y).
Lemma stops_cru : stops (cru_passes b t l cfg) cru_cut.
Proof.
  unfold cru_passes. eapply stops_weak.
  - eapply stops_then; [apply settled_output|apply stops_output|apply says_text|]. intros ?.
    eapply stops_bind; [apply settled_warmup|apply stops_warmup|apply says_warmup|]. intros ?.
    eapply stops_then; [apply settled_output|apply stops_output|apply says_text|]. intros ?.
    eapply stops_bind; [apply settled_resizing|apply stops_resizing|apply says_create; exact SANE|]. intros ?.
    eapply stops_bind; [apply settled_constant|apply stops_constant|apply says_read; [exact SANE|auto]|]. intros ?.
    eapply stops_bind; [apply settled_constant|apply stops_constant|apply says_update; [exact SANE|auto]|]. intros ?.
    eapply stops_then; [apply settled_output|apply stops_output|apply says_text|]. intros ?.
    eapply stops_bind; [apply settled_resizing|apply stops_resizing|apply says_create; exact SANE|]. intros ca.
    eapply stops_bind; [apply settled_constant|apply stops_constant|apply says_read; [exact SANE|auto]|]. intros ra.
    eapply stops_bind; [apply settled_constant|apply stops_constant|apply says_update; [exact SANE|auto]|]. intros ua.
    instantiate (1 := never). eapply stops_weak; [eapply stops_then with (Z2 := never); [apply settled_output|apply stops_output|apply says_text|intros ?; apply stops_silent, silent_ret]|].
    intros e x (p & q & _ & _ & []).
  - intros e txt (x0 & y0 & -> & -> & [(_ & H)|(W & y1 & -> & HW & x2 & y2 & -> & -> & H)]); [left; exists y0; split; [reflexivity|exact H]|].
    right. destruct H as [(EN & PC & ->)|(c1 & y3 & -> & C1 & [(EN & PC & ->)|(r1 & y4 & -> & R1 & [(EN & PC & ->)|(u1 & y5 & -> & U1 & x6 & y6 & -> & -> & H)])])].
    + left. exists Create, W, ""%string. repeat (split; [assumption|]). split; [unfold heading; rewrite <- ?str_app_assoc; reflexivity|]. split; [exact HW|reflexivity].
    + left. exists Read, W, c1. repeat (split; [assumption|]). split; [unfold heading; rewrite ?str_app_nil, <- ?str_app_assoc; reflexivity|]. split; [exact HW|exact C1].
    + left. exists Update, W, (c1 ++ r1)%string. repeat (split; [assumption|]). split; [unfold heading; rewrite ?str_app_nil, <- ?str_app_assoc; reflexivity|]. split; [exact HW|exists c1, r1; auto].
    + right. assert (FT : first_texts cfg TR (heading cfg ++ W ++ "First Pass (" ++ c1 ++ r1 ++ u1 ++ "); Second Pass (")%string) by (exists W, c1, r1, u1; auto).
      destruct H as [(EN & PC & ->)|(c2 & y7 & -> & C2 & [(EN & PC & ->)|(r2 & y8 & -> & R2 & [(EN & PC & ->)|(u2 & y9 & -> & U2 & [])])])].
      * eexists Create, _, ""%string. repeat (split; [eassumption|]). split; [|split; [exact FT|reflexivity]]. unfold heading. rewrite <- ?str_app_assoc. reflexivity.
      * eexists Read, _, c2. repeat (split; [eassumption|]). split; [|split; [exact FT|exact C2]]. unfold heading. rewrite ?str_app_nil, <- ?str_app_assoc. reflexivity.
      * eexists Update, _, (c2 ++ r2)%string. repeat (split; [eassumption|]). split; [|split; [exact FT|exists c2, r2; auto]]. unfold heading. rewrite ?str_app_nil, <- ?str_app_assoc. reflexivity.
Qed.
Lemma settled_cru : settled (cru_passes b t l cfg).
Proof.
  unfold cru_passes, run_create_pass, run_read_pass, run_update_pass.
  apply settled_bind; [apply settled_output|intros ?]. apply settled_bind; [apply settled_warmup|intros ?]. apply settled_bind; [apply settled_output|intros ?].
  apply settled_bind; [apply settled_resizing|intros ?]. do 2 (apply settled_bind; [apply settled_constant|intros ?]). apply settled_bind; [apply settled_output|intros ?].
  apply settled_bind; [apply settled_resizing|intros ?]. do 2 (apply settled_bind; [apply settled_constant|intros ?]). apply settled_bind; [apply settled_output|intros ?].
  apply settled_silent, silent_ret.
Qed.
Lemma stops_report op a : stops (report_analysis b cfg op a) never.
Proof.
  unfold report_analysis. destruct (0 <? _); [|apply stops_silent, silent_ret]. destruct a as [a|]; [|apply stops_silent, silent_lift].
  apply stops_after_silent; [apply silent_lift|]. intros r. apply stops_output.
Qed.
Lemma settled_report op a : settled (report_analysis b cfg op a).
Proof. unfold report_analysis. destruct (0 <? _); [|settle]. destruct a; settle. Qed.
Definition delete_cut (e : event) (txt : string) : Prop :=
  (0 <? iterations cfg Delete) = true /\
  ((pass_cut Second Delete e /\ txt = "Delete Passes ("%string) \/
   (pass_cut First Delete e /\ exists d, txt = ("Delete Passes (" ++ d)%string /\ piece cfg TR Second Delete "2nd: " ""%string d)).
Lemma stops_delete : stops (delete_passes b t l cfg) delete_cut.
Proof.
  unfold delete_passes, delete_cut. destruct (0 <? iterations cfg Delete) eqn:EN; [|eapply stops_weak; [apply stops_silent, silent_ret|intros ? ? []]].
  eapply stops_weak.
  - eapply stops_then; [apply settled_output|apply stops_output|apply says_text|]. intros ?.
    eapply stops_bind; [apply settled_resizing|apply stops_resizing|apply (says_resizing b t l u cfg TR SANE Delete _ _ _ 0 1)|]. intros ?.
    eapply stops_bind with (Z2 := never); [apply settled_resizing|apply stops_resizing|apply (says_resizing b t l u cfg TR SANE Delete _ _ _ 0 0)|]. intros da.
    eapply stops_weak.
    + eapply stops_then with (P := fun _ => True) (E1 := fun _ _ => True) (Z2 := never).
      * intros lo. apply settled_output.
      * intros lo. apply stops_output.
      * intros lo s tr s' x X I. destruct x as [[? ?]|?]; exact Logic.I.
      * intros ?. eapply stops_weak.
        -- eapply stops_then with (Z2 := never); [apply settled_report|apply stops_report|apply says_report|intros ?; apply stops_silent, silent_ret].
        -- intros e x (p & q & _ & _ & []).
    + intros e x (p & q & _ & _ & []).
  - intros e txt (x0 & y0 & -> & -> & [(_ & PC & ->)|(d & y1 & -> & D & [(_ & PC & ->)|(x2 & y2 & _ & _ & [])])]); (split; [reflexivity|]).
    + left. split; [exact PC|apply str_app_nil].
    + right. split; [exact PC|]. exists d. split; [rewrite str_app_nil; reflexivity|exact D].
Qed.
End Stops.

Section Join.
Context {S : Type}.
Variables (b : build) (t : tolerance) (l : libm) (u : user S) (cfg : crud_cfg) (tr : list event).
Hypothesis UNIQUE : unique (acts tr).
Lemma prior_commas ph op y : ph <> Warmup -> (0 <? iterations cfg op) = true -> op <> Delete -> prior cfg tr ph op y ->
  exists Ps, y = String.concat "" Ps /\ Forall2 (then_comma tr ph) (only_enabled cfg (before op)) Ps.
Proof.
  intros W EN ND H.
  assert (K : forall o x, sep cfg o = ", "%string -> piece cfg tr ph o (intro o) (sep cfg o) x ->
    exists Ps, x = String.concat "" Ps /\ Forall2 (then_comma tr ph) (only_enabled cfg [o]) Ps).
  { intros o x SP P. apply (piece_introduced cfg tr UNIQUE ph o _ x W) in P. unfold only_enabled. cbn [filter]. destruct (0 <? iterations cfg o).
    - destruct P as (z & -> & I). exists [(z ++ sep cfg o)%string]. split; [reflexivity|]. constructor; [|constructor]. exists z. rewrite SP. auto.
    - subst x. exists []. split; [reflexivity|constructor]. }
  assert (J : forall o1 o2 P1 P2, Forall2 (then_comma tr ph) (only_enabled cfg o1) P1 -> Forall2 (then_comma tr ph) (only_enabled cfg o2) P2 ->
    Forall2 (then_comma tr ph) (only_enabled cfg (o1 ++ o2)) (P1 ++ P2)).
  { intros o1 o2 P1 P2 F1 F2. unfold only_enabled in *. rewrite filter_app. apply Forall2_app; assumption. }
  destruct op; cbn [prior before] in *; [| | |congruence].
  - subst y. exists []. split; [reflexivity|constructor].
  - apply K; [|exact H]. unfold sep. rewrite EN. reflexivity.
  - destruct H as (c & r & -> & HC & HR).
    destruct (K Create _ ltac:(unfold sep; rewrite EN, orb_true_r; reflexivity) HC) as (P1 & -> & F1).
    destruct (K Read _ ltac:(unfold sep; rewrite EN; reflexivity) HR) as (P2 & -> & F2).
    exists (P1 ++ P2). split; [symmetry; apply PropsStdText.concat_app|]. exact (J [Create] [Read] _ _ F1 F2).
Qed.
End Join.

Lemma interrupted_split S b t l (u : user S) cfg s tr e s' p :
  cfg_ok cfg -> no_overflow cfg ->
  exec b u (internal_analyse_crud_algorithms b t l cfg) s (tr ++ [e]) s' (Panic p) -> cutting e -> sane_measurements tr ->
  cru_cut cfg tr e (crud_printed tr) \/ exists C y, crud_printed tr = (C ++ y)%string /\ cru_says b t l cfg tr C /\ delete_cut cfg tr e y.
Proof.
  intros CFG NO E C SM.
  pose proof (internal_spec b t l u cfg s _ s' _ CFG (or_intror NO) E) as SP. cbv beta iota in SP.
  assert (UN : unique (acts tr)).
  { destruct SP as [[rest SP] _]. rewrite acts_app, <- app_assoc in SP. apply (unique_prefix _ (acts [e] ++ rest)). rewrite <- SP. apply unique_all. }
  unfold internal_analyse_crud_algorithms in E. apply exec_pbind in E. destruct E as [(y & tr' & s1 & tr0 & E & ER & ET)|(q & E & Y)]; [inversion ER|]. clear Y.
  unfold internal_body in E. unfold sbind in E at 1. apply exec_pbind in E. destruct E as [(x1 & tr1 & s2 & tr2 & E1 & E2 & ET)|(q' & E1 & Y)].
  2:{ left. exact (stops_cru b t l u cfg tr SM locals_init s tr e s' _ E1 C (incl_refl _)). }
  right. symmetry in ET. apply app_last in ET. destruct ET as [[-> ->]|(z & -> & ->)].
  { exfalso. destruct (exec_val_cut b u _ _ _ _ _ e E1 ltac:(apply in_or_app; right; left; reflexivity) C) as [n ->]. exact (settled_cru b t l u cfg _ _ _ _ _ _ E1). }
  destruct x1 as [[[[ca ra] ua] lo1]|e1]; [|inversion E2].
  pose proof (triple_cru b t l cfg u CFG (or_intror NO) locals_init [] s tr1 s2 _ (conj eq_refl eq_refl) E1) as T1. cbn [app post] in T1. destruct T1 as [_ CD].
  apply (cru_done_stable b t l cfg _ tr1 z) in CD.
  assert (I1 : incl tr1 (tr1 ++ z)) by (intros a A; apply in_or_app; auto). assert (I2 : incl z (tr1 ++ z)) by (intros a A; apply in_or_app; auto).
  pose proof (says_cru b t l u cfg (tr1 ++ z) SM locals_init s tr1 s2 _ E1 I1) as S1. cbv beta iota in S1.
  assert (SR : stops b u (tr1 ++ z)
    (sbind (report_analysis b cfg Create ca) (fun _ => sbind (report_analysis b cfg Read ra) (fun _ => sbind (report_analysis b cfg Update ua) (fun _ => sbind (delete_passes b t l cfg)
       (fun da lo => Ret (inl (CrudResult ca ra ua da (lo_report lo), lo)))))))
    (fun e txt => exists rc rr ru y, txt = (rc ++ rr ++ ru ++ y)%string /\ shown_report b cfg Create ca rc /\ shown_report b cfg Read ra rr /\ shown_report b cfg Update ua ru /\ delete_cut cfg (tr1 ++ z) e y)).
  { eapply stops_weak.
    - eapply stops_then; [apply settled_report|apply stops_report|apply says_report|]. intros ?.
      eapply stops_then; [apply settled_report|apply stops_report|apply says_report|]. intros ?.
      eapply stops_then; [apply settled_report|apply stops_report|apply says_report|]. intros ?.
      instantiate (1 := delete_cut cfg (tr1 ++ z)).
      intros lo w1 w2 e0 w3 qq X CE IN. unfold sbind in X. apply exec_pbind in X. destruct X as [(y & x1 & w4 & x2 & X1 & X2 & _)|(q2 & X1 & _)].
      + destruct y as [[? ?]|?]; inversion X2.
      + exact (stops_delete b t l u cfg (tr1 ++ z) SM lo w1 w2 e0 w3 _ X1 CE IN).
    - intros e0 txt (rc & y0 & -> & HC & rr & y1 & -> & HR & ru & y2 & -> & HU & D). exists rc, rr, ru, y2. auto. }
  destruct (SR lo1 s2 z e s' _ E2 C I2) as (rc & rr & ru & y & TX & HC & HR & HU & D).
  exists (crud_printed tr1 ++ rc ++ rr ++ ru)%string, y. split; [rewrite printed_app, TX, <- ?str_app_assoc; reflexivity|].
  split; [|exact D]. exact (cru_ok b t l cfg (tr1 ++ z) SM UN _ ca ra ua rc rr ru CFG NO S1 CD HC HR HU).
Qed.
Lemma cut_same ph op ph' op' r T log : pass_cut ph op (EvPass ph' op' r T log None) -> ph = ph' /\ op = op'.
Proof. intros (r' & T' & log' & E). injection E as -> -> _ _ _. auto. Qed.
Lemma printed_cut tr e : cutting e -> crud_printed (tr ++ [e]) = crud_printed tr.
Proof. intros C. rewrite printed_app. destruct e as [ph op r T log [|]|n|i|d]; try contradiction; apply str_app_nil. Qed.

(** ** C106: when a closure panics in a pass, everything that was measured before has been printed, and nothing else *)
Theorem C106_interrupted : forall S b t l (u : user S) cfg s tr s' p earlier ph op r T log,
  cfg_ok cfg -> no_overflow cfg ->
  exec b u (internal_analyse_crud_algorithms b t l cfg) s tr s' (Panic p) ->
  tr = earlier ++ [EvPass ph op r T log None] -> sane_measurements tr ->
  interrupted_says b t l cfg earlier ph op (crud_printed tr).
Proof.
  intros S b t l u cfg s tr s' p earlier ph op r T log CFG NO E -> SM. rewrite printed_cut by exact I.
  apply sane_app in SM. destruct SM as [SM _].
  pose proof (internal_spec b t l u cfg s _ s' _ CFG (or_intror NO) E) as SP. cbv beta iota in SP.
  assert (UN : unique (acts earlier)).
  { destruct SP as [[rest SP] _]. rewrite acts_app, <- app_assoc in SP. eapply unique_prefix. rewrite <- SP. apply unique_all. }
  destruct (interrupted_split _ _ _ _ _ _ _ _ _ _ _ CFG NO E I SM) as [[(y & TX & [(op' & PC & ->)|((n & N) & _)])|[(op' & W & y & EN & PC & TX & HW & PR)|(op' & H & y & EN & PC & TX & HF & PR)]]|(C & y & TX & CS & EN & [(PC & ->)|(PC & d & -> & D)])].
  - apply cut_same in PC. destruct PC as [<- <-]. cbn [interrupted_says]. exact TX.
  - discriminate.
  - apply cut_same in PC. destruct PC as [<- <-]. assert (ND : op' <> Delete) by (intros ->; exact PR).
    destruct (prior_commas cfg earlier UN First op' y ltac:(discriminate) EN ND PR) as (Ps & -> & F).
    destruct op'; [| | |congruence]; exists W, Ps; auto.
  - apply cut_same in PC. destruct PC as [<- <-]. assert (ND : op' <> Delete) by (intros ->; exact PR).
    destruct (prior_commas cfg earlier UN Second op' y ltac:(discriminate) EN ND PR) as (Ps & -> & F). apply (first_ok cfg earlier UN) in HF.
    destruct op'; [| | |congruence]; exists H, Ps; auto.
  - apply cut_same in PC. destruct PC as [<- <-]. exists C. auto.
  - apply cut_same in PC. destruct PC as [<- <-]. unfold piece in D. rewrite EN in D. destruct D as (m & P & HM & MT & ->).
    exists C, P. split; [rewrite TX, str_app_nil; reflexivity|]. split; [exact CS|]. exists m. split; [|exact MT].
    apply (has_measurement earlier UN); [discriminate|exact HM].
Qed.
Print Assumptions C106_interrupted.
(** ... likewise when the [reset_fn] after the warm-up panics *)
Theorem C106_reset_interrupted : forall S b t l (u : user S) cfg s tr s' p earlier n,
  cfg_ok cfg -> no_overflow cfg ->
  exec b u (internal_analyse_crud_algorithms b t l cfg) s tr s' (Panic p) ->
  tr = earlier ++ [EvReset n] -> sane_measurements tr ->
  reset_interrupted_says cfg (crud_printed tr).
Proof.
  intros S b t l u cfg s tr s' p earlier n CFG NO E -> SM. rewrite printed_cut by exact I.
  apply sane_app in SM. destruct SM as [SM _].
  destruct (interrupted_split _ _ _ _ _ _ _ _ _ _ _ CFG NO E I SM) as [[(y & TX & [(op' & (? & ? & ? & PC) & ->)|((k & N) & ->)])|[(op' & W & y & EN & (? & ? & ? & PC) & _)|(op' & H & y & EN & (? & ? & ? & PC) & _)]]|(C & y & TX & CS & EN & [((? & ? & ? & PC) & _)|((? & ? & ? & PC) & _)])];
    try discriminate. exact TX.
Qed.
Print Assumptions C106_reset_interrupted.

(** ** No other panic can happen: whatever the closures do, an analysis that panics was cut by one of them *)
Definition cut_says b t l cfg (earlier : list event) (e : event) (txt : string) : Prop :=
  match e with
  | EvPass ph op _ _ _ None => interrupted_says b t l cfg earlier ph op txt
  | EvReset _ => reset_interrupted_says cfg txt
  | _ => False
  end.
Theorem C106_a_panic : forall S b t l (u : user S) cfg s tr s' p,
  cfg_ok cfg -> usable cfg ->
  exec b u (internal_analyse_crud_algorithms b t l cfg) s tr s' (Panic p) -> sane_measurements tr ->
  p = PClosure /\ exists earlier e, tr = earlier ++ [e] /\ cut_says b t l cfg earlier e (crud_printed tr).
Proof.
  intros S b t l u cfg s tr s' p CFG US E SM. destruct (internal_panics _ _ _ _ _ _ _ _ _ _ CFG US E SM) as (PC & earlier & e & ET & C).
  split; [exact PC|]. exists earlier, e. split; [exact ET|]. destruct US as [NO _]. destruct e as [ph op r T log [m|]|n|i|d]; try contradiction.
  - exact (C106_interrupted _ _ _ _ _ _ _ _ _ _ _ _ _ _ _ _ CFG NO E ET SM).
  - exact (C106_reset_interrupted _ _ _ _ _ _ _ _ _ _ _ _ CFG NO E ET SM).
Qed.
Print Assumptions C106_a_panic.

(** a whole test, from its [k]-th attempt (the first is 0): what happened and what was printed *)
Definition failed_text (k : Z) : string := (newline ++ "Attempt " ++ dec (k + 1) ++ " failed. Resetting before retrying")%string.
Inductive cut_short {S} b t l (u : user S) cfg : Z -> list event -> string -> Prop :=
(* a closure panics during the attempt *)
| cut_in_attempt k cfg' s earlier e s' txt :
    adapted b k cfg = Val cfg' -> exec b u (internal_analyse_crud_algorithms b t l cfg') s (earlier ++ [e]) s' (Panic PClosure) ->
    cut_says b t l cfg' earlier e txt -> cut_short b t l u cfg k (earlier ++ [e]) txt
(* the attempt fails on time, and the reset before the next one panics *)
| cut_in_reset k cfg' s tr s1 err i txt :
    adapted b k cfg = Val cfg' -> exec b u (internal_analyse_crud_algorithms b t l cfg') s tr s1 (Val (inr err)) -> ce_analysis err = Time ->
    analysis_says b t l u cfg' tr (inr err) txt ->
    cut_short b t l u cfg k (tr ++ [EvOutput i; EvReset 100]) (txt ++ failed_text k)
(* the attempt fails on time, and a later one is cut short *)
| cut_later k cfg' s tr s1 err i j rest txt txt' :
    adapted b k cfg = Val cfg' -> exec b u (internal_analyse_crud_algorithms b t l cfg') s tr s1 (Val (inr err)) -> ce_analysis err = Time ->
    analysis_says b t l u cfg' tr (inr err) txt -> cut_short b t l u cfg (k + 1) rest txt' ->
    cut_short b t l u cfg k (tr ++ [EvOutput i; EvReset 100; EvOutput j] ++ rest) (txt ++ failed_text k ++ "..." ++ newline ++ txt').
Theorem C106_test_interrupted : forall S b t l (u : user S) cfg max s tr s' p,
  0 < max < two32 -> cfg_ok cfg -> roomy cfg ->
  exec b u (test_crud_algorithms b t l cfg max) s tr s' (Panic p) -> sane_measurements tr ->
  p = PClosure /\ cut_short b t l u cfg 0 tr (crud_printed tr).
Proof.
  intros S b t l u cfg max s tr s' p MX C R E SM. unfold test_crud_algorithms in E.
  assert (K : forall n k collected s tr, 0 <= k -> k + Z.of_nat n = max -> exec b u (attempts b t l cfg max n k collected) s tr s' (Panic p) -> sane_measurements tr ->
    p = PClosure /\ cut_short b t l u cfg k tr (crud_printed tr)).
  2:{ apply (K (Z.to_nat max) 0 [] s); [lia|lia|exact E|exact SM]. }
  clear s tr E SM. induction n as [|n IH]; intros k collected s tr Hk Hn E SM; cbn [attempts] in E; [inversion E|].
  apply lift_exec in E. destruct E as [(cfg' & AD & E)|(N & _)].
  2:{ destruct (adapted_ok b k cfg ltac:(lia) C R) as [x X]. destruct (N x X). }
  assert (CF' : cfg_ok cfg') by (eapply adapted_u32; [|exact C|exact AD]; lia).
  assert (US : usable cfg') by (eapply adapted_usable; [|exact C|exact R|exact AD]; lia).
  apply exec_pbind in E. destruct E as [(x & tr1 & s1 & tr2 & E1 & E2 & ->)|(q & E1 & Y)].
  2:{ injection Y as <-. destruct (C106_a_panic _ _ _ _ _ _ _ _ _ _ CF' US E1 SM) as (-> & earlier & e & -> & CS). split; [reflexivity|]. eapply cut_in_attempt; eassumption. }
  destruct x as [r|e]; [inversion E2|]. apply sane_app in SM. destruct SM as [SM1 SM2].
  destruct (ce_analysis e) eqn:CE; [|inversion E2].
  apply lift_exec in E2. destruct E2 as [(lastn & SUB & E2)|(N & _)].
  2:{ exfalso. eapply N. unfold u32_sub. apply checked_in. lia. }
  destruct (k <? lastn); [|inversion E2].
  destruct (C106_analysis _ _ _ _ _ _ _ _ _ _ CF' (proj1 US) E1 SM1) as [A _].
  assert (Q1 : forall tr, crud_printed (EvOutput (IText (retry_text k)) :: EvReset 100 :: tr) = (failed_text k ++ crud_printed tr)%string).
  { intros tr. change (EvOutput (IText (retry_text k)) :: EvReset 100 :: tr) with ([EvOutput (IText (retry_text k)); EvReset 100] ++ tr). rewrite printed_app. reflexivity. }
  inversion E2 as [| | | | | |? ? ? ? ? ? E3|]; subst. inversion E3 as [| | | |? ? ? ? ? ? ? ? RS0 E4|? ? ? ? RS0| |]; subst.
  - inversion E4 as [| | | | | |? ? ? ? ? ? E5|]; subst. do 3 (apply Forall_inv_tail in SM2). destruct (IH (k + 1) _ _ _ ltac:(lia) ltac:(lia) E5 SM2) as [-> CS]. split; [reflexivity|].
    rewrite printed_app, Q1.
    match goal with |- cut_short _ _ _ _ _ _ (tr1 ++ ?i :: ?j :: ?h :: ?rest) _ =>
      change (tr1 ++ i :: j :: h :: rest) with (tr1 ++ [i; j; h] ++ rest);
      replace (crud_printed (h :: rest)) with ("..." ++ newline ++ crud_printed rest)%string end.
    2:{ match goal with |- _ = crud_printed (?h :: ?rest) => change (h :: rest) with ([h] ++ rest) end. rewrite printed_app. reflexivity. }
    eapply cut_later; eassumption.
  - split; [reflexivity|]. rewrite printed_app, Q1. change (crud_printed []) with ""%string. rewrite str_app_nil. eapply cut_in_reset; eassumption.
Qed.
Print Assumptions C106_test_interrupted.

(** *** Example: the closure of one operation always panics, the others return 0 *)
Definition bad_user (bad : operation) : user unit :=
  User (fun op s x => (s, if operation_eqb op bad then None else Some 0)) (fun s _ => (s, Some 0)).
Definition divides (r : range) (T : Z) : bool := (0 <? len r) && (len r mod T =? 0).
(** what it prints until the first pass of [bad] *)
Fixpoint cut_run {A} (bad : operation) (M : phase -> operation -> pass_result) (m : prog A) : option (list item * (phase * operation)) :=
  match m with
  | Ret _ | Stop _ => None
  | Pass ph op ty r T k =>
      if small r T then
        if operation_eqb op bad then (if divides r T then Some ([], (ph, op)) else None) else cut_run bad M (k (M ph op) (pass_value r T))
      else None
  | Reset n k => cut_run bad M k
  | Output i k => match cut_run bad M k with Some (is, c) => Some (i :: is, c) | None => None end
  | Clock k => cut_run bad M (k 0)
  end.
Lemma cut_run_exec {A} b bad M (m : prog A) : forall is ph op, cut_run bad M m = Some (is, (ph, op)) ->
  exists tr r T log p, exec b (bad_user bad) m tt (tr ++ [EvPass ph op r T log None]) tt (Panic p) /\ outputs tr = is /\ measures M tr.
Proof.
  assert (Z0 : forall l : list (nat * Z), xor_all (map (fun _ => 0) (calls l)) = 0).
  { intros lg. induction (calls lg) as [|x c IH]; [reflexivity|]. cbn [map xor_all fold_right]. fold (xor_all (map (fun _ => 0) c)). rewrite IH. reflexivity. }
  induction m as [a|p|ph op ty r T k IH|n k IH|i k IH|k IH]; intros is ph' op' H; cbn [cut_run] in H; try discriminate.
  - destruct (small r T) eqn:SM; [|discriminate]. unfold small in SM. repeat rewrite andb_true_iff in SM. rewrite !Z.leb_le, !Z.ltb_lt in SM.
    pose proof (small_ranges_fit b r ltac:(lia) ltac:(lia)) as FT.
    destruct (pass_exists b (u_op (bad_user bad) op) ty r T tt) as (log & [] & out & P & _).
    destruct (operation_eqb op bad) eqn:OB.
    + destruct (divides r T) eqn:DV; [|discriminate]. injection H as <- <- <-. unfold divides in DV. rewrite andb_true_iff, Z.ltb_lt, Z.eqb_eq in DV. destruct DV as [L0 DV].
      assert (P' : iterator_pass (fun s x => (s, (fun _ : Z => @None Z) x)) b ty r T tt log tt out).
      { replace (fun (s : unit) (x : Z) => (s, @None Z)) with (u_op (bad_user bad) op); [exact P|]. unfold bad_user. cbn [u_op]. rewrite OB. reflexivity. }
      destruct (C61_a_panicking_call_panics_the_pass unit (fun _ => None) b ty r T tt log tt out FT ltac:(lia) P') as (_ & _ & PN).
      assert (out = Panic PClosure) as ->.
      { apply PN; [apply Z.mod_divide; [lia|exact DV]|]. exists (lowest r). split; [|reflexivity]. unfold indices. destruct (Z.to_nat (len r)) eqn:EL; [lia|left; reflexivity]. }
      exists [], r, T, log, PClosure. split; [eapply ex_pass_panic; exact P|]. split; [reflexivity|constructor].
    + assert (P' : iterator_pass (pure (fun _ => 0)) b ty r T tt log tt out).
      { replace (pure (fun _ => 0)) with (u_op (bad_user bad) op); [exact P|]. unfold bad_user, pure. cbn [u_op]. rewrite OB. reflexivity. }
      destruct (C32_computed_number unit (fun _ => 0) b ty r T tt log tt out FT ltac:(lia) P') as (ends & -> & ->).
      destruct (IH _ _ _ _ _ H) as (tr & r' & T' & log' & p & E & O & MM).
      exists (EvPass ph op r T log (Some (M ph op)) :: tr), r', T', log', p. split; [|split; [exact O|constructor; [reflexivity|exact MM]]].
      cbn [app]. eapply ex_pass; [exact P|]. replace (xor_all _) with (pass_value r T); [exact E|]. unfold pass_value. rewrite app_comm_cons, xor_all_app2, Z0, Z.lxor_0_r. reflexivity.
  - destruct (IH _ _ _ H) as (tr & r & T & log & p & E & O & MM). exists (EvReset n :: tr), r, T, log, p. split; [eapply ex_reset; [reflexivity|exact E]|]. split; [exact O|constructor; [exact I|exact MM]].
  - destruct (cut_run bad M k) as [[is' c]|] eqn:CK; [|discriminate]. injection H as <- ->. destruct (IH _ _ _ eq_refl) as (tr & r & T & log & p & E & O & MM).
    exists (EvOutput i :: tr), r, T, log, p. split; [constructor; exact E|]. split; [cbn; rewrite <- O; reflexivity|constructor; [exact I|exact MM]].
  - destruct (IH _ _ _ _ H) as (tr & r & T & log & p & E & O & MM). exists (EvClock 0 :: tr), r, T, log, p. split; [eapply ex_clock; [apply Z.le_refl|exact E]|]. split; [exact O|constructor; [exact I|exact MM]].
Qed.
Definition c106_cut (warmup : Z) (bad : operation) :=
  cut_run bad c106_measure (internal_analyse_crud_algorithms Debug Tol25 demo_libm
    (CrudCfg "vector"%string warmup (OpCfg 1000 2 ON ON) (OpCfg 1000 1 ON ON) (OpCfg 0 0 O1 O1) (OpCfg 1000 1 ON ON))).
Example C106_interrupted_example :
  match c106_cut 50 Read with
  | Some (is, (Warmup, Read)) => String.eqb (report_text is) "vector CRUD Algorithm Complexity Analysis:
  warming up [CR"
  | _ => false end = true /\
  match c106_cut 0 Read with
  | Some (is, (First, Read)) => String.eqb (report_text is) "vector CRUD Algorithm Complexity Analysis:
  First Pass (create: 1s/+1024.00KiB, "
  | _ => false end = true /\
  match c106_cut 0 Delete with
  | Some (is, (Second, Delete)) => String.eqb (report_text is)
"vector CRUD Algorithm Complexity Analysis:
  First Pass (create: 1s/+1024.00KiB, read: 250ms/1024b); Second Pass (create: 2s/+1024.00KiB, read: 250ms/1024b):

'Create' set resizing iterator-algorithm measurements:
pass          Δt              Δs            Σn            t⁻
1)            1s     +1024.00KiB          1000       1.000ms
2)            2s     +1024.00KiB          2000       2.000ms
--> Algorithm  Time Analysis: Worse than O(log(n)), but better than O(n)
--> Algorithm Space Analysis: O(1) (allocated: 2.00MiB; auxiliary used space: 0.00b)


'Read' constant set iterator-algorithm measurements:
pass          Δt              Δs            Σn            ⊆r            t⁻
1)         250ms           1024b          1000          1000     250.000µs
2)         250ms           1024b          2000          1000     250.000µs
--> Algorithm  Time Analysis: O(1)
--> Algorithm Space Analysis: O(1) (allocated: 0.00b; auxiliary used space: 2.00KiB)


Delete Passes ("
  | _ => false end = true.
Proof. split; [|split]; vm_compute; reflexivity. Qed.
Lemma c106_cut_runs warmup bad is ph op : c106_cut warmup bad = Some (is, (ph, op)) ->
  exists tr r T log p, exec Debug (bad_user bad) (internal_analyse_crud_algorithms Debug Tol25 demo_libm
    (CrudCfg "vector"%string warmup (OpCfg 1000 2 ON ON) (OpCfg 1000 1 ON ON) (OpCfg 0 0 O1 O1) (OpCfg 1000 1 ON ON))) tt (tr ++ [EvPass ph op r T log None]) tt (Panic p) /\
    sane_measurements (tr ++ [EvPass ph op r T log None]) /\ crud_printed tr = report_text is.
Proof.
  unfold c106_cut. generalize (internal_analyse_crud_algorithms Debug Tol25 demo_libm (CrudCfg "vector"%string warmup (OpCfg 1000 2 ON ON) (OpCfg 1000 1 ON ON) (OpCfg 0 0 O1 O1) (OpCfg 1000 1 ON ON))).
  intros m H. destruct (cut_run_exec Debug bad c106_measure m is ph op H) as (tr & r & T & log & p & E & <- & M). exists tr, r, T, log, p.
  split; [exact E|]. split; [|reflexivity]. apply sane_app. split; [exact (measures_sane _ _ c106_sane M)|repeat constructor].
Qed.
(** such executions exist *)
Example C106_interrupted_example_runs :
  exists tr r T log p, exec Debug (bad_user Delete) (internal_analyse_crud_algorithms Debug Tol25 demo_libm
    (CrudCfg "vector"%string 0 (OpCfg 1000 2 ON ON) (OpCfg 1000 1 ON ON) (OpCfg 0 0 O1 O1) (OpCfg 1000 1 ON ON))) tt (tr ++ [EvPass Second Delete r T log None]) tt (Panic p) /\
    sane_measurements (tr ++ [EvPass Second Delete r T log None]).
Proof.
  destruct C106_interrupted_example as (_ & _ & H). pose proof (c106_cut_runs 0 Delete) as R. revert H R. generalize (c106_cut 0 Delete). intros out H R.
  destruct out as [[is [[| |] [| | |]]]|]; try discriminate. destruct (R is _ _ eq_refl) as (tr & r & T & log & p & E & SM & _). exists tr, r, T, log, p. auto.
Qed.
(** a whole test of two attempts: its first attempt is cut short *)
Example C106_test_interrupted_example :
  exists tr r T log p, exec Debug (bad_user Delete) (test_crud_algorithms Debug Tol25 demo_libm
    (CrudCfg "vector"%string 0 (OpCfg 1000 2 ON ON) (OpCfg 1000 1 ON ON) (OpCfg 0 0 O1 O1) (OpCfg 1000 1 ON ON)) 2) tt (tr ++ [EvPass Second Delete r T log None]) tt (Panic p) /\
    sane_measurements (tr ++ [EvPass Second Delete r T log None]).
Proof.
  assert (H : match cut_run Delete c106_measure (test_crud_algorithms Debug Tol25 demo_libm
    (CrudCfg "vector"%string 0 (OpCfg 1000 2 ON ON) (OpCfg 1000 1 ON ON) (OpCfg 0 0 O1 O1) (OpCfg 1000 1 ON ON)) 2) with Some (_, (Second, Delete)) => true | _ => false end = true) by (vm_compute; reflexivity).
  revert H. generalize (test_crud_algorithms Debug Tol25 demo_libm (CrudCfg "vector"%string 0 (OpCfg 1000 2 ON ON) (OpCfg 1000 1 ON ON) (OpCfg 0 0 O1 O1) (OpCfg 1000 1 ON ON)) 2).
  intros m H. pose proof (cut_run_exec Debug Delete c106_measure m) as R. destruct (cut_run Delete c106_measure m) as [[is [[| |] [| | |]]]|]; try discriminate.
  destruct (R _ _ _ eq_refl) as (tr & r & T & log & p & E & _ & M). exists tr, r, T, log, p. split; [exact E|].
  apply sane_app. split; [exact (measures_sane _ _ c106_sane M)|repeat constructor].
Qed.
