(** * C106: everything the CRUD test prints, word for word, and the reports it returns. *)
From Coq Require Import ZArith Reals String Ascii List Bool Lia.
From Verif Require Import Machine Complexity Analysis AnalysisF64d AllocSpec IterPass IterSpec IterPassProofs PropsIter Report ReportProofs Crud CrudMsg CrudSpec CrudProofs CrudMain CrudRetry PropsCrud CrudNumber TextProofs
  PropsCrudMsg FormatProofs Format ReadSpec ReportText ReportTextSpec PropsReport PropsReportText RunTextSpec PropsStdText CrudText Demo.
Import ListNotations.
Open Scope list_scope.
Open Scope Z_scope.

(** ** Specification *)
Section Spec.
Context {S : Type}.
Variables (b : build) (t : tolerance) (l : libm) (u : user S) (cfg : crud_cfg).

Definition only_enabled (ops : list operation) : list operation := filter (fun op => 0 <? iterations cfg op) ops.
(** how the measurements of an operation are introduced, and its letter in the warm-up *)
Definition intro (op : operation) : string :=
  match op with Create => "create: " | Read => "read: " | Update => "update: " | Delete => "delete: " end%string.
Definition letter (op : operation) : string := match op with Create => "C" | Read => "R" | Update => "U" | Delete => "D" end%string.
Definition joined : list string -> string := String.concat ", "%string.

Definition heading : string := (cc_name cfg ++ " CRUD Algorithm Complexity Analysis:" ++ newline ++ "  ")%string.
(** the warm-up: a letter for each operation, and the time that elapsed on the clock *)
Definition warmup_says (tr : list event) (txt : string) : Prop :=
  if 0 <? cc_warmup cfg then
    exists T d, txt = ("warming up [" ++ String.concat "" (map letter (only_enabled [Create; Read; Update; Delete])) ++ "] " ++ T ++ ", ")%string /\
      read_duration T = Some (IZR d) /\ In (EvClock d) tr
  else txt = ""%string.
(** what a pass of an operation measured *)
Definition pass_says (tr : list event) (ph : phase) (op : operation) (txt : string) : Prop :=
  exists m, measurement tr ph op = Some m /\ measured_text txt m.
Definition introduced (tr : list event) (ph : phase) (op : operation) (txt : string) : Prop :=
  exists P, txt = (intro op ++ P)%string /\ pass_says tr ph op P.
(** the report on an operation *)
Definition op_report (tr : list event) (op : operation) (txt : string) : Prop :=
  exists m1 m2 tc sc R, observed b t l cfg tr op m1 m2 tc sc /\ txt = (R ++ newline ++ newline)%string /\
  let n := iterations cfg op in
  match op with
  | Create | Delete =>
      report_says R ("'" ++ operation_name op ++ "' set resizing iterator-algorithm measurements:") ["pass"; "Δt"; "Δs"; "Σn"; "t⁻"]%string
        (fun line => pass_row line "1)" (pr_time m1) (pr_space m1) n no_other n)
        (fun line => pass_row line "2)" (pr_time m2) (pr_space m2) (2 * n) no_other n) tc sc (pr_space m1) (pr_space m2)
  | Read | Update =>
      report_says R ("'" ++ operation_name op ++ "' constant set iterator-algorithm measurements:") ["pass"; "Δt"; "Δs"; "Σn"; "⊆r"; "t⁻"]%string
        (fun line => pass_row line "1)" (pr_time m1) (pr_space m1) (iterations cfg Create) (repetitions_column n) n)
        (fun line => pass_row line "2)" (pr_time m2) (pr_space m2) (2 * iterations cfg Create) (repetitions_column n) n) tc sc (pr_space m1) (pr_space m2)
  end.
(** heading, warm-up and the measurements of the first passes *)
Definition first_says (tr : list event) (txt : string) : Prop :=
  exists W Ps, txt = (heading ++ W ++ "First Pass (" ++ joined Ps ++ "); Second Pass (")%string /\
    warmup_says tr W /\ Forall2 (introduced tr First) (only_enabled [Create; Read; Update]) Ps.
(** ... and of the second passes, and the reports on the creates, reads and updates *)
Definition cru_says (tr : list event) (txt : string) : Prop :=
  exists H Ps Rs, txt = (H ++ joined Ps ++ "):" ++ newline ++ newline ++ String.concat "" Rs)%string /\ first_says tr H /\
    Forall2 (introduced tr Second) (only_enabled [Create; Read; Update]) Ps /\
    Forall2 (op_report tr) (only_enabled [Create; Read; Update]) Rs.
(** the measurements of the deletes, the later elements first *)
Definition delete_says (tr : list event) (txt : string) : Prop :=
  exists P2 P1, txt = ("Delete Passes (2nd: " ++ P2 ++ "; 1st: " ++ P1)%string /\ pass_says tr Second Delete P2 /\ pass_says tr First Delete P1.
(** the number: the xor of what the passes returned *)
Definition number_says (tr : list event) (txt : string) : Prop :=
  exists x vs, txt = (") r=" ++ dec x ++ ":" ++ newline)%string /\ returned b u tr vs /\ x = xor_all vs.
Definition success_says (tr : list event) (txt : string) : Prop :=
  if 0 <? iterations cfg Delete then
    exists C D N R, txt = (C ++ D ++ N ++ R)%string /\ cru_says tr C /\ delete_says tr D /\ number_says tr N /\ op_report tr Delete R
  else cru_says tr txt.

Definition aborted (e : crud_error) : string :=
  (" ** Aborted due to " ++ what_name (ce_analysis e) ++ " complexity mismatch on '" ++ operation_name (ce_operation e) ++ "' operation: maximum: " ++
   debug_name (ce_max e) ++ ", measured: " ++ debug_name (ce_complexity e) ++ newline ++ newline)%string.
(** creates, reads and updates up to [op], and after it *)
Definition up_to (op : operation) : list operation :=
  match op with Create => [Create] | Read => [Create; Read] | Update | Delete => [Create; Read; Update] end.
Definition after (op : operation) : list operation :=
  match op with Create => [Read; Update] | Read => [Update] | Update | Delete => [] end.
(** all that was measured up to the failure, then why the analysis ended *)
Definition failure_says (tr : list event) (e : crud_error) (txt : string) : Prop :=
  match ce_operation e with
  | Delete => exists C D, txt = (C ++ D ++ aborted e)%string /\ cru_says tr C /\ delete_says tr D
  | op => exists H Ps, txt = (H ++ joined Ps ++ match only_enabled (after op) with [] => "" | _ => ", " end ++ aborted e)%string /\ first_says tr H /\
            Forall2 (introduced tr Second) (only_enabled (up_to op)) Ps
  end.
Definition analysis_says (tr : list event) (x : crud_result + crud_error) (txt : string) : Prop :=
  match x with inl _ => success_says tr txt | inr e => failure_says tr e txt end.
Definition report_of (x : crud_result + crud_error) : list item := match x with inl r => cr_report r | inr e => ce_report e end.
End Spec.

(** ** Proofs *)
Lemma printed_app tr tr' : crud_printed (tr ++ tr') = (crud_printed tr ++ crud_printed tr')%string.
Proof. unfold crud_printed, report_text. rewrite outputs_app, map_app. apply PropsStdText.concat_app. Qed.
Lemma app_in {A} (a c TR : list A) : incl (a ++ c) TR -> incl a TR /\ incl c TR.
Proof. intros H. split; intros x I; apply H, in_or_app; auto. Qed.

Section Says.
Context {S : Type}.
Variables (b : build) (t : tolerance) (l : libm) (u : user S) (cfg : crud_cfg).
(** the whole execution *)
Variable TR : list event.
Hypothesis SANE : sane_measurements TR.
Definition has ph op m : Prop := exists r T log, In (EvPass ph op r T log (Some m)) TR.
Lemma has_sane ph op m : has ph op m -> sane m.
Proof. intros (r & T & log & I). unfold sane_measurements in SANE. rewrite Forall_forall in SANE. exact (SANE _ I). Qed.

Definition says {A} (m : stmt A) (Q : A -> string -> Prop) (E : crud_error -> string -> Prop) : Prop :=
  forall lo s tr s' x, exec b u (m lo) s tr s' (Val x) -> incl tr TR ->
  match x with inl (a, _) => Q a (crud_printed tr) | inr e => E e (crud_printed tr) end.
Definition noerr : crud_error -> string -> Prop := fun _ _ => False.
Lemma says_weak {A} (m : stmt A) (Q Q' : A -> string -> Prop) (E E' : crud_error -> string -> Prop) :
  says m Q E -> (forall a x, Q a x -> Q' a x) -> (forall e x, E e x -> E' e x) -> says m Q' E'.
Proof. intros H HQ HE lo s tr s' x X I. specialize (H _ _ _ _ _ X I). destruct x as [[a lo']|e]; auto. Qed.
Lemma says_bind {A B} (m : stmt A) (k : A -> stmt B) Q1 E1 Q2 E2 :
  says m Q1 E1 -> (forall a, says (k a) (Q2 a) (E2 a)) ->
  says (sbind m k) (fun c txt => exists a x y, txt = (x ++ y)%string /\ Q1 a x /\ Q2 a c y)
                   (fun e txt => E1 e txt \/ exists a x y, txt = (x ++ y)%string /\ Q1 a x /\ E2 a e y).
Proof.
  intros H1 H2 lo s tr s' x X I. unfold sbind in X. apply exec_pbind in X.
  destruct X as [(y & tr1 & s1 & tr2 & X1 & X2 & ->)|(p & _ & Y)]; [|discriminate].
  apply app_in in I. destruct I as [I1 I2]. specialize (H1 _ _ _ _ _ X1 I1). rewrite printed_app. destruct y as [[a lo1]|e].
  - specialize (H2 _ _ _ _ _ _ X2 I2). destruct x as [[c lo2]|e]; [eauto 8|right; eauto 8].
  - inversion X2; subst. left. unfold crud_printed at 2. cbn [outputs flat_map report_text map String.concat]. rewrite str_app_nil. exact H1.
Qed.
(** a statement that prints a text satisfying [P] and cannot fail *)
Lemma says_then {A B} (m : stmt A) (k : A -> stmt B) P (Q : B -> string -> Prop) E :
  says m (fun _ => P) noerr -> (forall a, says (k a) Q E) ->
  says (sbind m k) (fun c txt => exists x y, txt = (x ++ y)%string /\ P x /\ Q c y)
                   (fun e txt => exists x y, txt = (x ++ y)%string /\ P x /\ E e y).
Proof.
  intros H1 H2. eapply says_weak; [apply (says_bind m k _ _ _ _ H1 H2)|..].
  - intros c x (_ & y & z & H). eauto.
  - intros e x [[]|(_ & y & z & H)]. eauto.
Qed.
Lemma says_silent {A B} (m : stmt A) (k : A -> stmt B) (Q : B -> string -> Prop) E :
  says m (fun _ x => x = ""%string) noerr -> (forall a, says (k a) Q E) -> says (sbind m k) Q E.
Proof.
  intros H1 H2. eapply says_weak; [apply (says_then m k _ _ _ H1 H2)|..].
  - intros c x (y & z & -> & -> & H). exact H.
  - intros e x (y & z & -> & -> & H). exact H.
Qed.
Lemma says_ret {A} (a : A) (Q : A -> string -> Prop) E : Q a ""%string -> says (sret a) Q E.
Proof. intros H lo s tr s' x X _. unfold sret in X. inversion X; subst. exact H. Qed.
Lemma says_lift {A} (m : res A) : says (slift m) (fun a x => m = Val a /\ x = ""%string) noerr.
Proof. intros lo s tr s' x X _. unfold slift, lift in X. destruct m; cbn [pbind] in X; inversion X; subst. split; reflexivity. Qed.
Lemma says_lift_any {A} (m : res A) : says (slift m) (fun _ x => x = ""%string) noerr.
Proof. eapply says_weak; [apply says_lift|intros a x H; apply H|auto]. Qed.
Lemma says_output i : says (output_ i) (fun _ x => x = item_text i /\ In (EvOutput i) TR) noerr.
Proof.
  intros lo s tr s' x X I. unfold output_ in X. inversion X; subst. match goal with H : exec _ _ (Ret _) _ _ _ _ |- _ => inversion H; subst end.
  split; [reflexivity|apply I; left; reflexivity].
Qed.
Lemma says_text s0 : says (output_ (IText s0)) (fun _ x => x = s0) noerr.
Proof. eapply says_weak; [apply says_output|intros a x H; apply H|auto]. Qed.
Lemma says_pass ph op ty r T : says (run_iterator_pass ph op ty r T) (fun x txt => has ph op (fst x) /\ txt = ""%string) noerr.
Proof.
  intros lo s tr s' x X I. unfold run_iterator_pass in X. inversion X; subst. match goal with H : exec _ _ (Ret _) _ _ _ _ |- _ => inversion H; subst end.
  split; [|reflexivity]. eexists _, _, _. apply I. left. reflexivity.
Qed.
Lemma says_verbose ph op pre suf ty r T :
  says (run_iterator_pass_verbosely b ph op pre suf ty r T) (fun _ txt => exists m P, has ph op m /\ measured_text P m /\ txt = (pre ++ P ++ suf)%string) noerr.
Proof.
  unfold run_iterator_pass_verbosely. eapply says_weak.
  - eapply says_bind; [apply says_pass|]. intros x. eapply says_bind; [apply says_lift|]. intros c.
    apply says_then with (Q := fun _ z => z = ""%string) (E := noerr); [|intros ?; apply says_ret; reflexivity].
    eapply says_weak; [apply says_output|intros a z Z; exact (proj1 Z)|auto].
  - intros _ txt ([m v] & x & y & -> & (HM & ->) & (c & z & w & -> & (F & ->) & (p & q & -> & -> & ->))). cbn [fst] in *.
    destruct (pass_line_text b pre m suf c (has_sane _ _ _ HM) F) as (P & L & M). exists m, P. split; [exact HM|]. split; [exact M|].
    cbn [item_text]. rewrite L. cbn [append]. rewrite ?str_app_nil. reflexivity.
  - intros e txt [[]|(x & y & z & _ & _ & [[]|(c & p & q & _ & _ & (p' & q' & _ & _ & []))])].
Qed.
Lemma says_store op n m v : says (store op n m v) (fun _ x => x = ""%string) noerr.
Proof. intros lo s tr s' x X _. unfold store in X. inversion X; subst. reflexivity. Qed.
Lemma says_load op i : says (load op i) (fun _ x => x = ""%string) noerr.
Proof. intros lo s tr s' x X _. unfold load in X. destruct (nth_error _ _); inversion X; subst. reflexivity. Qed.
Definition abort op : crud_error -> string -> Prop := fun e x => ce_operation e = op /\ x = aborted e.
Lemma says_yield op i m1 m2 tc sc : says (yield_analysis cfg op i m1 m2 tc sc) (fun _ x => x = ""%string) (abort op).
Proof.
  unfold yield_analysis. cbv zeta. assert (K : forall w mx c, says (sbind (output_ (IAborted op w mx c)) (fun _ lo => Ret (inr (CrudError op w c mx (lo_report lo)))))
    (fun (_ : option analysis) x => x = ""%string) (abort op)).
  { intros w mx c lo s tr s' x X I. unfold sbind, output_ in X. cbn [pbind] in X. inversion X; subst. match goal with H : exec _ _ (Ret _) _ _ _ _ |- _ => inversion H; subst end.
    split; reflexivity. }
  destruct (worse_than tc _); [apply K|]. destruct (worse_than sc _); [apply K|apply says_ret; reflexivity].
Qed.
(** the text of a pass, if its operation is enabled *)
Definition piece ph op pre suf (txt : string) : Prop :=
  if 0 <? iterations cfg op then exists m P, has ph op m /\ measured_text P m /\ txt = (pre ++ P ++ suf)%string else txt = ""%string.
Lemma says_constant op suf n : (n = 0 \/ n = 1) ->
  says (run_constant_set_pass b t l cfg op suf n) (fun _ => piece (phase_of n) op (lowercase (operation_name op) ++ ": ")%string suf)
    (fun e txt => n = 1 /\ exists x y, txt = (x ++ y)%string /\ piece (phase_of n) op (lowercase (operation_name op) ++ ": ")%string suf x /\ abort op e y).
Proof.
  intros Hn. unfold run_constant_set_pass, piece. cbv zeta. change (oc_iterations (cfg_of cfg op)) with (iterations cfg op).
  destruct (0 <? iterations cfg op); [|apply says_ret; reflexivity].
  apply says_silent; [apply says_lift_any|]. intros r. eapply says_weak.
  - eapply says_then with (Q := fun _ x => x = ""%string) (E := fun e x => n = 1 /\ abort op e x); [apply says_verbose|]. intros x.
    apply says_silent; [apply says_store|]. intros ?. destruct (Z.eqb_spec n (2 - 1)) as [N|N]; [|apply says_ret; reflexivity].
    apply says_silent; [apply says_lift_any|]. intros tw. apply says_silent; [apply says_load|]. intros m1. apply says_silent; [apply says_load|]. intros m2.
    apply says_silent; [apply says_lift_any|]. intros sc. eapply says_weak; [apply says_yield|auto|]. intros e z Z. split; [lia|exact Z].
  - intros _ txt (x & y & -> & H & ->). rewrite str_app_nil. exact H.
  - intros e txt (x & y & -> & H & N & Y). split; [exact N|]. exists x, y. split; [reflexivity|]. split; [exact H|exact Y].
Qed.
Lemma says_resizing op suf pf rf lst n :
  says (run_set_resizing_pass b t l cfg op suf pf rf lst n) (fun _ => piece (phase_of n) op (pf n (operation_name op)) suf)
    (fun e txt => n = lst /\ exists x y, txt = (x ++ y)%string /\ piece (phase_of n) op (pf n (operation_name op)) suf x /\ abort op e y).
Proof.
  unfold run_set_resizing_pass, piece. cbv zeta. change (oc_iterations (cfg_of cfg op)) with (iterations cfg op).
  destruct (0 <? iterations cfg op); [|apply says_ret; reflexivity].
  apply says_silent; [apply says_lift_any|]. intros r. eapply says_weak.
  - eapply says_then with (Q := fun _ x => x = ""%string) (E := fun e x => n = lst /\ abort op e x); [apply says_verbose|]. intros x.
    apply says_silent; [apply says_store|]. intros ?. destruct (Z.eqb_spec n lst) as [N|N]; [|apply says_ret; reflexivity].
    apply says_silent; [apply says_load|]. intros m1. apply says_silent; [apply says_load|]. intros m2.
    apply says_silent; [apply says_lift_any|]. intros sc. eapply says_weak; [apply says_yield|auto|]. intros e z Z. split; [exact N|exact Z].
  - intros _ txt (x & y & -> & H & ->). rewrite str_app_nil. exact H.
  - intros e txt (x & y & -> & H & N & Y). split; [exact N|]. exists x, y. split; [reflexivity|]. split; [exact H|exact Y].
Qed.

Lemma says_warm op c ty rf : says (warmup_pass cfg op c ty rf) (fun _ x => x = if 0 <? iterations cfg op then c else ""%string) noerr.
Proof.
  unfold warmup_pass. cbv zeta. change (oc_iterations (cfg_of cfg op)) with (iterations cfg op).
  destruct (0 <? iterations cfg op); [|apply says_ret; reflexivity]. eapply says_weak.
  - eapply says_then with (Q := fun _ x => x = ""%string) (E := noerr); [apply says_text|]. intros ?.
    apply says_silent; [apply says_lift_any|]. intros r.
    apply says_silent; [eapply says_weak; [apply says_pass|intros ? ? H; apply H|auto]|]. intros x.
    intros lo s tr s' y X _. inversion X; subst. reflexivity.
  - intros _ txt (x & y & -> & -> & ->). apply str_app_nil.
  - intros e txt (x & y & _ & _ & []).
Qed.
Lemma says_warmup : says (warmup b cfg) (fun _ => warmup_says cfg TR) noerr.
Proof.
  unfold warmup, warmup_says. destruct (0 <? cc_warmup cfg); [|apply says_ret; reflexivity].
  eapply says_weak.
  - eapply says_then with (E := noerr); [apply says_text|]. intros ?.
    eapply says_weak; [eapply says_then with (E := noerr); [apply says_warm|intros ?]|intros ? ? H; exact H|intros ? ? (p & q & _ & _ & [])].
    eapply says_weak; [eapply says_then with (E := noerr); [apply says_warm|intros ?]|intros ? ? H; exact H|intros ? ? (p & q & _ & _ & [])].
    eapply says_weak; [eapply says_then with (E := noerr); [apply says_warm|intros ?]|intros ? ? H; exact H|intros ? ? (p & q & _ & _ & [])].
    eapply says_weak; [eapply says_then with (E := noerr); [apply says_warm|intros ?]|intros ? ? H; exact H|intros ? ? (p & q & _ & _ & [])].
    eapply says_weak; [eapply says_then with (E := noerr); [apply says_text|intros ?]|intros ? ? H; exact H|intros ? ? (p & q & _ & _ & [])].
    apply says_silent; [apply says_lift_any|]. intros n.
    apply says_silent with (Q := fun _ txt => exists d, (0 <= d /\ In (EvClock d) TR) /\ txt = (duration_debug d ++ ", ")%string).
    { intros lo s tr s' x X _. inversion X; subst. match goal with H : exec _ _ (Ret _) _ _ _ _ |- _ => inversion H; subst end. reflexivity. }
    intros ?. eapply says_weak.
    + eapply says_bind with (Q1 := fun d x => (0 <= d /\ In (EvClock d) TR) /\ x = ""%string) (E1 := noerr).
      * intros lo s tr s' x X I. inversion X; subst. match goal with H : exec _ _ (Ret _) _ _ _ _ |- _ => inversion H; subst end. split; [split; [assumption|apply I; left; reflexivity]|reflexivity].
      * intros d. apply says_output.
    + intros _ txt (d & x & y & -> & (D & ->) & (-> & _)). exists d. split; [exact D|reflexivity].
    + intros e x [[]|(d & p & q & _ & _ & [])].
  - intros _ txt (x0 & y0 & -> & -> & x1 & y1 & -> & -> & x2 & y2 & -> & -> & x3 & y3 & -> & -> & x4 & y4 & -> & -> & x5 & y5 & -> & -> & d & [D ID] & ->).
    exists (duration_debug d), d. split; [|split; [apply read_duration_debug, D|exact ID]].
    unfold only_enabled. cbn [filter].
    destruct (0 <? iterations cfg Create), (0 <? iterations cfg Read), (0 <? iterations cfg Update), (0 <? iterations cfg Delete);
      cbn [map letter String.concat append]; reflexivity.
  - intros e x (p & q & _ & _ & []).
Qed.

Definition sep (op : operation) : string :=
  separator match op with
            | Create => (0 <? iterations cfg Read) || (0 <? iterations cfg Update)
            | Read => 0 <? iterations cfg Update
            | _ => false
            end.
Definition first_texts (txt : string) : Prop :=
  exists W c r u', txt = (heading cfg ++ W ++ "First Pass (" ++ c ++ r ++ u' ++ "); Second Pass (")%string /\ warmup_says cfg TR W /\
    piece First Create (intro Create) (sep Create) c /\ piece First Read (intro Read) (sep Read) r /\ piece First Update (intro Update) (sep Update) u'.
Definition cru_texts (txt : string) : Prop :=
  exists H c r u', txt = (H ++ c ++ r ++ u' ++ "):" ++ newline ++ newline)%string /\ first_texts H /\
    piece Second Create (intro Create) (sep Create) c /\ piece Second Read (intro Read) (sep Read) r /\ piece Second Update (intro Update) (sep Update) u'.
Definition cru_error (e : crud_error) (txt : string) : Prop :=
  exists H c r u', txt = (H ++ c ++ r ++ u' ++ aborted e)%string /\ first_texts H /\
    piece Second Create (intro Create) (sep Create) c /\
    match ce_operation e with
    | Create => r = ""%string /\ u' = ""%string
    | Read => piece Second Read (intro Read) (sep Read) r /\ u' = ""%string
    | Update => piece Second Read (intro Read) (sep Read) r /\ piece Second Update (intro Update) (sep Update) u'
    | Delete => False
    end.
Lemma says_create n : says (run_create_pass b t l cfg n) (fun _ => piece (phase_of n) Create (intro Create) (sep Create))
  (fun e txt => n = 1 /\ exists x y, txt = (x ++ y)%string /\ piece (phase_of n) Create (intro Create) (sep Create) x /\ abort Create e y).
Proof. exact (says_resizing Create _ _ _ (2 - 1) n). Qed.
Lemma says_read n : (n = 0 \/ n = 1) -> says (run_read_pass b t l cfg n) (fun _ => piece (phase_of n) Read (intro Read) (sep Read))
  (fun e txt => n = 1 /\ exists x y, txt = (x ++ y)%string /\ piece (phase_of n) Read (intro Read) (sep Read) x /\ abort Read e y).
Proof. exact (says_constant Read _ n). Qed.
Lemma says_update n : (n = 0 \/ n = 1) -> says (run_update_pass b t l cfg n) (fun _ => piece (phase_of n) Update (intro Update) (sep Update))
  (fun e txt => n = 1 /\ exists x y, txt = (x ++ y)%string /\ piece (phase_of n) Update (intro Update) (sep Update) x /\ abort Update e y).
Proof. exact (says_constant Update _ n). Qed.
Lemma no_first {A} (m : stmt A) P E : says m (fun _ => P) (fun e txt => 0 = 1 /\ E e txt) -> says m (fun _ => P) noerr.
Proof. intros H. eapply says_weak; [exact H|auto|]. intros e x [X _]. discriminate. Qed.

Lemma says_cru : says (cru_passes b t l cfg) (fun _ => cru_texts) cru_error.
Proof.
  unfold cru_passes. eapply says_weak.
  - eapply says_then; [apply says_text|]. intros ?.
    eapply says_then; [apply says_warmup|]. intros ?.
    eapply says_then; [apply says_text|]. intros ?.
    eapply says_then; [eapply no_first; apply says_create|]. intros ?.
    eapply says_then; [eapply no_first; apply says_read; auto|]. intros ?.
    eapply says_then; [eapply no_first; apply says_update; auto|]. intros ?.
    eapply says_then; [apply says_text|]. intros ?.
    eapply says_bind; [apply says_create|]. intros ca.
    eapply says_bind; [apply says_read; auto|]. intros ra.
    eapply says_bind; [apply says_update; auto|]. intros ua.
    eapply says_then with (Q := fun _ x => x = ""%string) (E := noerr); [apply says_text|]. intros ?. apply says_ret. reflexivity.
  - intros _ txt (x0 & y0 & -> & -> & W & y1 & -> & HW & x2 & y2 & -> & -> & c1 & y3 & -> & C1 & r1 & y4 & -> & R1 & u1 & y5 & -> & U1 & x6 & y6 & -> & -> &
      _ & c2 & y7 & -> & C2 & _ & r2 & y8 & -> & R2 & _ & u2 & y9 & -> & U2 & x10 & y10 & -> & -> & ->).
    exists (heading cfg ++ W ++ "First Pass (" ++ c1 ++ r1 ++ u1 ++ "); Second Pass (")%string, c2, r2, u2. split.
    + unfold heading. rewrite ?str_app_nil, <- ?str_app_assoc. reflexivity.
    + split; [|auto]. exists W, c1, r1, u1. auto.
  - intros e txt (x0 & y0 & -> & -> & W & y1 & -> & HW & x2 & y2 & -> & -> & c1 & y3 & -> & C1 & r1 & y4 & -> & R1 & u1 & y5 & -> & U1 & x6 & y6 & -> & -> & H).
    assert (FT : first_texts (heading cfg ++ W ++ "First Pass (" ++ c1 ++ r1 ++ u1 ++ "); Second Pass (")%string) by (exists W, c1, r1, u1; auto).
    destruct H as [(_ & c2 & y & -> & C2 & A & ->)|(_ & c2 & y7 & -> & C2 & [(_ & r2 & y & -> & R2 & A & ->)|(_ & r2 & y8 & -> & R2 & [(_ & u2 & y & -> & U2 & A & ->)|(_ & u2 & y9 & _ & _ & (p & q & _ & _ & []))])])].
    + exists (heading cfg ++ W ++ "First Pass (" ++ c1 ++ r1 ++ u1 ++ "); Second Pass (")%string, c2, ""%string, ""%string. rewrite A.
      split; [unfold heading; rewrite <- ?str_app_assoc; reflexivity|]. auto.
    + exists (heading cfg ++ W ++ "First Pass (" ++ c1 ++ r1 ++ u1 ++ "); Second Pass (")%string, c2, r2, ""%string. rewrite A.
      split; [unfold heading; rewrite <- ?str_app_assoc; reflexivity|]. auto.
    + exists (heading cfg ++ W ++ "First Pass (" ++ c1 ++ r1 ++ u1 ++ "); Second Pass (")%string, c2, r2, u2. rewrite A.
      split; [unfold heading; rewrite <- ?str_app_assoc; reflexivity|]. auto.
Qed.

Definition shown_report op (a : option analysis) (txt : string) : Prop :=
  if 0 <? iterations cfg op then exists a' r, a = Some a' /\ display b a' = Val r /\ txt = item_text (IAnalysis op (an_info a') r) else txt = ""%string.
Lemma says_report op a : says (report_analysis b cfg op a) (fun _ => shown_report op a) noerr.
Proof.
  unfold report_analysis, shown_report. destruct (0 <? iterations cfg op); [|apply says_ret; reflexivity].
  destruct a as [a|].
  2:{ eapply says_weak; [apply (says_lift (Panic PExpect))|intros x y [H _]; discriminate|auto]. }
  eapply says_weak; [eapply says_bind; [apply says_lift|intros r; apply says_output]|..].
  - intros _ txt (r & x & y & -> & (D & ->) & (-> & _)). eauto 6.
  - intros e txt [[]|(r & x & y & _ & _ & [])].
Qed.
Definition delete_texts (txt : string) : Prop :=
  exists d2 d1, txt = ("Delete Passes (" ++ d2 ++ d1)%string /\ piece Second Delete "2nd: " ""%string d2 /\ piece First Delete "; 1st: " ""%string d1.
Lemma says_delete : says (delete_passes b t l cfg)
  (fun a txt => if 0 <? iterations cfg Delete then
     exists D x R, txt = (D ++ (") r=" ++ dec x ++ ":" ++ newline) ++ R)%string /\ delete_texts D /\ In (EvOutput (IComputed x)) TR /\ shown_report Delete a R
     else txt = ""%string)
  (fun e txt => ce_operation e = Delete /\ exists D, txt = (D ++ aborted e)%string /\ delete_texts D).
Proof.
  unfold delete_passes. destruct (0 <? iterations cfg Delete) eqn:EN; [|apply says_ret; reflexivity].
  eapply says_weak.
  - eapply says_then; [apply says_text|]. intros ?.
    eapply says_bind; [apply (says_resizing Delete _ _ _ 0 1)|]. intros ?.
    eapply says_bind; [apply (says_resizing Delete _ _ _ 0 0)|]. intros da.
    eapply says_then with (P := fun y => exists x, y = item_text (IComputed x) /\ In (EvOutput (IComputed x)) TR)
      (Q := fun c z => c = da /\ shown_report Delete da z) (E := noerr).
    { intros lo s tr s' y X I. pose proof (says_output (IComputed (lo_r lo)) lo s tr s' y X I) as H. destruct y as [[? ?]|?]; [exists (lo_r lo); exact H|exact H]. }
    intros ?. eapply says_weak; [eapply says_then with (Q := fun c z => c = da /\ z = ""%string) (E := noerr); [apply says_report|intros ?; apply says_ret; auto]|..].
    + intros c x (p & q & -> & H & -> & ->). rewrite str_app_nil. auto.
    + intros e x (p & q & _ & _ & []).
  - intros c txt (x0 & y0 & -> & -> & _ & d2 & y1 & -> & D2 & a' & d1 & y2 & -> & D1 & y3 & R & -> & (x & -> & IX) & (-> & HR)).
    exists ("Delete Passes (" ++ d2 ++ d1)%string, x, R. split; [cbn [item_text]; rewrite <- ?str_app_assoc; reflexivity|].
    split; [exists d2, d1; split; [reflexivity|]; split; [exact D2|exact D1]|]. split; [exact IX|exact HR].
  - intros e txt (x0 & y0 & -> & -> & [(X & _)|(_ & d2 & y1 & -> & D2 & [(_ & d1 & y & -> & D1 & A & ->)|(_ & d1 & y2 & _ & _ & (p & q & _ & _ & []))])]); [discriminate|].
    split; [exact A|]. exists ("Delete Passes (" ++ d2 ++ d1)%string. split; [rewrite <- ?str_app_assoc; reflexivity|]. exists d2, d1. split; [reflexivity|]. split; [exact D2|exact D1].
Qed.

End Says.

(** *** From pieces to measurements *)
Definition unique (A : list act) : Prop := forall ph op, ph <> Warmup -> forall A1 r T A2, A = A1 ++ APass ph op r T :: A2 -> fresh ph op A1.
Lemma measurement_unique tr ph op r T log m : unique (acts tr) -> ph <> Warmup -> In (EvPass ph op r T log (Some m)) tr -> measurement tr ph op = Some m.
Proof.
  intros U W I. apply in_split in I. destruct I as (tr1 & tr2 & ->). rewrite acts_app in U. cbn [acts flat_map act_of app] in U. fold (acts tr2) in U.
  rewrite measurement_app_fresh by exact (U ph op W _ _ _ _ eq_refl). cbn [measurement]. rewrite phase_eqb_refl, operation_eqb_refl. reflexivity.
Qed.
Lemma unique_prefix A B : unique (A ++ B) -> unique A.
Proof. intros U ph op W A1 r T A2 ->. apply (U ph op W A1 r T (A2 ++ B)). rewrite <- app_assoc. reflexivity. Qed.
Definition labels (A : list act) : list (phase * operation) :=
  flat_map (fun a => match a with APass Warmup _ _ _ => [] | APass ph op _ _ => [(ph, op)] | AReset _ => [] end) A.
Lemma labels_app A B : labels (A ++ B) = labels A ++ labels B.
Proof. apply flat_map_app. Qed.
Lemma labels_pass cfg ph op r : labels (pass_on cfg ph op r) = if 0 <? iterations cfg op then match ph with Warmup => [] | _ => [(ph, op)] end else [].
Proof. unfold pass_on, enabled_. destruct (0 <? iterations cfg op); [destruct ph; reflexivity|reflexivity]. Qed.
Lemma labels_warmup cfg : labels (warmup_acts cfg) = [].
Proof.
  unfold warmup_acts. destruct (0 <? cc_warmup cfg); [|reflexivity]. rewrite !labels_app, !labels_pass.
  destruct (0 <? iterations cfg Create), (0 <? iterations cfg Read), (0 <? iterations cfg Update), (0 <? iterations cfg Delete); reflexivity.
Qed.
Lemma unique_labels A : NoDup (labels A) -> unique A.
Proof.
  intros N ph op W A1 r T A2 ->. rewrite labels_app in N.
  assert (E : labels (APass ph op r T :: A2) = (ph, op) :: labels A2) by (destruct ph; [congruence|reflexivity|reflexivity]).
  rewrite E in N. apply NoDup_remove_2 in N. apply Forall_forall. intros a I L. apply N. apply in_or_app. left.
  unfold labels. apply in_flat_map. exists a. split; [exact I|]. destruct a as [ph' op' r' T'|n]; cbn [labelled] in L; [|contradiction].
  destruct L as [-> ->]. destruct ph; [congruence| |]; left; reflexivity.
Qed.
Lemma unique_all cfg : unique (all_acts cfg).
Proof.
  apply unique_labels. unfold all_acts, acts_until, first_acts. rewrite !labels_app, labels_warmup, !labels_pass.
  destruct (0 <? iterations cfg Create), (0 <? iterations cfg Read), (0 <? iterations cfg Update), (0 <? iterations cfg Delete); cbn [app];
    repeat (constructor; [cbn [In]; intuition discriminate|]); constructor.
Qed.
Lemma unique_until cfg op : unique (acts_until cfg op).
Proof. destruct (until_prefix cfg op) as [rest E]. apply (unique_prefix _ rest). rewrite <- E. apply unique_all. Qed.

Section Convert.
Context {S : Type}.
Variables (b : build) (t : tolerance) (l : libm) (u : user S) (cfg : crud_cfg) (tr : list event).
Hypothesis SANE : sane_measurements tr.
Hypothesis UNIQUE : unique (acts tr).
Lemma has_measurement ph op m : ph <> Warmup -> has tr ph op m -> measurement tr ph op = Some m.
Proof. intros W (r & T & log & I). eapply measurement_unique; eassumption. Qed.
Lemma piece_introduced ph op suf x : ph <> Warmup -> piece cfg tr ph op (intro op) suf x ->
  if 0 <? iterations cfg op then exists y, x = (y ++ suf)%string /\ introduced tr ph op y else x = ""%string.
Proof.
  intros W H. unfold piece in H. destruct (0 <? iterations cfg op); [|exact H]. destruct H as (m & P & HM & MT & ->).
  exists (intro op ++ P)%string. split; [rewrite <- str_app_assoc; reflexivity|]. exists P. split; [reflexivity|]. exists m. split; [apply has_measurement; assumption|exact MT].
Qed.
Ltac join_ W := unfold sep, only_enabled; cbn [filter up_to after];
  repeat match goal with H : piece _ _ _ _ _ _ _ |- _ => apply (piece_introduced _ _ _ _ W) in H end;
  unfold sep in *;
  destruct (0 <? iterations cfg Create), (0 <? iterations cfg Read), (0 <? iterations cfg Update); cbn [orb separator] in *;
    repeat match goal with H : exists y, _ /\ introduced _ _ _ _ |- _ => let y := fresh "y" in destruct H as (y & -> & ?) end;
    subst; try discriminate; (eexists; split; [|repeat (apply Forall2_cons; [eassumption|]); apply Forall2_nil]);
    unfold joined; cbn [String.concat append]; rewrite ?str_app_nil, <- ?str_app_assoc; try reflexivity.
(** each piece is followed by a comma if another one follows *)
Lemma join_texts ph c r u' : ph <> Warmup ->
  piece cfg tr ph Create (intro Create) (sep cfg Create) c -> piece cfg tr ph Read (intro Read) (sep cfg Read) r -> piece cfg tr ph Update (intro Update) (sep cfg Update) u' ->
  exists Ps, (c ++ r ++ u')%string = joined Ps /\ Forall2 (introduced tr ph) (only_enabled cfg [Create; Read; Update]) Ps.
Proof. intros W C R U. join_ W. Qed.
Lemma join_create c : (0 <? iterations cfg Create) = true -> piece cfg tr Second Create (intro Create) (sep cfg Create) c ->
  exists Ps, c = (joined Ps ++ match only_enabled cfg (after Create) with [] => "" | _ => ", " end)%string /\ Forall2 (introduced tr Second) (only_enabled cfg (up_to Create)) Ps.
Proof. intros E C. assert (W : Second <> Warmup) by discriminate. join_ W. Qed.
Lemma join_read c r : (0 <? iterations cfg Read) = true ->
  piece cfg tr Second Create (intro Create) (sep cfg Create) c -> piece cfg tr Second Read (intro Read) (sep cfg Read) r ->
  exists Ps, (c ++ r)%string = (joined Ps ++ match only_enabled cfg (after Read) with [] => "" | _ => ", " end)%string /\ Forall2 (introduced tr Second) (only_enabled cfg (up_to Read)) Ps.
Proof. intros E C R. assert (W : Second <> Warmup) by discriminate. join_ W. Qed.
Lemma first_ok H : first_texts cfg tr H -> first_says cfg tr H.
Proof.
  intros (W & c & r & u' & -> & HW & C & R & U). destruct (join_texts First c r u' ltac:(discriminate) C R U) as (Ps & E & F).
  exists W, Ps. rewrite <- E. split; [rewrite <- ?str_app_assoc; reflexivity|]. auto.
Qed.
Lemma report_ok op a txt : cfg_ok cfg -> no_overflow cfg -> (0 <? iterations cfg op) = true ->
  verdict b t l cfg tr op a -> shown_report b cfg op a txt -> op_report b t l cfg tr op txt.
Proof.
  intros CFG NO EN V R. unfold verdict, shown_report in *. rewrite EN in *. destruct V as (m1 & m2 & tc & sc & O & _ & _ & ->).
  destruct R as (a' & r & Q & D & ->). injection Q as <-. pose proof O as (M1 & M2 & _).
  destruct (sane_measured _ _ _ _ SANE M1) as (D1 & W1 & B1). destruct (sane_measured _ _ _ _ SANE M2) as (D2 & W2 & B2).
  apply Z.ltb_lt in EN. destruct CFG as [_ CFG]. destruct (CFG op) as [[I1 I2] _]. destruct (CFG Create) as [[I3 I4] _]. destruct (NO op) as [N1 _].
  exists m1, m2, tc, sc. unfold display in D. cbv zeta in D. cbn [an_info an_pass_1 an_pass_2 an_time an_space item_text] in *.
  assert (NL : lines (operation_name op) = [operation_name op]) by (destruct op; reflexivity).
  assert (K1 : forall txt, set_resizing_report b (operation_name op) (iterations cfg op) (pr_time m1) (pr_time m2) (pr_space m1) (pr_space m2) tc sc = Val txt ->
    info cfg op = SetResizingInfo (iterations cfg op) -> analysis_text (kind_of (info cfg op)) (operation_name op) r = txt).
  { intros x X IN. rewrite IN in *. unfold set_resizing_report in X. rewrite D in X. cbn [bind] in X. apply val_inj in X. exact X. }
  assert (K2 : forall txt, constant_set_report b (operation_name op) (iterations cfg Create) (2 * iterations cfg Create) (iterations cfg op) (pr_time m1) (pr_time m2) (pr_space m1) (pr_space m2) tc sc = Val txt ->
    info cfg op = ConstantSetInfo (iterations cfg Create) (2 * iterations cfg Create) (iterations cfg op) -> analysis_text (kind_of (info cfg op)) (operation_name op) r = txt).
  { intros x X IN. rewrite IN in *. unfold constant_set_report in X. rewrite D in X. cbn [bind] in X. apply val_inj in X. exact X. }
  assert (RS : op = Create \/ op = Delete \/ op = Read \/ op = Update) by (destruct op; auto).
  clear D. destruct RS as [RS|RS].
  2: destruct RS as [RS|RS].
  1,2: destruct (C103_set_resizing_report b (operation_name op) (iterations cfg op) (pr_time m1) (pr_time m2) (pr_space m1) (pr_space m2) tc sc NL D1 D2 ltac:(lia) N1 W1 W2 B1 B2) as (R & HR & SR);
    exists R; rewrite (K1 R HR) by (rewrite RS; reflexivity); split; [exact O|]; split; [reflexivity|]; cbv zeta; rewrite RS in *; exact SR.
  destruct (C103_constant_set_report b (operation_name op) (iterations cfg Create) (2 * iterations cfg Create) (iterations cfg op) (pr_time m1) (pr_time m2) (pr_space m1) (pr_space m2) tc sc NL D1 D2 ltac:(lia) ltac:(lia) ltac:(lia) W1 W2 B1 B2) as (R & HR & SR).
  exists R. rewrite (K2 R HR) by (destruct RS as [-> | ->]; reflexivity). split; [exact O|]. split; [reflexivity|]. cbv zeta. destruct RS as [RS|RS]; rewrite RS in *; exact SR.
Qed.
Lemma reports_ok ca ra ua rc rr ru : cfg_ok cfg -> no_overflow cfg -> cru_done b t l cfg (ca, ra, ua) tr ->
  shown_report b cfg Create ca rc -> shown_report b cfg Read ra rr -> shown_report b cfg Update ua ru ->
  exists Rs, (rc ++ rr ++ ru)%string = String.concat "" Rs /\ Forall2 (op_report b t l cfg tr) (only_enabled cfg [Create; Read; Update]) Rs.
Proof.
  intros CFG NO [[VC VR] VU] HC HR HU. cbn [fst snd] in *.
  pose proof (report_ok Create ca rc CFG NO) as KC. pose proof (report_ok Read ra rr CFG NO) as KR. pose proof (report_ok Update ua ru CFG NO) as KU.
  pose proof HC as HC'. pose proof HR as HR'. pose proof HU as HU'. unfold shown_report in HC', HR', HU'. unfold only_enabled. cbn [filter].
  destruct (0 <? iterations cfg Create), (0 <? iterations cfg Read), (0 <? iterations cfg Update); subst;
    repeat match goal with K : true = true -> _ |- _ => specialize (K eq_refl ltac:(assumption) ltac:(assumption)) end;
    (eexists; split; [|repeat (apply Forall2_cons; [eassumption|]); apply Forall2_nil]);
    cbn [String.concat append]; rewrite ?str_app_nil, <- ?str_app_assoc; reflexivity.
Qed.
Lemma cru_ok C ca ra ua rc rr ru : cfg_ok cfg -> no_overflow cfg -> cru_texts cfg tr C -> cru_done b t l cfg (ca, ra, ua) tr ->
  shown_report b cfg Create ca rc -> shown_report b cfg Read ra rr -> shown_report b cfg Update ua ru ->
  cru_says b t l cfg tr (C ++ rc ++ rr ++ ru)%string.
Proof.
  intros CFG NO (H & c & r & u' & -> & HF & HC & HR & HU) CD RC RR RU.
  destruct (reports_ok ca ra ua rc rr ru CFG NO CD RC RR RU) as (Rs & E & F). rewrite E.
  destruct (join_texts Second c r u' ltac:(discriminate) HC HR HU) as (Ps & EP & FP).
  exists H, Ps, Rs. rewrite <- EP. split; [rewrite <- ?str_app_assoc; reflexivity|]. split; [apply first_ok, HF|]. auto.
Qed.
Lemma delete_ok D : (0 <? iterations cfg Delete) = true -> delete_texts cfg tr D -> delete_says tr D.
Proof.
  intros EN (d2 & d1 & -> & H2 & H1). unfold piece in *. rewrite EN in *. destruct H2 as (m2 & P2 & M2 & T2 & ->). destruct H1 as (m1 & P1 & M1 & T1 & ->).
  exists P2, P1. split; [rewrite ?str_app_nil; reflexivity|].
  split; [exists m2; split; [apply has_measurement; [discriminate|exact M2]|exact T2]|exists m1; split; [apply has_measurement; [discriminate|exact M1]|exact T1]].
Qed.
End Convert.

Lemma number_ok S b t l (u : user S) cfg s tr s' r x : cfg_ok cfg -> no_overflow cfg -> (0 <? iterations cfg Delete) = true ->
  exec b u (internal_analyse_crud_algorithms b t l cfg) s tr s' (Val (inl r)) -> In (EvOutput (IComputed x)) tr ->
  exists vs, returned b u tr vs /\ x = xor_all vs.
Proof.
  intros CFG NO EN E I. pose proof (C76_reported_once_after_every_pass _ _ _ _ _ _ _ _ _ _ CFG (or_intror NO) E) as H. rewrite EN in H.
  destruct H as (y & tr1 & tr2 & ET & _ & A2 & CO).
  assert (x = y) as ->.
  { apply in_split in I. destruct I as (p & q & ->). rewrite computed_app in CO.
    change (computed p ++ x :: computed q = [y]) in CO. destruct (computed p) as [|z [|]]; [injection CO as <- _; reflexivity|discriminate|discriminate]. }
  destruct (C76_computed_number _ _ _ _ _ _ _ _ _ _ _ _ _ E ET) as (vs & R & X). exists vs. split; [|exact X]. rewrite ET, <- (app_nil_r vs).
  apply returned_app; [exact R|]. constructor. clear - A2. induction tr2 as [|e tr2 IH]; [constructor|].
  destruct e as [ph op r T log m|n|i|d]; [discriminate|discriminate| |]; constructor; apply IH; exact A2.
Qed.

(** ** C106: an analysis that ends -- successfully or with an error -- prints this and nothing
    else, and hands the same text to its caller *)
Theorem C106_analysis : forall S b t l (u : user S) cfg s tr s' x,
  cfg_ok cfg -> no_overflow cfg ->
  exec b u (internal_analyse_crud_algorithms b t l cfg) s tr s' (Val x) -> sane_measurements tr ->
  analysis_says b t l u cfg tr x (crud_printed tr) /\ report_text (report_of x) = crud_printed tr.
Proof.
  intros S b t l u cfg s tr s' x CFG NO E SM.
  pose proof (internal_spec b t l u cfg s tr s' _ CFG (or_intror NO) E) as SP. cbv beta iota in SP.
  assert (UN : unique (acts tr)).
  { destruct x as [r|e]; [destruct SP as (-> & _); apply unique_all|destruct SP as (_ & -> & _); apply unique_until]. }
  split.
  2:{ unfold crud_printed. f_equal. destruct x as [r|e]; [apply SP|apply SP]. }
  pose proof E as E0. unfold internal_analyse_crud_algorithms in E. apply exec_pbind in E. destruct E as [(y & tr' & s1 & tr0 & E & ER & ET)|(p & _ & Y)]; [|discriminate].
  inversion ER; subst. rewrite app_nil_r in *. clear ER. unfold internal_body, sbind in E.
  apply exec_pbind in E. destruct E as [(x1 & tr1 & s2 & tr2 & E1 & E2 & ->)|(p & _ & Y)]; [|discriminate].
  pose proof (triple_cru b t l cfg u CFG (or_intror NO) locals_init [] s tr1 s2 _ (conj eq_refl eq_refl) E1) as T1. cbn [app] in T1.
  assert (I1 : incl tr1 (tr1 ++ tr2)) by (intros z; apply in_or_app || (intros; apply in_or_app; auto)).
  assert (I2 : incl tr2 (tr1 ++ tr2)) by (intros z Z; apply in_or_app; auto).
  pose proof (says_cru b t l u cfg (tr1 ++ tr2) SM locals_init s tr1 s2 x1 E1 I1) as S1.
  destruct x1 as [[[[ca ra] ua] lo1]|e1].
  2:{ (* a create, a read or an update failed *)
    inversion E2; subst. cbn [analysis_says]. rewrite app_nil_r in *. destruct SP as (EN & _). apply Z.ltb_lt in EN.
    destruct S1 as (H & c & r & u' & -> & HF & HC & M). unfold failure_says. pose proof (first_ok cfg tr1 UN H HF) as F.
    destruct (ce_operation e1).
    - destruct M as [-> ->]. destruct (join_create cfg tr1 UN c EN HC) as (Ps & -> & FP). exists H, Ps. split; [cbn [append]; rewrite <- ?str_app_assoc; reflexivity|]. auto.
    - destruct M as [HR ->]. destruct (join_read cfg tr1 UN c r EN HC HR) as (Ps & EP & FP). exists H, Ps. split; [cbn [append]; rewrite !str_app_assoc, <- (str_app_assoc H c r), EP, !str_app_assoc; reflexivity|]. auto.
    - destruct M as [HR HU]. destruct (join_texts cfg tr1 UN Second c r u' ltac:(discriminate) HC HR HU) as (Ps & EP & FP). exists H, Ps.
      split; [change (only_enabled cfg (after Update)) with (@nil operation); cbn [append]; rewrite <- EP, <- ?str_app_assoc; reflexivity|]. auto.
    - contradiction. }
  cbn [post] in T1. destruct T1 as [_ CD]. apply (cru_done_stable b t l cfg _ tr1 tr2) in CD.
  assert (SR : says b u (tr1 ++ tr2)
    (sbind (report_analysis b cfg Create ca) (fun _ => sbind (report_analysis b cfg Read ra) (fun _ => sbind (report_analysis b cfg Update ua) (fun _ => sbind (delete_passes b t l cfg)
       (fun da lo => Ret (inl (CrudResult ca ra ua da (lo_report lo), lo)))))))
    (fun r txt => exists rc rr ru D, txt = (rc ++ rr ++ ru ++ D)%string /\ shown_report b cfg Create ca rc /\ shown_report b cfg Read ra rr /\ shown_report b cfg Update ua ru /\
       if 0 <? iterations cfg Delete then
         exists D' x R, D = (D' ++ (") r=" ++ dec x ++ ":" ++ newline) ++ R)%string /\ delete_texts cfg (tr1 ++ tr2) D' /\ In (EvOutput (IComputed x)) (tr1 ++ tr2) /\ shown_report b cfg Delete (cr_delete r) R
       else D = ""%string)
    (fun e txt => ce_operation e = Delete /\ exists rc rr ru D, txt = (rc ++ rr ++ ru ++ D ++ aborted e)%string /\
       shown_report b cfg Create ca rc /\ shown_report b cfg Read ra rr /\ shown_report b cfg Update ua ru /\ delete_texts cfg (tr1 ++ tr2) D)).
  { eapply says_weak.
    - eapply says_then; [apply says_report|]. intros ?. eapply says_then; [apply says_report|]. intros ?. eapply says_then; [apply says_report|]. intros ?.
      eapply says_bind with (Q2 := fun da r txt => cr_delete r = da /\ txt = ""%string) (E2 := fun _ => noerr); [apply says_delete; exact SM|].
      intros da lo z1 z2 z3 z4 Z _. inversion Z; subst. split; reflexivity.
    - intros r txt (rc & y0 & -> & HC & rr & y1 & -> & HR & ru & y2 & -> & HU & da & D & y3 & -> & HD & DA & ->). exists rc, rr, ru, D.
      split; [rewrite ?str_app_nil; reflexivity|]. do 3 (split; [assumption|]). rewrite DA. exact HD.
    - intros e txt (rc & y0 & -> & HC & rr & y1 & -> & HR & ru & y2 & -> & HU & [(OP & D & -> & HD)|(da & D & y3 & _ & _ & [])]).
      split; [exact OP|]. exists rc, rr, ru, D. split; [rewrite <- ?str_app_assoc; reflexivity|]. auto. }
  specialize (SR lo1 s2 tr2 _ _ E2 I2). rewrite printed_app. destruct y as [[r lo]|e]; cbn [analysis_says].
  - destruct SR as (rc & rr & ru & D & -> & HC & HR & HU & HD). unfold success_says.
    pose proof (cru_ok b t l cfg (tr1 ++ tr2) SM UN _ ca ra ua rc rr ru CFG NO S1 CD HC HR HU) as CS.
    destruct (0 <? iterations cfg Delete) eqn:EN.
    + destruct HD as (D' & x & R & -> & HD & IX & HS). destruct (number_ok _ _ _ _ _ _ _ _ _ _ _ CFG NO EN E0 IX) as (vs & RT & EX).
      exists (crud_printed tr1 ++ rc ++ rr ++ ru)%string, D', (") r=" ++ dec x ++ ":" ++ newline)%string, R.
      split; [rewrite <- ?str_app_assoc; reflexivity|]. split; [exact CS|]. split; [apply (delete_ok cfg _ UN _ EN HD)|]. split; [exists x, vs; auto|].
      destruct SP as (_ & _ & V). apply (report_ok b t l cfg (tr1 ++ tr2) SM Delete (cr_delete r) R CFG NO EN (V Delete) HS).
    + subst D. rewrite ?str_app_nil. exact CS.
  - destruct SR as (OP & rc & rr & ru & D & -> & HC & HR & HU & HD). destruct SP as (EN & _). rewrite OP in EN. apply Z.ltb_lt in EN. unfold failure_says. rewrite OP.
    exists (crud_printed tr1 ++ rc ++ rr ++ ru)%string, D. split; [rewrite <- ?str_app_assoc; reflexivity|].
    split; [exact (cru_ok b t l cfg (tr1 ++ tr2) SM UN _ ca ra ua rc rr ru CFG NO S1 CD HC HR HU)|apply (delete_ok cfg _ UN _ EN HD)].
Qed.
Print Assumptions C106_analysis.

(** *** The whole test: the texts of the attempts, a message between each and the next *)
Fixpoint session_text (k : Z) (texts : list string) : string :=
  match texts with
  | [] => ""
  | [txt] => txt
  | txt :: rest => txt ++ newline ++ "Attempt " ++ dec k ++ " failed. Resetting before retrying..." ++ newline ++ session_text (k + 1) rest
  end%string.
(** the [k]-th outcome is that of an analysis of the configuration adapted for the [k]-th attempt, and the [k]-th text says so *)
Definition said {S} b t l (u : user S) cfg (TR : list event) (k : Z) (x : crud_result + crud_error) (txt : string) : Prop :=
  exists cfg' s tr s' before after, TR = before ++ tr ++ after /\ adapted b k cfg = Val cfg' /\
    exec b u (internal_analyse_crud_algorithms b t l cfg') s tr s' (Val x) /\ analysis_says b t l u cfg' tr x txt.
Fixpoint all_said {S} b t l (u : user S) cfg TR (k : Z) (outs : list (crud_result + crud_error)) (texts : list string) : Prop :=
  match outs, texts with
  | [], [] => True
  | x :: outs, txt :: texts => said b t l u cfg TR k x txt /\ all_said b t l u cfg TR (k + 1) outs texts
  | _, _ => False
  end.
Lemma all_said_app S b t l (u : user S) cfg tr pre : forall outs texts k, all_said b t l u cfg tr k outs texts -> all_said b t l u cfg (pre ++ tr) k outs texts.
Proof.
  induction outs as [|x outs IH]; intros [|txt texts] k H; cbn [all_said] in *; auto. destruct H as [(c & s & tr' & s' & p & q & -> & H) R].
  split; [exists c, s, tr', s', (pre ++ p), q; rewrite app_assoc; auto|apply IH, R].
Qed.
Lemma session_says S b t l (u : user S) cfg : cfg_ok cfg -> roomy cfg -> forall k s outs tr s', session b t l u cfg k s (map Val outs) tr s' ->
  0 <= k -> k + Z.of_nat (length outs) <= two32 -> sane_measurements tr ->
  exists texts, crud_printed tr = session_text (k + 1) texts /\ all_said b t l u cfg tr k outs texts.
Proof.
  intros C R k s outs tr s' H. remember (map Val outs) as os eqn:EO. revert outs EO.
  induction H as [k cfg' s tr s' o AD E|k cfg' s tr s1 e s2 v os tr' s' AD E T RS H IH]; intros outs EO K0 KM SM.
  - destruct outs as [|x [|]]; try discriminate. injection EO as ->. cbn [length] in KM. exists [crud_printed tr]. split; [reflexivity|]. split; [|exact I].
    assert (KB : 0 <= k < two32) by lia. destruct (C106_analysis _ _ _ _ _ _ _ _ _ _ (adapted_u32 b k cfg cfg' KB C AD) (proj1 (adapted_usable b k cfg cfg' KB C R AD)) E SM) as [A _].
    exists cfg', s, tr, s', [], []. rewrite app_nil_r. auto.
  - destruct outs as [|x outs]; [discriminate|]. injection EO as <- EO. cbn [length] in KM. apply sane_app in SM. destruct SM as [SM1 SM2]. apply sane_app in SM2. destruct SM2 as [_ SM2].
    assert (KB : 0 <= k < two32) by lia. destruct (C106_analysis _ _ _ _ _ _ _ _ _ _ (adapted_u32 b k cfg cfg' KB C AD) (proj1 (adapted_usable b k cfg cfg' KB C R AD)) E SM1) as [A _].
    destruct (IH outs EO ltac:(lia) ltac:(lia) SM2) as (texts & P & AS). exists (crud_printed tr :: texts). split.
    + assert (Q : crud_printed (retrying k) = (newline ++ "Attempt " ++ dec (k + 1) ++ " failed. Resetting before retrying..." ++ newline)%string).
      { change (crud_printed (retrying k)) with (String.concat "" [newline ++ "Attempt " ++ dec (k + 1) ++ " failed. Resetting before retrying"; "..." ++ newline])%string.
        rewrite !concat_cons. cbn [String.concat]. rewrite str_app_nil, <- ?str_app_assoc. reflexivity. }
      rewrite !printed_app, P, Q.
      destruct texts as [|txt texts].
      { exfalso. destruct outs; [subst os; inversion H|exact AS]. }
      change (session_text (k + 1) (crud_printed tr :: txt :: texts)) with
        (crud_printed tr ++ newline ++ "Attempt " ++ dec (k + 1) ++ " failed. Resetting before retrying..." ++ newline ++ session_text (k + 1 + 1) (txt :: texts))%string.
      rewrite <- ?str_app_assoc. reflexivity.
    + split; [exists cfg', s, tr, s1, [], (retrying k ++ tr'); auto|]. rewrite app_assoc. apply all_said_app. exact AS.
Qed.
Theorem C106_test : forall S b t l (u : user S) cfg max s tr s' e,
  0 < max < two32 -> cfg_ok cfg -> roomy cfg ->
  exec b u (test_crud_algorithms b t l cfg max) s tr s' (Val e) -> sane_measurements tr ->
  exists outs texts, crud_printed tr = session_text 1 texts /\ all_said b t l u cfg tr 0 outs texts /\
    match e with
    | Passed => exists errs r, outs = map inr errs ++ [inl r]
    | GaveUp e c => outs = map inr (c ++ [e])
    | SpaceMismatch a e => exists errs, outs = map inr (errs ++ [e]) /\ Z.of_nat (length errs) = a
    end.
Proof.
  intros S b t l u cfg max s tr s' e MX C R E SM. apply C40_retry_policy in E; [|exact MX].
  assert (F : forall errs, map failed errs = map Val (map inr errs)) by (intros errs; rewrite map_map; reflexivity).
  destruct e as [|e c|a e].
  - destruct E as (errs & r & SS & _ & L). rewrite F in SS. change [Val (inl r)] with (map (@Val (crud_result + crud_error)) [inl r]) in SS. rewrite <- map_app in SS.
    destruct (session_says _ _ _ _ _ _ C R _ _ _ _ _ SS ltac:(lia) ltac:(rewrite app_length, map_length; cbn [length]; lia) SM) as (texts & P & A).
    exists (map inr errs ++ [inl r]), texts. split; [exact P|]. split; [exact A|]. eauto.
  - destruct E as (SS & _ & L). rewrite F in SS.
    destruct (session_says _ _ _ _ _ _ C R _ _ _ _ _ SS ltac:(lia) ltac:(rewrite map_length; lia) SM) as (texts & P & A).
    exists (map inr (c ++ [e])), texts. auto.
  - destruct E as (errs & SS & _ & _ & -> & L). rewrite F in SS.
    destruct (session_says _ _ _ _ _ _ C R _ _ _ _ _ SS ltac:(lia) ltac:(rewrite map_length, app_length; cbn [length]; lia) SM) as (texts & P & A).
    exists (map inr (errs ++ [e])), texts. split; [exact P|]. split; [exact A|]. eauto.
Qed.
Print Assumptions C106_test.

(** *** Example.  The closures return 0, so a pass returns a number that does not depend on the schedule;
    [crun] runs a program with given measurements, the warm-up taking no time. *)
Definition zero_user : user unit := User (fun _ => pure (fun _ => 0)) (fun s _ => (s, Some 0)).
Definition pass_value (r : range) (T : Z) : Z :=
  xor_all ((r_start r + 1) :: map (fun n => r_end r + Z.quot (r_start r - r_end r) T * (n + 1)) (zseq 0 (Z.to_nat T))).
Definition small (r : range) (T : Z) : bool :=
  (0 <=? r_start r) && (r_start r <? two31) && (0 <=? r_end r) && (r_end r <? two31) && (0 <? T) && (T <? two31).
Fixpoint crun {A} (M : phase -> operation -> pass_result) (m : prog A) : option (list item * res A) :=
  match m with
  | Ret a => Some ([], Val a)
  | Stop p => Some ([], Panic p)
  | Pass ph op ty r T k => if small r T then crun M (k (M ph op) (pass_value r T)) else None
  | Reset n k => crun M k
  | Output i k => match crun M k with Some (is, o) => Some (i :: is, o) | None => None end
  | Clock k => crun M (k 0)
  end.
Lemma crun_exec {A} b M (m : prog A) : forall is o, crun M m = Some (is, o) ->
  exists tr, exec b zero_user m tt tr tt o /\ outputs tr = is /\ measures M tr.
Proof.
  assert (Z0 : forall l : list (nat * Z), xor_all (map (fun _ => 0) (calls l)) = 0).
  { intros lg. induction (calls lg) as [|x c IH]; [reflexivity|]. cbn [map xor_all fold_right]. fold (xor_all (map (fun _ => 0) c)). rewrite IH. reflexivity. }
  induction m as [a|p|ph op ty r T k IH|n k IH|i k IH|k IH]; intros is o H; cbn [crun] in H.
  - injection H as <- <-. exists []. repeat split; constructor.
  - injection H as <- <-. exists []. repeat split; constructor.
  - destruct (small r T) eqn:SM; [|discriminate]. unfold small in SM. repeat rewrite andb_true_iff in SM. rewrite !Z.leb_le, !Z.ltb_lt in SM.
    destruct (IH _ _ _ _ H) as (tr & E & O & MM).
    destruct (pass_exists b (u_op zero_user op) ty r T tt) as (log & [] & out & P & _).
    destruct (C32_computed_number unit (fun _ => 0) b ty r T tt log tt out (small_ranges_fit b r ltac:(lia) ltac:(lia)) ltac:(lia) P) as (ends & -> & ->).
    exists (EvPass ph op r T log (Some (M ph op)) :: tr). split; [|split; [exact O|constructor; [reflexivity|exact MM]]].
    eapply ex_pass; [exact P|]. replace (xor_all _) with (pass_value r T); [exact E|]. unfold pass_value. rewrite app_comm_cons, xor_all_app2, Z0, Z.lxor_0_r. reflexivity.
  - destruct (IH _ _ H) as (tr & E & O & MM). exists (EvReset n :: tr). split; [eapply ex_reset; [reflexivity|exact E]|]. split; [exact O|constructor; [exact I|exact MM]].
  - destruct (crun M k) as [[is' o']|] eqn:CK; [|discriminate]. injection H as <- <-. destruct (IH _ _ eq_refl) as (tr & E & O & MM).
    exists (EvOutput i :: tr). split; [constructor; exact E|]. split; [cbn; rewrite <- O; reflexivity|constructor; [exact I|exact MM]].
  - destruct (IH _ _ _ H) as (tr & E & O & MM). exists (EvClock 0 :: tr). split; [eapply ex_clock; [apply Z.le_refl|exact E]|]. split; [exact O|constructor; [exact I|exact MM]].
Qed.
(** creates get slower and allocate a MiB per pass, the others take constant time and use 1 KiB meanwhile *)
Definition c106_measure (ph : phase) (op : operation) : pass_result :=
  match ph, op with
  | Second, Create => PassResult 2000000000 (SpacePass 1048576 2097152 2097152 1048576)
  | _, Create => PassResult 1000000000 (SpacePass 0 1048576 1048576 0)
  | Second, Delete => PassResult 500000000 (SpacePass 2097152 1048576 2097152 1048576)
  | _, Delete => PassResult 500000000 (SpacePass 1048576 0 1048576 0)
  | _, _ => PassResult 250000000 (SpacePass 1048576 1048576 1049600 1048576)
  end.
Lemma c106_sane ph op : sane (c106_measure ph op).
Proof. destruct ph, op; (split; [vm_compute; split; discriminate||reflexivity|split; [repeat split; vm_compute; discriminate||reflexivity|vm_compute; reflexivity]]). Qed.
Definition c106_cfg (mt : complexity) : crud_cfg :=
  CrudCfg "vector"%string 50 (OpCfg 1000 2 mt ON) (OpCfg 1000 1 ON ON) (OpCfg 0 0 O1 O1) (OpCfg 1000 1 ON ON).
Definition c106_out (mt : complexity) := crun c106_measure (test_crud_algorithms Debug Tol25 demo_libm (c106_cfg mt) 2).
Definition c106_text (mt : complexity) : string := match c106_out mt with Some (is, _) => report_text is | None => "?" end.
Lemma c106_meets mt : cfg_ok (c106_cfg mt) /\ roomy (c106_cfg mt) /\ no_overflow (c106_cfg mt).
Proof.
  unfold cfg_ok, no_overflow, roomy, is_enabled, u32. rewrite two31_val, two32_val. split; [|split].
  - split; [cbn; lia|]. intros [| | |]; cbn; lia.
  - intros [| | |]; cbn; lia.
  - intros [| | |]; cbn; lia.
Qed.

Lemma c106_runs mt is o : c106_out mt = Some (is, o) ->
  exists tr, exec Debug zero_user (test_crud_algorithms Debug Tol25 demo_libm (c106_cfg mt) 2) tt tr tt o /\ sane_measurements tr /\ crud_printed tr = report_text is.
Proof.
  unfold c106_out. generalize (test_crud_algorithms Debug Tol25 demo_libm (c106_cfg mt) 2). intros m H. destruct (crun_exec Debug c106_measure m is o H) as (tr & E & <- & M). exists tr. split; [exact E|]. split; [exact (measures_sane _ _ c106_sane M)|reflexivity]. Qed.
(** a test that passes and one that is retried and gives up: what they print *)
Example C106_example :
  match c106_out ON with
  | Some (is, Val Passed) => String.eqb (report_text is)
"vector CRUD Algorithm Complexity Analysis:
  warming up [CRD] 0ns, First Pass (create: 1s/+1024.00KiB, read: 250ms/1024b); Second Pass (create: 2s/+1024.00KiB, read: 250ms/1024b):

'Create' set resizing iterator-algorithm measurements:
pass          Δt              Δs            Σn            t⁻
1)            1s     +1024.00KiB          1000       1.000ms
2)            2s     +1024.00KiB          2000       2.000ms
--> Algorithm  Time Analysis: Worse than O(log(n)), but better than O(n)
--> Algorithm Space Analysis: O(1) (allocated: 2.00MiB; auxiliary used space: 0.00b)


'Read' constant set iterator-algorithm measurements:
pass          Δt              Δs            Σn            ⊆r            t⁻
1)         250ms           1024b          1000          1000     250.000µs
2)         250ms           1024b          2000          1000     250.000µs
--> Algorithm  Time Analysis: O(1)
--> Algorithm Space Analysis: O(1) (allocated: 0.00b; auxiliary used space: 2.00KiB)


Delete Passes (2nd: 500ms/-1024.00KiB; 1st: 500ms/-1024.00KiB) r=1235:
'Delete' set resizing iterator-algorithm measurements:
pass          Δt              Δs            Σn            t⁻
1)         500ms     -1024.00KiB          1000     500.000µs
2)         500ms     -1024.00KiB          2000     500.000µs
--> Algorithm  Time Analysis: O(1)
--> Algorithm Space Analysis: Worse than O(log(n)), but better than O(n) (freed: 2.00MiB; auxiliary used space: 0.00b)


"
  | _ => false
  end = true /\
  match c106_out O1 with
  | Some (is, Val (GaveUp _ _)) => String.eqb (report_text is)
"vector CRUD Algorithm Complexity Analysis:
  warming up [CRD] 0ns, First Pass (create: 1s/+1024.00KiB, read: 250ms/1024b); Second Pass (create: 2s/+1024.00KiB,  ** Aborted due to TIME complexity mismatch on 'Create' operation: maximum: O1, measured: BetweenOLogNAndON


Attempt 1 failed. Resetting before retrying...
vector CRUD Algorithm Complexity Analysis:
  warming up [CRD] 0ns, First Pass (create: 1s/+1024.00KiB, read: 250ms/1024b); Second Pass (create: 2s/+1024.00KiB,  ** Aborted due to TIME complexity mismatch on 'Create' operation: maximum: O1, measured: BetweenOLogNAndON

"
  | _ => false
  end = true.
Proof. split; vm_compute; reflexivity. Qed.
Example C106_example_runs :
  exists tr, exec Debug zero_user (test_crud_algorithms Debug Tol25 demo_libm (c106_cfg ON) 2) tt tr tt (Val Passed) /\ sane_measurements tr.
Proof.
  destruct C106_example as [H _]. pose proof (c106_runs ON) as R. revert H R. generalize (c106_out ON). intros out H R.
  destruct out as [[is [[| |]| |]]|]; try discriminate. destruct (R is _ eq_refl) as (tr & X & SM & _). exists tr. split; [exact X|exact SM].
Qed.
