(** * C105: everything the async builder's test prints, word for word. *)
From Coq Require Import ZArith Reals String Ascii List Bool Lia.
From Verif Require Import Machine Complexity Analysis AnalysisF64d AllocSpec Report ReportProofs Crud CrudMsg CrudSpec CrudProofs Free StandardSpec Builder BuilderSpec BuilderProofs PropsBuilder TextProofs
  PropsCrudMsg RunnerMsg PropsRunnerMsg Format ReadSpec ReportText ReportTextSpec PropsReport PropsReportText RunTextSpec PropsStdText BuilderText Demo.
Import ListNotations.
Open Scope list_scope.
Open Scope Z_scope.

(** ** Specification *)
(** the names of the functions an attempt runs, in order *)
Definition if_present {A B} (o : option A) (l : list B) : list B := match o with Some _ => l | None => [] end.
Definition labels {F X} (b : builder F X) : list string :=
  if_present (b_reset b) ["Resetting"%string] ++
  if_present (b_warmup b) (["Warming up"%string] ++ if_present (b_reset b) ["Resetting again"%string]) ++
  ["Pass 1"%string] ++ if_present (b_reset b) ["In-between-passes Reset"%string] ++ ["Pass 2"%string].
(** what was measured around the functions run, in order *)
Definition measurements {F D X} (calls : list (@bcall F D X)) : list pass_result :=
  flat_map (fun c => match c with Ran _ _ (Some (m, _)) => [m] | _ => [] end) calls.
(** two blanks, the name, a colon and a blank, then what was measured; semicolons in between *)
Fixpoint passes_text (labels : list string) (ms : list pass_result) (txt : string) : Prop :=
  match labels, ms with
  | [label], [m] => exists P, txt = ("  " ++ label ++ ": " ++ P)%string /\ measured_text P m
  | label :: labels, m :: ms => exists P rest, txt = ("  " ++ label ++ ": " ++ P ++ ";" ++ rest)%string /\ measured_text P m /\ passes_text labels ms rest
  | _, _ => False
  end.
Definition b_ending {F X} (b : builder F X) (tc sc : complexity) (txt : string) : Prop :=
  (exists limit, b_space b = Some limit /\ clt limit sc /\ txt = space_text (b_name b) limit sc) \/
  (within sc (b_space b) /\ exists limit, b_time b = Some limit /\ clt limit tc /\ txt = time_text (b_name b) limit tc) \/
  (within sc (b_space b) /\ within tc (b_time b) /\ txt = ""%string).
Definition attempt_text {F D X} bd t l (b : builder F X) (previous : option D) (calls : list (@bcall F D X)) (last : D) (txt : string) : Prop :=
  exists m1 m2 Ps R E tc sc, attempt b previous calls m1 m2 last /\
    txt = ("Running '" ++ b_name b ++ "' async algorithm:" ++ newline ++ Ps ++ newline ++ newline ++ R ++ newline ++ E)%string /\
    passes_text (labels b) (measurements calls) Ps /\
    tc = analyse_time_complexity t l (b_n1 b) (b_n2 b) (pr_time m1) (pr_time m2) /\
    analyse_space_complexity bd t l (b_n1 b) (b_n2 b) (pr_space m1) (pr_space m2) = Val sc /\
    regular_report_text R (b_name b) (b_n1 b) (b_n2 b) m1 m2 tc sc /\
    b_ending b tc sc E.
(** a test: attempts, each given the data the one before left, "retrying..." in between *)
Inductive test_text {F D X} bd t l (b : builder F X) : option D -> list (@bcall F D X) -> string -> Prop :=
| last_text previous calls last txt :
    attempt_text bd t l b previous calls last txt -> test_text bd t l b previous calls txt
| more_text previous calls last txt calls' txt' :
    attempt_text bd t l b previous calls last txt -> test_text bd t l b (Some last) calls' txt' ->
    test_text bd t l b previous (calls ++ calls') (txt ++ "retrying..." ++ newline ++ txt').

(** ** Proofs *)
Section Rules.
Context {F D X S : Type} (w : world (@bans F D X) S).
Local Notation P := (fprog (@bans F D X)).
Local Notation call := (@bcall F D X).
(** completed executions: calls, text, value; under sane measurements *)
Definition all_sane (c : list call) : Prop := forall f d m d', In (Ran f d (Some (m, d'))) c -> sane m.
Definition says {A} (m : P A) (Q : list call -> string -> A -> Prop) : Prop :=
  forall s tr s' v, fexec w m s tr s' (Val v) -> all_sane (bcalls tr) -> Q (bcalls tr) (b_printed tr) v.
Lemma b_printed_app (a c : list (fevent (@bans F D X))) : b_printed (a ++ c) = (b_printed a ++ b_printed c)%string.
Proof. unfold b_printed. rewrite flat_map_app. apply concat_app. Qed.
Lemma says_ret {A} (a : A) (Q : list call -> string -> A -> Prop) : Q [] ""%string a -> says (FRet a) Q.
Proof. intros H s tr s' v (-> & -> & E) _. apply val_inj in E. subst v. exact H. Qed.
Lemma says_bind {A B} (m : P A) (k : A -> P B) (Q1 : list call -> string -> A -> Prop) (Q : list call -> string -> B -> Prop) :
  says m Q1 -> (forall c1 t1 x, Q1 c1 t1 x -> all_sane c1 -> says (k x) (fun c2 t2 v => Q (c1 ++ c2) (t1 ++ t2)%string v)) -> says (fbind m k) Q.
Proof.
  intros S1 S2 s tr s' v E SA. apply fexec_bind in E. destruct E as [(x & tr1 & s1 & tr2 & E1 & E2 & ->)|(p & _ & E)]; [|discriminate].
  assert (SA1 : all_sane (bcalls tr1)) by (intros f d m0 d' I; apply (SA f d m0 d'); rewrite bcalls_app; apply in_or_app; left; exact I).
  assert (SA2 : all_sane (bcalls tr2)) by (intros f d m0 d' I; apply (SA f d m0 d'); rewrite bcalls_app; apply in_or_app; right; exact I).
  rewrite bcalls_app, b_printed_app. apply (S2 _ _ _ (S1 _ _ _ _ E1 SA1) SA1 _ _ _ _ E2 SA2).
Qed.
Lemma says_weaken {A} (m : P A) (Q Q' : list call -> string -> A -> Prop) : says m Q -> (forall c t v, Q c t v -> Q' c t v) -> says m Q'.
Proof. intros S1 W s tr s' v E SA. apply W. exact (S1 _ _ _ _ E SA). Qed.
Lemma says_out i : says (b_out i) (fun c t _ => c = [] /\ t = String.concat "" (bitem_text i)).
Proof.
  intros s tr s' v [([] & s1 & tr' & W & (-> & -> & E) & ->)|(W & -> & E)] _; [|discriminate]. split; [reflexivity|].
  unfold b_printed. cbn [flat_map ev_query]. rewrite app_nil_r. reflexivity.
Qed.
Lemma says_lift {A} (m : res A) : says (flift m) (fun c t a => c = [] /\ t = ""%string /\ m = Val a).
Proof. intros s tr s' v E _. destruct m as [a|p|]; cbn [flift] in E; destruct E as (-> & -> & E); try discriminate. apply val_inj in E. subst v. auto. Qed.
Lemma says_expect {A} (o : option A) : says (expect o) (fun c t a => c = [] /\ t = ""%string /\ o = Some a).
Proof. intros s tr s' v E _. destruct o as [a|]; cbn [expect] in E; destruct E as (-> & -> & E); try discriminate. apply val_inj in E. subst v. auto. Qed.
Lemma says_run b pre suf f d : says (run_verbosely b pre suf f d) (fun c t x => c = [Ran f d (Some x)] /\ exists P, t = (pre ++ P ++ suf)%string /\ measured_text P (fst x)).
Proof.
  intros s tr s' v E SA. unfold run_verbosely in E. cbn [ask fbind fexec] in E.
  destruct E as [(x & s1 & tr' & W & E & ->)|(W & -> & E)]; [|discriminate].
  apply flift_exec in E. destruct E as [(c & C & E)|(_ & _ & _ & p & E)]; [|discriminate].
  unfold b_out in E. cbn [ask fbind fexec] in E. destruct E as [([] & s2 & tr2 & W2 & (-> & -> & E) & ->)|(W2 & -> & E)]; [|discriminate].
  apply val_inj in E. subst v. split; [reflexivity|]. destruct x as [m d']. cbn [fst] in *.
  assert (SM : sane m) by (apply (SA f d m d'); left; reflexivity).
  destruct (pass_line_text b pre m suf c SM C) as (P0 & L & M). exists P0. split; [|exact M]. rewrite <- L.
  unfold b_printed. cbn [flat_map ev_query app bitem_text String.concat]. reflexivity.
Qed.
Lemma says_assertion f d : says (run_assertion f d) (fun c t _ => c = asserted f d /\ t = ""%string).
Proof.
  destruct f as [f|]; cbn [run_assertion asserted]; [|apply says_ret; auto].
  intros s tr s' v [([] & s1 & tr' & W & (-> & -> & E) & ->)|(W & -> & E)] _; [|discriminate]. auto.
Qed.
(** a function that may be absent: its line, if present *)
Definition opt_text (f : option F) (label : string) (c : list call) (txt : string) : Prop :=
  match f with
  | Some _ => exists m P, measurements c = [m] /\ txt = ("  " ++ label ++ ": " ++ P ++ ";")%string /\ measured_text P m
  | None => measurements c = [] /\ txt = ""%string
  end.
Lemma says_optionally b label f arg otherwise :
  says (match f with Some f => fbind (run_verbosely b ("  " ++ label ++ ": ") ";" f arg) (fun x => FRet (Some (snd x))) | None => FRet otherwise end)
       (fun c t d => optionally f arg otherwise c d /\ opt_text f label c t).
Proof.
  destruct f as [f|]; [|apply says_ret; cbn; auto].
  eapply says_bind; [apply says_run|]. intros c t [m d] (-> & P0 & -> & M) _. apply says_ret. cbn [snd fst app] in *. rewrite str_app_nil. split; [cbn; eauto|].
  cbn [opt_text]. exists m, P0. split; [reflexivity|]. split; [rewrite !str_app_assoc; reflexivity|exact M].
Qed.
End Rules.

Lemma measurements_app {F D X} (a c : list (@bcall F D X)) : measurements (a ++ c) = measurements a ++ measurements c.
Proof. apply flat_map_app. Qed.
Lemma measurements_asserted {F D X} f (d : D) : measurements (@asserted F D X f d) = [].
Proof. destruct f; reflexivity. Qed.
(** a list of lines, each ending with a semicolon *)
Inductive items : list string -> list pass_result -> string -> Prop :=
| it_nil : items [] [] ""
| it_cons label m labels ms P txt : measured_text P m -> items labels ms txt ->
    items (label :: labels) (m :: ms) ("  " ++ label ++ ": " ++ P ++ ";" ++ txt).
Lemma items_app l1 ms1 t1 l2 ms2 t2 : items l1 ms1 t1 -> items l2 ms2 t2 -> items (l1 ++ l2) (ms1 ++ ms2) (t1 ++ t2)%string.
Proof. induction 1 as [|label m labels ms P txt M I IH]; intros H2; [exact H2|]. cbn [app]. rewrite <- !str_app_assoc. constructor; auto. Qed.
Lemma items_opt {F D X} (f : option F) label (c : list (@bcall F D X)) txt : opt_text f label c txt -> items (if_present f [label]) (measurements c) txt.
Proof.
  destruct f; cbn [opt_text if_present].
  - intros (m & P0 & -> & -> & M). replace ("  " ++ label ++ ": " ++ P0 ++ ";")%string with ("  " ++ label ++ ": " ++ P0 ++ ";" ++ "")%string by reflexivity. constructor; [exact M|constructor].
  - intros [-> ->]. constructor.
Qed.
Lemma items_passes l ms txt label m P : items l ms txt -> measured_text P m ->
  passes_text (l ++ [label]) (ms ++ [m]) (txt ++ "  " ++ label ++ ": " ++ P)%string.
Proof.
  intros I M. induction I as [|label' m' labels ms P' txt M' I IH]; [cbn; eauto|].
  cbn [app]. set (rest := (txt ++ "  " ++ label ++ ": " ++ P)%string) in *.
  assert (EQ : (("  " ++ label' ++ ": " ++ P' ++ ";" ++ txt) ++ "  " ++ label ++ ": " ++ P = "  " ++ label' ++ ": " ++ P' ++ ";" ++ rest)%string) by (unfold rest; rewrite <- !str_app_assoc; reflexivity).
  rewrite EQ. clearbody rest. clear EQ.
  destruct labels as [|lb labels], ms as [|mm ms]; try (exfalso; inversion I; fail); cbn [app passes_text] in *; exists P', rest; auto.
Qed.

Section Attempt.
Context {F D X S : Type} (w : world (@bans F D X) S) (bd : build) (t : tolerance) (l : libm) (b : builder F X).
Lemma says_prepare previous : says w (prepare bd b previous) (fun c txt d => preparation b previous c d /\
  items (if_present (b_reset b) ["Resetting"%string] ++ if_present (b_warmup b) (["Warming up"%string] ++ if_present (b_reset b) ["Resetting again"%string])) (measurements c) txt).
Proof.
  unfold prepare. eapply says_bind; [apply (says_optionally w bd "Resetting")|]. intros c0 t0 d0 (O & T) _. apply items_opt in T. unfold preparation.
  destruct (b_warmup b) as [wu|].
  - eapply says_bind; [apply says_run|]. intros c tx [m dw] (-> & P0 & -> & M) _. cbn [snd fst] in *. eapply says_weaken; [apply (says_optionally w bd "Resetting again")|].
    intros c1 t1 d1 (O1 & T1). apply items_opt in T1. split; [exists c0, d0; split; [exact O|]; exists m, dw, c1; auto|].
    rewrite !measurements_app. apply items_app; [exact T|]. cbn [if_present app measurements flat_map].
    replace ((("  Warming up: " ++ P0 ++ ";") ++ t1))%string with ("  " ++ "Warming up" ++ ": " ++ P0 ++ ";" ++ t1)%string by (rewrite !str_app_assoc; reflexivity).
    constructor; assumption.
  - apply says_ret. rewrite app_nil_r, str_app_nil. split; [exists c0, d0; auto|]. cbn [if_present]. rewrite app_nil_r. exact T.
Qed.
Lemma says_assoc {A B C} (m : fprog (@bans F D X) A) (f : A -> fprog (@bans F D X) B) (g : B -> fprog (@bans F D X) C) Q :
  says w (fbind (fbind m f) g) Q -> says w (fbind m (fun x => fbind (f x) g)) Q.
Proof. intros S1 s tr s' v E. apply fbind_assoc_exec in E. eauto. Qed.

Hypothesis NL : lines (b_name b) = [b_name b].
Hypothesis US : usable b.
Definition attempt_says previous (c : list (@bcall F D X)) (txt : string) (v : retry_result (builder F X * D) (builder F X * D) b_error) : Prop :=
  exists last, attempt_text bd t l b previous c last txt /\ (forall i e, v = RTransient i e -> i = (b, last)).
Lemma says_attempt previous : says w (raw_analyse bd t l b previous) (attempt_says previous).
Proof.
  unfold raw_analyse.
  eapply says_bind; [apply says_out|]. intros c tx u (-> & ->) _. apply says_assoc. fold (prepare bd b previous).
  eapply says_bind; [apply says_prepare|]. intros c0 t0 d0 (PR & I0) _.
  eapply says_bind; [apply says_expect|]. intros c tx p1 (-> & -> & P1) _.
  eapply says_bind; [apply says_expect|]. intros c tx p2 (-> & -> & P2) _.
  eapply says_bind; [apply says_run|]. intros c tx [m1 d1] (-> & T1 & -> & M1) SA1. cbn [fst snd] in *.
  assert (S1 : sane m1) by (apply (SA1 p1 d0 m1 d1); left; reflexivity).
  eapply says_bind; [apply says_assertion|]. intros c tx _ (-> & ->) _.
  eapply says_bind; [apply (says_optionally w bd "In-between-passes Reset" (b_reset b) (Some d1) (Some d1))|]. intros c1 tx1 d2 (O & I1) _. apply items_opt in I1.
  assert (D2 : exists x, d2 = Some x). { unfold optionally in O. destruct (b_reset b); [destruct O as (? & x & _ & ->); eauto|destruct O as [_ ->]; eauto]. }
  destruct D2 as [x2 ->].
  eapply says_bind; [apply says_run|]. intros c tx [m2 d3] (-> & T2 & -> & M2) SA2. cbn [fst snd] in *.
  assert (S2 : sane m2) by (apply (SA2 p2 (Some x2) m2 d3); left; reflexivity).
  eapply says_bind; [apply says_assertion|]. intros c tx _ (-> & ->) _. cbv zeta.
  set (tc := analyse_time_complexity _ _ _ _ _ _).
  eapply says_bind; [apply says_lift|]. intros c tx sc (-> & -> & HS) _.
  eapply says_bind; [apply says_out|]. intros c tx _ (-> & ->) _.
  eapply says_bind; [apply says_lift|]. intros c tx rep (-> & -> & HR) _.
  eapply says_bind; [apply says_out|]. intros c tx _ (-> & ->) _.
  destruct US as (_ & _ & N1 & N2). destruct S1 as (D1 & W1 & B1), S2 as (D2 & W2 & B2).
  destruct (C103_regular_report bd (b_name b) (b_n1 b) (b_n2 b) (pr_time m1) (pr_time m2) (pr_space m1) (pr_space m2) tc sc NL D1 D2 N1 N2 W1 W2 B1 B2) as (R & HR' & RS).
  unfold regular_report in HR'. rewrite HR in HR'. cbn [bind] in HR'. apply val_inj in HR'.
  cbn [bitem_text String.concat]. rewrite HR'.
  set (cs := c0 ++ [Ran p1 d0 (Some (m1, d1))] ++ asserted (b_assert1 b) d1 ++ c1 ++ [Ran p2 (Some x2) (Some (m2, d3))] ++ asserted (b_assert2 b) d3).
  assert (AT : attempt b previous cs m1 m2 d3) by (exists c0, d0, p1, p2, d1, c1, x2; repeat split; assumption).
  assert (PT : exists Ps, passes_text (labels b) (measurements cs) Ps /\ Ps = (t0 ++ ("  Pass 1: " ++ T1 ++ ";") ++ tx1 ++ "  Pass 2: " ++ T2)%string).
  { exists (t0 ++ ("  Pass 1: " ++ T1 ++ ";") ++ tx1 ++ "  Pass 2: " ++ T2)%string. split; [|reflexivity].
    unfold cs, labels. rewrite !measurements_app, !measurements_asserted. cbn [measurements flat_map app]. rewrite ?app_nil_r.
    pose proof (items_app _ _ _ _ _ _ I0 (it_cons "Pass 1"%string m1 _ _ T1 _ M1 I1)) as I2.
    pose proof (items_passes _ _ _ "Pass 2"%string m2 T2 I2 M2) as K.
    rewrite <- !app_assoc in K. cbn [app] in K. fold (measurements c0) (measurements c1) in K |- *.
    replace (t0 ++ ("  Pass 1: " ++ T1 ++ ";") ++ tx1 ++ "  Pass 2: " ++ T2)%string with
      ((t0 ++ "  " ++ "Pass 1" ++ ": " ++ T1 ++ ";" ++ tx1) ++ "  " ++ "Pass 2" ++ ": " ++ T2)%string by (rewrite <- !str_app_assoc; reflexivity).
    exact K. }
  destruct PT as (Ps & PT & EPs).
  assert (FIN : forall E v, b_ending b tc sc E -> (forall i e, v = RTransient i e -> i = (b, d3)) -> forall c2, c2 = [] ->
    attempt_says previous ([] ++ c0 ++ [] ++ [] ++ [Ran p1 d0 (Some (m1, d1))] ++ asserted (b_assert1 b) d1 ++ c1 ++ [Ran p2 (Some x2) (Some (m2, d3))] ++ asserted (b_assert2 b) d3 ++ [] ++ [] ++ [] ++ [] ++ c2)
      (("Running '" ++ b_name b ++ "' async algorithm:" ++ newline) ++ t0 ++ "" ++ "" ++ ("  Pass 1: " ++ T1 ++ ";") ++ "" ++ tx1 ++ ("  Pass 2: " ++ T2 ++ "") ++ "" ++ "" ++ (newline ++ newline) ++ "" ++ (R ++ newline) ++ E)%string v).
  { intros E v BE HV c2 ->. exists d3. split; [|exact HV]. rewrite !app_nil_r. cbn [app]. fold cs. exists m1, m2, Ps, R, E, tc, sc. split; [exact AT|].
    split; [rewrite EPs, str_app_nil, <- !str_app_assoc; reflexivity|]. split; [exact PT|]. split; [reflexivity|]. split; [exact HS|]. split; [exact RS|exact BE]. }
  assert (FIN0 : forall v, b_ending b tc sc "" -> (forall i e, v = RTransient i e -> i = (b, d3)) -> says w (FRet v) (fun c2 t2 v => attempt_says previous ([] ++ c0 ++ [] ++ [] ++ [Ran p1 d0 (Some (m1, d1))] ++ asserted (b_assert1 b) d1 ++ c1 ++ [Ran p2 (Some x2) (Some (m2, d3))] ++ asserted (b_assert2 b) d3 ++ [] ++ [] ++ [] ++ [] ++ c2)
      (("Running '" ++ b_name b ++ "' async algorithm:" ++ newline) ++ t0 ++ "" ++ "" ++ ("  Pass 1: " ++ T1 ++ ";") ++ "" ++ tx1 ++ ("  Pass 2: " ++ T2 ++ "") ++ "" ++ "" ++ (newline ++ newline) ++ "" ++ (R ++ newline) ++ t2)%string v)).
  { intros v BE HV. apply says_ret. exact (FIN _ v BE HV [] eq_refl). }
  assert (FIN1 : forall i v, b_ending b tc sc (String.concat "" (bitem_text i)) -> (forall i e, v = RTransient i e -> i = (b, d3)) -> says w (fbind (b_out i) (fun _ => FRet v)) (fun c2 t2 v => attempt_says previous ([] ++ c0 ++ [] ++ [] ++ [Ran p1 d0 (Some (m1, d1))] ++ asserted (b_assert1 b) d1 ++ c1 ++ [Ran p2 (Some x2) (Some (m2, d3))] ++ asserted (b_assert2 b) d3 ++ [] ++ [] ++ [] ++ [] ++ c2)
      (("Running '" ++ b_name b ++ "' async algorithm:" ++ newline) ++ t0 ++ "" ++ "" ++ ("  Pass 1: " ++ T1 ++ ";") ++ "" ++ tx1 ++ ("  Pass 2: " ++ T2 ++ "") ++ "" ++ "" ++ (newline ++ newline) ++ "" ++ (R ++ newline) ++ t2)%string v)).
  { intros i v BE HV. eapply says_bind; [apply says_out|]. intros c tx _ (-> & ->) _. apply says_ret. rewrite (str_app_nil (String.concat "" (bitem_text i))). exact (FIN _ v BE HV [] eq_refl). }
  clear FIN. unfold b_ending in *.
  destruct (b_space b) as [es|] eqn:ES; [destruct (worse_than sc es) eqn:WS|].
  - apply FIN1; [|discriminate]. apply worse_than_spec in WS. left. exists es. cbn [bitem_text String.concat]. rewrite mismatch_msg_text. auto.
  - apply not_worse_than_spec in WS. assert (WI : within sc (Some es)) by (intros e [= <-]; exact WS).
    destruct (b_time b) as [et|] eqn:ET; [destruct (worse_than tc et) eqn:WT|].
    + apply FIN1; [|intros i e [= <- _]; reflexivity]. apply worse_than_spec in WT. right. left. split; [exact WI|]. exists et. cbn [bitem_text String.concat]. rewrite mismatch_msg_text. auto.
    + apply FIN0; [|discriminate]. apply not_worse_than_spec in WT. right. right. split; [exact WI|]. split; [intros e [= <-]; exact WT|reflexivity].
    + apply FIN0; [|discriminate]. right. right. split; [exact WI|]. split; [intros e [=]|reflexivity].
  - assert (WI : within sc None) by (intros e [=]).
    destruct (b_time b) as [et|] eqn:ET; [destruct (worse_than tc et) eqn:WT|].
    + apply FIN1; [|intros i e [= <- _]; reflexivity]. apply worse_than_spec in WT. right. left. split; [exact WI|]. exists et. cbn [bitem_text String.concat]. rewrite mismatch_msg_text. auto.
    + apply FIN0; [|discriminate]. apply not_worse_than_spec in WT. right. right. split; [exact WI|]. split; [intros e [= <-]; exact WT|reflexivity].
    + apply FIN0; [|discriminate]. right. right. split; [exact WI|]. split; [intros e [=]|reflexivity].
Qed.
End Attempt.

(** ** C105: an attempt prints this and nothing else ... *)
Theorem C105_attempt : forall F D X S bd t l (b : builder F X) (w : world (@bans F D X) S) previous s tr s' v,
  lines (b_name b) = [b_name b] -> usable b ->
  fexec w (raw_analyse bd t l b previous) s tr s' (Val v) -> b_sane tr ->
  exists last, attempt_text bd t l b previous (bcalls tr) last (b_printed tr).
Proof.
  intros F D X S bd t l b w previous s tr s' v NL US E SA.
  destruct (says_attempt w bd t l b NL US previous _ _ _ _ E SA) as (last & A & _). eauto.
Qed.
Print Assumptions C105_attempt.

(** ... and a test prints the texts of its attempts, announcing each reattempt *)
Theorem C105_test : forall F D X S bd t l (b : builder F X) (w : world (@bans F D X) S) s tr s' e,
  lines (b_name b) = [b_name b] -> usable b ->
  fexec w (test_algorithm_async bd t l b) s tr s' (Val e) -> b_sane tr ->
  test_text bd t l b None (bcalls tr) (b_printed tr).
Proof.
  intros F D X S bd t l b w s tr s' e NL US E SA. unfold test_algorithm_async in E. apply fexec_bind in E.
  destruct E as [(x & tr1 & s1 & tr2 & E1 & (-> & -> & _) & ->)|(p & _ & Y)]; [|discriminate]. rewrite app_nil_r in *.
  assert (RE : forall d s tr s' v, fexec w (reattempt bd t l (b, d)) s tr s' (Val v) -> b_sane tr ->
     exists txt, b_printed tr = ("retrying..." ++ newline ++ txt)%string /\ attempt_says bd t l b (Some d) (bcalls tr) txt v).
  { clear - NL US. intros d s tr s' v E SA. unfold reattempt in E. unfold b_out in E. cbn [ask fbind fexec] in E.
    destruct E as [([] & s1 & tr' & W & E & ->)|(W & -> & E)]; [|discriminate]. cbn [fst snd] in E.
    exists (b_printed tr'). split.
    - unfold b_printed. cbn [flat_map ev_query bitem_text app]. rewrite concat_cons, str_app_assoc. reflexivity.
    - exact (says_attempt w bd t l b NL US (Some d) _ _ _ _ E SA). }
  assert (G : forall p s fs v tr s', tries (reattempt bd t l) w p s fs v tr s' -> b_sane tr ->
    (forall d, p = reattempt bd t l (b, d) -> exists txt, b_printed tr = ("retrying..." ++ newline ++ txt)%string /\ test_text bd t l b (Some d) (bcalls tr) txt) /\
    (forall prev, p = raw_analyse bd t l b prev -> test_text bd t l b prev (bcalls tr) (b_printed tr))).
  { clear - NL US RE. intros p s fs v tr s' H. induction H as [p s tr s' v H|p s tr s1 i e fs v tr' s' H T IH]; intros SA.
    - split; intros d ->.
      + destruct (RE _ _ _ _ _ H SA) as (txt & B & last & A & _). exists txt. split; [exact B|]. eapply last_text. exact A.
      + destruct (says_attempt w bd t l b NL US d _ _ _ _ H SA) as (last & A & _). eapply last_text. exact A.
    - assert (SA1 : b_sane tr) by (intros f d m d' I; apply (SA f d m d'); rewrite bcalls_app; apply in_or_app; left; exact I).
      assert (SA2 : b_sane tr') by (intros f d m d' I; apply (SA f d m d'); rewrite bcalls_app; apply in_or_app; right; exact I).
      destruct (IH SA2) as [IH1 _]. rewrite bcalls_app, b_printed_app. split; intros d ->.
      + destruct (RE _ _ _ _ _ H SA1) as (txt & B & last & A & L). specialize (L _ _ eq_refl). subst i. destruct (IH1 _ eq_refl) as (txt' & B' & T').
        exists (txt ++ "retrying..." ++ newline ++ txt')%string. split; [rewrite B, B', !str_app_assoc; reflexivity|]. eapply more_text; eassumption.
      + destruct (says_attempt w bd t l b NL US d _ _ _ _ H SA1) as (last & A & L). specialize (L _ _ eq_refl). subst i. destruct (IH1 _ eq_refl) as (txt' & B' & T').
        rewrite B'. eapply more_text; eassumption. }
  apply retry_spec in E1. destruct x as [r|f|es r|es f|es f].
  - exact (proj2 (G _ _ _ _ _ _ E1 SA) _ eq_refl).
  - destruct E1 as [i E1]. exact (proj2 (G _ _ _ _ _ _ E1 SA) _ eq_refl).
  - destruct E1 as (fs & E1 & _). exact (proj2 (G _ _ _ _ _ _ E1 SA) _ eq_refl).
  - destruct E1 as (fs & i & E1 & _). exact (proj2 (G _ _ _ _ _ _ E1 SA) _ eq_refl).
  - destruct E1 as (fs & i & E1 & _). exact (proj2 (G _ _ _ _ _ _ E1 SA) _ eq_refl).
Qed.
Print Assumptions C105_test.

(** *** Example: the two attempts of C47_C49_example, and all they print *)
Definition c105_run := demo_run (test_algorithm_async Debug Tol25 demo_libm demo_builder).
Example C105_example :
  fexec (det demo_answer) (test_algorithm_async Debug Tol25 demo_libm demo_builder) 0 (fst (fst c105_run)) (snd (fst c105_run)) (snd c105_run) /\
  (exists e, snd c105_run = Val e) /\ b_sane (fst (fst c105_run)) /\ usable demo_builder /\ lines (b_name demo_builder) = [b_name demo_builder] /\
  String.eqb (b_printed (fst (fst c105_run)))
"Running 'demo' async algorithm:
  Resetting: 1s/976.56KiB;  Warming up: 1s/976.56KiB;  Resetting again: 1s/976.56KiB;  Pass 1: 1s/976.56KiB;  In-between-passes Reset: 2s/976.56KiB;  Pass 2: 2s/976.56KiB

'demo' regular-algorithm measurements:
pass          Δt              Δs             n            s⁻           t⁻
1)            1s       976.56KiB          1000         1000b       1.000ms
2)            2s       976.56KiB          2000          500b       1.000ms
--> Algorithm  Time Analysis: O(n)
--> Algorithm Space Analysis: O(1) (allocated: 0.00b; auxiliary used space: 1.91MiB)


 ** TIME complexity mismatch on 'demo' operation: maximum: O1, measured: ON -- a reattempt may be performed...

retrying...
Running 'demo' async algorithm:
  Resetting: 3s/976.56KiB;  Warming up: 3s/976.56KiB;  Resetting again: 1s/976.56KiB;  Pass 1: 1s/976.56KiB;  In-between-passes Reset: 2s/976.56KiB;  Pass 2: 2s/976.56KiB

'demo' regular-algorithm measurements:
pass          Δt              Δs             n            s⁻           t⁻
1)            1s       976.56KiB          1000         1000b       1.000ms
2)            2s       976.56KiB          2000          500b       1.000ms
--> Algorithm  Time Analysis: O(n)
--> Algorithm Space Analysis: O(1) (allocated: 0.00b; auxiliary used space: 1.91MiB)


 ** TIME complexity mismatch on 'demo' operation: maximum: O1, measured: ON -- a reattempt may be performed...

" = true.
Proof.
  split; [apply frun_exec|]. split; [vm_compute; eexists; reflexivity|].
  split; [|split; [exact C47_example_usable|split; [reflexivity|vm_compute; reflexivity]]].
  pose proof C47_example_sane as H. unfold c105_run. destruct (demo_run (test_algorithm_async Debug Tol25 demo_libm demo_builder)) as [[tr s'] o]. exact H.
Qed.
