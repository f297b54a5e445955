(** * C105, interrupted: what an attempt of the async builder has printed when a user function panics. *)
From Coq Require Import ZArith Reals String Ascii List Bool Lia.
From Verif Require Import Machine Complexity Analysis AnalysisF64d AllocSpec Report ReportProofs Crud CrudMsg CrudSpec CrudProofs Free StandardSpec Builder BuilderSpec BuilderProofs PropsBuilder TextProofs
  PropsCrudMsg RunnerMsg PropsRunnerMsg Format ReadSpec ReportText ReportTextSpec PropsReport PropsReportText RunTextSpec PropsStdText BuilderText PropsBuilderText Demo.
Import ListNotations.
Open Scope list_scope.
Open Scope Z_scope.

(** ** Specification *)
Definition finished {F D X} (c : @bcall F D X) : Prop :=
  match c with Ran _ _ a => a <> None | Asserted _ _ a => a <> None | Before _ _ a => a <> None | After _ _ _ a => a <> None end.
(** two blanks, the name, a colon and a blank, what was measured, and a semicolon except after pass 2 *)
Inductive sections : list string -> list pass_result -> string -> Prop :=
| no_section : sections [] [] ""
| one_section label m labels ms P rest : measured_text P m -> sections labels ms rest ->
    sections (label :: labels) (m :: ms)
      ("  " ++ label ++ ": " ++ P ++ (if String.eqb label "Pass 2" then "" else ";") ++ rest).

(** ** Proofs *)
Local Notation "x <-- m ; k" := (fbind m (fun x => k)) (at level 61, m at next level, right associativity).
Lemma sections_snoc labels ms txt label m P : sections labels ms txt -> measured_text P m ->
  sections (labels ++ [label]) (ms ++ [m]) (txt ++ ("  " ++ label ++ ": ") ++ P ++ (if String.eqb label "Pass 2" then "" else ";"))%string.
Proof.
  intros I M. induction I as [|label' m' labels ms P' rest M' I IH].
  - cbn [app]. pose proof (one_section label m [] [] P "" M no_section) as K. rewrite str_app_nil in K.
    cbn [append]. rewrite <- !str_app_assoc. exact K.
  - cbn [app]. rewrite <- !str_app_assoc in *. rewrite <- ?str_app_assoc. constructor; [exact M'|]. exact IH.
Qed.
Lemma sections_length labels ms txt : sections labels ms txt -> length labels = length ms.
Proof. induction 1; cbn; congruence. Qed.

Section Stops.
Context {F D X S : Type} (w : world (@bans F D X) S) (bd : build) (t : tolerance) (l : libm) (b : builder F X).
Local Notation P := (fprog (@bans F D X)).
Local Notation call := (@bcall F D X).
Definition header : string := ("Running '" ++ b_name b ++ "' async algorithm:" ++ newline)%string.
Definition interrupted (c : list call) (txt : string) : Prop :=
  exists done cut Ps, c = done ++ [cut] /\ Forall finished done /\ ~ finished cut /\
    sections (firstn (length (measurements done)) (labels b)) (measurements done) Ps /\
    txt = (header ++ Ps)%string.
(** everything so far finished and printed: [L] are the names of the functions run *)
Definition so_far (L : list string) (c : list call) (txt : string) : Prop :=
  (exists rest, labels b = L ++ rest) /\ Forall finished c /\ exists Ps, sections L (measurements c) Ps /\ txt = (header ++ Ps)%string.

Hypothesis OUT : forall s i s' a, w s (BOut i) s' a -> a <> None.
Hypothesis US : usable b.

Definition stops_at {A} (m : P A) (c0 : list call) (t0 : string) : Prop :=
  forall s tr s' p, fexec w m s tr s' (Panic p) -> all_sane (bcalls tr) -> interrupted (c0 ++ bcalls tr) (t0 ++ b_printed tr).
Lemma at_ret {A} (a : A) c0 t0 : stops_at (FRet a) c0 t0.
Proof. intros s tr s' p (_ & _ & E). discriminate. Qed.
Lemma at_bind {A B} (m : P A) (k : A -> P B) (R : list call -> string -> A -> Prop) c0 t0 :
  stops_at m c0 t0 -> says w m R -> (forall c1 t1 x, R c1 t1 x -> all_sane c1 -> stops_at (k x) (c0 ++ c1) (t0 ++ t1)) -> stops_at (fbind m k) c0 t0.
Proof.
  intros S1 S2 S3 s tr s' p E SA. apply fexec_bind in E. destruct E as [(x & tr1 & s1 & tr2 & E1 & E2 & ->)|(q & E & _)]; [|exact (S1 _ _ _ _ E SA)].
  assert (SA1 : all_sane (bcalls tr1)) by (intros f d m0 d' I; apply (SA f d m0 d'); rewrite bcalls_app; apply in_or_app; left; exact I).
  assert (SA2 : all_sane (bcalls tr2)) by (intros f d m0 d' I; apply (SA f d m0 d'); rewrite bcalls_app; apply in_or_app; right; exact I).
  rewrite bcalls_app, b_printed_app, app_assoc, str_app_assoc. exact (S3 _ _ _ (S2 _ _ _ _ E1 SA1) SA1 _ _ _ _ E2 SA2).
Qed.
Lemma at_out i c0 t0 : stops_at (b_out i) c0 t0.
Proof.
  intros s tr s' p E _. unfold b_out in E. cbn [ask fexec] in E.
  destruct E as [(a & s1 & tr' & W & (_ & _ & E) & _)|(W & _ & _)]; [discriminate|]. destruct (OUT _ _ _ _ W eq_refl).
Qed.
Lemma at_lift {A} (m : res A) a c0 t0 : m = Val a -> stops_at (flift m) c0 t0.
Proof. intros -> . apply at_ret. Qed.
Lemma cut_here L c0 t0 (cut : call) : so_far L c0 t0 -> ~ finished cut -> interrupted (c0 ++ [cut]) (t0 ++ "").
Proof.
  intros ((rest & EL) & FI & Ps & SE & ->) N. exists c0, cut, Ps. split; [reflexivity|]. split; [exact FI|]. split; [exact N|].
  rewrite <- (sections_length _ _ _ SE), EL, firstn_app, firstn_all, Nat.sub_diag, firstn_O, app_nil_r. split; [exact SE|]. apply str_app_nil.
Qed.
Lemma at_run L c0 t0 pre suf f d : so_far L c0 t0 -> stops_at (run_verbosely bd pre suf f d) c0 t0.
Proof.
  intros SF s tr s' p E SA. unfold run_verbosely in E. cbn [ask fbind fexec] in E.
  destruct E as [(x & s1 & tr' & W & E & ->)|(W & -> & _)].
  - exfalso. destruct x as [m d']. assert (SM : sane m) by (apply (SA f d m d'); left; reflexivity). cbn [fst] in E.
    apply flift_exec in E. destruct E as [(c & C & E)|(N & _)].
    + unfold b_out in E. cbn [ask fbind fexec] in E. destruct E as [(u & s2 & tr2 & W2 & (_ & _ & E) & _)|(W2 & _ & _)]; [discriminate|].
      destruct (OUT _ _ _ _ W2 eq_refl).
    + destruct SM as (_ & WF & _). destruct (fmt_ok bd (pr_space m) 1 WF) as [sh E']. exact (N _ E').
  - cbn [bcalls flat_map bcall_of app]. apply (cut_here L); [exact SF|]. cbn. intros H. apply H. reflexivity.
Qed.
Lemma at_assertion L c0 t0 f d : so_far L c0 t0 -> stops_at (run_assertion f d) c0 t0.
Proof.
  intros SF. destruct f as [f|]; cbn [run_assertion]; [|apply at_ret].
  intros s tr s' p E SA. cbn [ask fexec] in E. destruct E as [(x & s1 & tr' & W & (_ & _ & E) & _)|(W & -> & _)]; [discriminate|].
  cbn [bcalls flat_map bcall_of app]. apply (cut_here L); [exact SF|]. cbn. intros H. apply H. reflexivity.
Qed.
Lemma so_far_run L c0 t0 label f d x T : so_far L c0 t0 -> (exists rest, labels b = (L ++ [label]) ++ rest) -> measured_text T (fst x) ->
  so_far (L ++ [label]) (c0 ++ [Ran f d (Some x)]) (t0 ++ ("  " ++ label ++ ": ") ++ T ++ (if String.eqb label "Pass 2" then "" else ";"))%string.
Proof.
  intros (_ & FI & Ps & SE & ->) EL M. split; [exact EL|]. split; [apply Forall_app; split; [exact FI|constructor; [cbn; discriminate|constructor]]|].
  eexists. split; [|rewrite <- str_app_assoc; reflexivity]. rewrite measurements_app. destruct x as [m d']. cbn [measurements flat_map app].
  apply sections_snoc; assumption.
Qed.
Lemma so_far_asserted L c0 t0 f d : so_far L c0 t0 -> so_far L (c0 ++ asserted f d) (t0 ++ "").
Proof.
  intros (EL & FI & Ps & SE & ->). split; [exact EL|]. split; [apply Forall_app; split; [exact FI|destruct f; constructor; [cbn; discriminate|constructor]]|].
  exists Ps. rewrite measurements_app, measurements_asserted, app_nil_r, str_app_nil. auto.
Qed.
Lemma so_far_same L c0 t0 : so_far L c0 t0 -> so_far L (c0 ++ []) (t0 ++ "").
Proof. rewrite app_nil_r, str_app_nil. auto. Qed.
(** one measured call, then the rest *)
Lemma at_run_then {A} L c0 t0 label f d (k : pass_result * D -> P A) :
  so_far L c0 t0 -> (exists rest, labels b = (L ++ [label]) ++ rest) ->
  (forall x c1 t1, so_far (L ++ [label]) c1 t1 -> In (Ran f d (Some x)) c1 -> sane (fst x) -> incl c0 c1 -> stops_at (k x) c1 t1) ->
  stops_at (fbind (run_verbosely bd ("  " ++ label ++ ": ") (if String.eqb label "Pass 2" then "" else ";") f d) k) c0 t0.
Proof.
  intros SF EL K. eapply at_bind; [exact (at_run L c0 t0 _ _ f d SF)|apply says_run|].
  intros c1 t1 x (-> & T & -> & M) SA. apply K.
  - apply so_far_run; assumption.
  - apply in_or_app. right. left. reflexivity.
  - destruct x as [m d']. apply (SA f d m d'). left. reflexivity.
  - intros a Ha. apply in_or_app. left. exact Ha.
Qed.

Lemma at_assoc {A B C} (m : P A) (f : A -> P B) (g : B -> P C) c0 t0 :
  stops_at (fbind m (fun x => fbind (f x) g)) c0 t0 -> stops_at (fbind (fbind m f) g) c0 t0.
Proof. intros H s tr s' p E SA. apply fbind_assoc_exec in E. exact (H _ _ _ _ E SA). Qed.
Lemma at_ret_then {A B} (a : A) (k : A -> P B) c0 t0 : stops_at (k a) c0 t0 -> stops_at (fbind (FRet a) k) c0 t0.
Proof. exact (fun H => H). Qed.

(** from pass 2 on *)
Lemma at_second_pass L c0 t0 m1 p2 d2 : so_far L c0 t0 -> labels b = L ++ ["Pass 2"%string] -> sane m1 ->
  stops_at
    (x2 <-- run_verbosely bd "  Pass 2: " "" p2 d2 ;
     _ <-- run_assertion (b_assert2 b) (snd x2) ;
     let m2 := fst x2 in
     let tc := analyse_time_complexity t l (b_n1 b) (b_n2 b) (pr_time m1) (pr_time m2) in
     sc <-- flift (analyse_space_complexity bd t l (b_n1 b) (b_n2 b) (pr_space m1) (pr_space m2)) ;
     _ <-- b_out (BIText (newline ++ newline)) ;
     rep <-- flift (analysis_display bd (regular_rows bd (b_n1 b) (b_n2 b) (pr_time m1) (pr_time m2) (pr_space m1) (pr_space m2))
                      tc sc (pr_space m1) (pr_space m2)) ;
     _ <-- b_out (BIAnalysis (b_name b) rep) ;
     match (match b_space b with Some e => if worse_than sc e then Some e else None | None => None end) with
     | Some e => _ <-- b_out (BIMismatch (b_name b) Space e sc) ; FRet (RFatal (b, snd x2) (BError (b_name b) Space e sc))
     | None =>
         match (match b_time b with Some e => if worse_than tc e then Some e else None | None => None end) with
         | Some e => _ <-- b_out (BIMismatch (b_name b) Time e tc) ; FRet (RTransient (b, snd x2) (BError (b_name b) Time e tc))
         | None => FRet (ROk (b, snd x2))
         end
     end) c0 t0.
Proof.
  intros SF EL S1. eapply (at_run_then L c0 t0 "Pass 2" p2 d2); [exact SF|exists []; rewrite app_nil_r; exact EL|].
  intros x2 c1 t1 SF2 _ S2 _. destruct x2 as [m2 d3]. cbn [fst snd] in *.
  eapply at_bind; [exact (at_assertion _ _ _ _ _ SF2)|apply says_assertion|]. intros c2 t2 _ _ _. cbv zeta.
  destruct US as (_ & _ & N1 & N2). destruct S1 as (D1 & W1 & B1), S2 as (D2 & W2 & B2).
  assert (SC : exists sc, analyse_space_complexity bd t l (b_n1 b) (b_n2 b) (pr_space m1) (pr_space m2) = Val sc).
  { unfold analyse_space_complexity. rewrite (AnalysisF64d.max_growth_ok bd (pr_space m1)), (AnalysisF64d.max_growth_ok bd (pr_space m2)); [cbn [bind]; eauto| |];
      unfold well_formed in *; unfold space_ok; lia. }
  destruct SC as [sc0 SC].
  eapply at_bind; [exact (at_lift _ _ _ _ SC)|apply says_lift|]. intros c3 t3 sc (_ & _ & _) _.
  eapply at_bind; [apply at_out|apply says_out|]. intros c4 t4 _ _ _.
  destruct (C46_nonzero_set_sizes_do_not_panic bd (b_n1 b) (b_n2 b) (pr_time m1) (pr_time m2) (pr_space m1) (pr_space m2)
    (analyse_time_complexity t l (b_n1 b) (b_n2 b) (pr_time m1) (pr_time m2)) sc D1 D2 N1 N2 W1 W2 B1 B2) as [r0 ER].
  eapply at_bind; [exact (at_lift _ _ _ _ ER)|apply says_lift|]. intros c5 t5 rep _ _.
  eapply at_bind; [apply at_out|apply says_out|]. intros c6 t6 _ _ _.
  assert (OUT1 : forall A i (v : A) c t, stops_at (fbind (b_out i) (fun _ => FRet v)) c t)
    by (intros A i v c t'; eapply at_bind; [apply at_out|apply says_out|]; intros; apply at_ret).
  repeat match goal with |- stops_at (match ?z with Some _ => _ | None => _ end) _ _ => destruct z end; first [apply OUT1|apply at_ret].
Qed.
(** from pass 1 on *)
Lemma at_passes L c0 t0 d1 : so_far L c0 t0 ->
  labels b = L ++ ["Pass 1"%string] ++ if_present (b_reset b) ["In-between-passes Reset"%string] ++ ["Pass 2"%string] ->
  forall (k : F -> F -> pass_result * D -> option D -> P (retry_result (builder F X * D) (builder F X * D) b_error)),
  (forall p1 p2 x1 d2 L' c1 t1, so_far L' c1 t1 -> labels b = L' ++ ["Pass 2"%string] -> sane (fst x1) -> stops_at (k p1 p2 x1 d2) c1 t1) ->
  stops_at
    (pass1 <-- expect (b_pass1 b) ; pass2 <-- expect (b_pass2 b) ;
     x1 <-- run_verbosely bd "  Pass 1: " ";" pass1 d1 ;
     _ <-- run_assertion (b_assert1 b) (snd x1) ;
     d2 <-- match b_reset b with
            | Some reset => x <-- run_verbosely bd "  In-between-passes Reset: " ";" reset (Some (snd x1)) ; FRet (Some (snd x))
            | None => FRet (Some (snd x1))
            end ;
     k pass1 pass2 x1 d2) c0 t0.
Proof.
  intros SF EL k K. destruct US as (P1 & P2 & _). destruct (b_pass1 b) as [p1|]; [|destruct (P1 eq_refl)]. destruct (b_pass2 b) as [p2|]; [|destruct (P2 eq_refl)].
  cbn [expect fbind].
  eapply (at_run_then L c0 t0 "Pass 1" p1 d1); [exact SF|eexists; rewrite <- app_assoc; exact EL|].
  intros x1 c1 t1 SF1 _ S1 _.
  eapply at_bind; [exact (at_assertion _ _ _ _ _ SF1)|apply says_assertion|]. intros c2 t2 _ (-> & ->) _.
  apply (so_far_asserted _ _ _ (b_assert1 b) (snd x1)) in SF1. revert SF1. generalize (c1 ++ asserted (b_assert1 b) (snd x1)), (t1 ++ "")%string. clear c1 t1. intros c1 t1 SF1.
  destruct (b_reset b) as [reset|]; cbn [if_present app] in EL.
  - apply at_assoc. eapply (at_run_then _ c1 t1 "In-between-passes Reset" reset (Some (snd x1))); [exact SF1|eexists; rewrite <- !app_assoc; exact EL|].
    intros x c3 t3 SF3 _ _ _. apply at_ret_then. eapply K; [exact SF3|rewrite <- !app_assoc; exact EL|exact S1].
  - apply at_ret_then. eapply K; [exact SF1|rewrite <- app_assoc; exact EL|exact S1].
Qed.

Lemma stops_attempt previous : stops_at (raw_analyse bd t l b previous) [] "".
Proof.
  unfold raw_analyse. eapply at_bind; [apply at_out|apply says_out|]. intros c tx u (-> & ->) _.
  assert (SF : so_far [] ([] ++ []) ("" ++ String.concat "" (bitem_text (BIText ("Running '" ++ b_name b ++ "' async algorithm:" ++ newline))))).
  { split; [exists (labels b); reflexivity|]. split; [constructor|]. exists ""%string. split; [constructor|]. rewrite str_app_nil. reflexivity. }
  revert SF. match goal with |- so_far [] ?c ?tx -> _ => generalize c, tx end. intros c tx SF.
  (* the first reset *)
  assert (K1 : forall L d0 c tx, so_far L c tx -> L = if_present (b_reset b) ["Resetting"%string] ->
    stops_at (d1 <-- match b_warmup b with
         | Some warmup =>
             x <-- run_verbosely bd "  Warming up: " ";" warmup d0 ;
             match b_reset b with
             | Some reset => y <-- run_verbosely bd "  Resetting again: " ";" reset None ; FRet (Some (snd y))
             | None => FRet (Some (snd x))
             end
         | None => FRet d0
         end ;
  pass1 <-- expect (b_pass1 b) ;
  pass2 <-- expect (b_pass2 b) ;
  x1 <-- run_verbosely bd "  Pass 1: " ";" pass1 d1 ;
  _ <-- run_assertion (b_assert1 b) (snd x1) ;
  d2 <-- match b_reset b with
         | Some reset => x <-- run_verbosely bd "  In-between-passes Reset: " ";" reset (Some (snd x1)) ; FRet (Some (snd x))
         | None => FRet (Some (snd x1))
         end ;
  x2 <-- run_verbosely bd "  Pass 2: " "" pass2 d2 ;
  _ <-- run_assertion (b_assert2 b) (snd x2) ;
  let m1 := fst x1 in
  let m2 := fst x2 in
  let tc := analyse_time_complexity t l (b_n1 b) (b_n2 b) (pr_time m1) (pr_time m2) in
  sc <-- flift (analyse_space_complexity bd t l (b_n1 b) (b_n2 b) (pr_space m1) (pr_space m2)) ;
  _ <-- b_out (BIText (newline ++ newline)) ;
  rep <-- flift (analysis_display bd (regular_rows bd (b_n1 b) (b_n2 b) (pr_time m1) (pr_time m2) (pr_space m1) (pr_space m2))
                   tc sc (pr_space m1) (pr_space m2)) ;
  _ <-- b_out (BIAnalysis (b_name b) rep) ;
  match (match b_space b with Some e => if worse_than sc e then Some e else None | None => None end) with
  | Some e => _ <-- b_out (BIMismatch (b_name b) Space e sc) ; FRet (RFatal (b, snd x2) (BError (b_name b) Space e sc))
  | None =>
      match (match b_time b with Some e => if worse_than tc e then Some e else None | None => None end) with
      | Some e => _ <-- b_out (BIMismatch (b_name b) Time e tc) ; FRet (RTransient (b, snd x2) (BError (b_name b) Time e tc))
      | None => FRet (ROk (b, snd x2))
      end
  end) c tx).
  { clear c tx SF. intros L d0 c tx SF ->.
    assert (PP : forall L d1 c tx, so_far L c tx ->
      labels b = L ++ ["Pass 1"%string] ++ if_present (b_reset b) ["In-between-passes Reset"%string] ++ ["Pass 2"%string] ->
      stops_at (pass1 <-- expect (b_pass1 b) ;
  pass2 <-- expect (b_pass2 b) ;
  x1 <-- run_verbosely bd "  Pass 1: " ";" pass1 d1 ;
  _ <-- run_assertion (b_assert1 b) (snd x1) ;
  d2 <-- match b_reset b with
         | Some reset => x <-- run_verbosely bd "  In-between-passes Reset: " ";" reset (Some (snd x1)) ; FRet (Some (snd x))
         | None => FRet (Some (snd x1))
         end ;
  x2 <-- run_verbosely bd "  Pass 2: " "" pass2 d2 ;
  _ <-- run_assertion (b_assert2 b) (snd x2) ;
  let m1 := fst x1 in
  let m2 := fst x2 in
  let tc := analyse_time_complexity t l (b_n1 b) (b_n2 b) (pr_time m1) (pr_time m2) in
  sc <-- flift (analyse_space_complexity bd t l (b_n1 b) (b_n2 b) (pr_space m1) (pr_space m2)) ;
  _ <-- b_out (BIText (newline ++ newline)) ;
  rep <-- flift (analysis_display bd (regular_rows bd (b_n1 b) (b_n2 b) (pr_time m1) (pr_time m2) (pr_space m1) (pr_space m2))
                   tc sc (pr_space m1) (pr_space m2)) ;
  _ <-- b_out (BIAnalysis (b_name b) rep) ;
  match (match b_space b with Some e => if worse_than sc e then Some e else None | None => None end) with
  | Some e => _ <-- b_out (BIMismatch (b_name b) Space e sc) ; FRet (RFatal (b, snd x2) (BError (b_name b) Space e sc))
  | None =>
      match (match b_time b with Some e => if worse_than tc e then Some e else None | None => None end) with
      | Some e => _ <-- b_out (BIMismatch (b_name b) Time e tc) ; FRet (RTransient (b, snd x2) (BError (b_name b) Time e tc))
      | None => FRet (ROk (b, snd x2))
      end
  end) c tx).
    { clear - OUT US. intros L d1 c tx SF EL. apply (at_passes L c tx d1 SF EL (fun _ pass2 x1 d2 => _)).
      intros p1 p2 x1 d2 L' c1 t1 SF1 EL1 S1. exact (at_second_pass L' c1 t1 (fst x1) p2 d2 SF1 EL1 S1). }
    destruct (b_warmup b) as [wu|] eqn:EW.
    - apply at_assoc. eapply (at_run_then _ c tx "Warming up" wu d0); [exact SF|eexists; unfold labels; rewrite EW; cbn [if_present]; rewrite <- !app_assoc; reflexivity|].
      intros x c1 t1 SF1 _ _ _. revert SF1. destruct (b_reset b) as [reset|] eqn:ER; intros SF1; cbn [if_present] in SF1.
      + apply at_assoc. eapply (at_run_then _ c1 t1 "Resetting again" reset None); [exact SF1|eexists; unfold labels; rewrite EW, ER; cbn [if_present]; rewrite <- !app_assoc; reflexivity|].
        intros y c2 t2 SF2 _ _ _. apply at_ret_then. eapply PP; [exact SF2|]. unfold labels. rewrite EW, ER. reflexivity.
      + apply at_ret_then. eapply PP; [exact SF1|]. unfold labels. rewrite EW, ER. reflexivity.
    - apply at_ret_then. eapply PP; [exact SF|]. unfold labels. rewrite EW. reflexivity. }
  destruct (b_reset b) as [reset|] eqn:ER.
  - apply at_assoc. eapply (at_run_then [] c tx "Resetting" reset previous); [exact SF|eexists; unfold labels; rewrite ER; cbn [if_present app]; reflexivity|].
    intros x c1 t1 SF1 _ _ _. apply at_ret_then. eapply K1; [exact SF1|reflexivity].
  - apply at_ret_then. eapply K1; [exact SF|reflexivity].
Qed.
End Stops.

(** If a user function panics, the attempt has printed its heading and one section for every
    function that had finished, with its own measurements and in order, and nothing else. *)
Theorem C105_interrupted : forall F D X S bd t l (b : builder F X) (w : world (@bans F D X) S) previous s tr s' p,
  (forall s i s' a, w s (BOut i) s' a -> a <> None) -> usable b ->
  fexec w (raw_analyse bd t l b previous) s tr s' (Panic p) -> b_sane tr ->
  exists done cut Ps, bcalls tr = done ++ [cut] /\ Forall finished done /\ ~ finished cut /\
    sections (firstn (length (measurements done)) (labels b)) (measurements done) Ps /\
    b_printed tr = ("Running '" ++ b_name b ++ "' async algorithm:" ++ newline ++ Ps)%string.
Proof.
  intros F D X S bd t l b w previous s tr s' p OUT US E SA.
  destruct (stops_attempt w bd t l b OUT US previous _ _ _ _ E SA) as (done & cut & Ps & C & FI & N & SE & TX).
  exists done, cut, Ps. cbn [app append] in C, TX. repeat (split; [assumption|]). rewrite TX. unfold header. rewrite <- !str_app_assoc. reflexivity.
Qed.
Print Assumptions C105_interrupted.

(** an assertion on pass 1 panics (demo_answer's assertions reject 99) *)
Definition cut_builder : builder Z Z := fold_left set [WithResetFn 1; FirstPass 1000 3; FirstPassAssertion 5; SecondPass 2000 4] (new_builder "cut").
Definition cut_run := demo_run (raw_analyse Debug Tol25 demo_libm cut_builder (Some 98)).
Example C105_interrupted_example :
  fexec (det demo_answer) (raw_analyse Debug Tol25 demo_libm cut_builder (Some 98)) 0 (fst (fst cut_run)) (snd (fst cut_run)) (snd cut_run) /\
  (exists p, snd cut_run = Panic p) /\ usable cut_builder /\ b_sane (fst (fst cut_run)) /\
  (forall s i s' a, det demo_answer s (BOut i) s' a -> a <> None) /\
  b_printed (fst (fst cut_run)) =
"Running 'cut' async algorithm:
  Resetting: 99s/976.56KiB;  Pass 1: 99s/976.56KiB;"%string.
Proof.
  split; [apply frun_exec|]. split; [vm_compute; eexists; reflexivity|].
  split; [unfold usable; cbn -[two32]; rewrite two32_val; split; [discriminate|]; split; [discriminate|]; lia|].
  split; [|split; [|vm_compute; reflexivity]].
  - assert (C : bcalls (fst (fst cut_run)) = [Ran 1 (Some 98) (Some (PassResult 99000000000 (SpacePass 0 0 1000000 0), 98));
      Ran 3 (Some 98) (Some (PassResult 99000000000 (SpacePass 0 0 1000000 0), 99)); Asserted 5 99 None]) by (vm_compute; reflexivity).
    intros f d m d' I. rewrite C in I. cbn [In] in I.
    assert (M : m = PassResult 99000000000 (SpacePass 0 0 1000000 0)) by (destruct I as [I|[I|[I|[]]]]; congruence).
    subst m. unfold sane, duration_sane, well_formed. cbn [pr_time pr_space used_memory_before used_memory_after max_used_memory min_used_memory].
    pose proof two64_val. unfold nanos_per_sec. repeat split; lia.
  - intros s i s' a H. unfold det in H. cbn in H. intros ->. congruence.
Qed.
