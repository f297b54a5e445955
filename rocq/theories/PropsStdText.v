(** * C104: everything test_algorithm prints, word for word. *)
From Coq Require Import ZArith Reals String Ascii List Bool Lia.
From Verif Require Import Machine Complexity Analysis AnalysisF64d AllocSpec Report ReportProofs Crud CrudMsg CrudSpec CrudProofs Free Standard StandardSpec PropsStandard TextProofs
  PropsCrudMsg RunnerMsg PropsRunnerMsg Format ReadSpec ReportText ReportTextSpec PropsReport PropsReportText RunTextSpec StdText Demo BuilderProofs.
Import ListNotations.
Open Scope Z_scope.

(** ** Specification *)
(** a run of the three closures: what was measured, and what the passes returned *)
Definition run := (pass_result * (pass_result * Z) * (pass_result * Z))%type.
Definition run_calls (r : run) : list scall := let '(m0, x1, x2) := r in [CReset (Some m0); CPass1 (Some x1); CPass2 (Some x2)].
Definition header (name : string) : string := ("Running '" ++ name ++ "' algorithm:" ++ newline)%string.
(** the last words of a run *)
Definition ending (cfg : std_cfg) (tc sc : complexity) (r : Z) (txt : string) : Prop :=
  (clt (st_max_space cfg) sc /\ txt = space_text (st_name cfg) (st_max_space cfg) sc) \/
  (cle sc (st_max_space cfg) /\ clt (st_max_time cfg) tc /\ txt = time_text (st_name cfg) (st_max_time cfg) tc) \/
  (cle sc (st_max_space cfg) /\ cle tc (st_max_time cfg) /\ txt = "r=" ++ dec r ++ newline ++ newline)%string.
Definition run_text b t l (cfg : std_cfg) (r : run) (txt : string) : Prop :=
  let '(m0, (m1, r1), (m2, r2)) := r in
  exists P0 P1 P2 R E tc sc,
    txt = (header (st_name cfg) ++ "  Resetting: " ++ P0 ++ "; Pass 1: " ++ P1 ++ "; Pass 2: " ++ P2 ++ newline ++ newline ++ R ++ newline ++ E)%string /\
    measured_text P0 m0 /\ measured_text P1 m1 /\ measured_text P2 m2 /\
    tc = analyse_time_complexity t l (st_n1 cfg) (st_n2 cfg) (pr_time m1) (pr_time m2) /\
    analyse_space_complexity b t l (st_n1 cfg) (st_n2 cfg) (pr_space m1) (pr_space m2) = Val sc /\
    regular_report_text R (st_name cfg) (st_n1 cfg) (st_n2 cfg) m1 m2 tc sc /\
    ending cfg tc sc (Z.lxor r1 r2) E.

(** ** Proofs *)
Lemma concat_app a c : String.concat "" (a ++ c) = (String.concat "" a ++ String.concat "" c)%string.
Proof. induction a as [|x a IH]; [reflexivity|]. cbn [app]. rewrite !concat_cons, IH. rewrite str_app_assoc. reflexivity. Qed.
Lemma printed_app a c : printed (a ++ c) = (printed a ++ printed c)%string.
Proof. unfold printed, sshown. rewrite flat_map_app, map_app. apply concat_app. Qed.
Lemma pass_line_text b pre m suf c : sane m -> fmt_over_n b (pr_space m) 1 = Val c ->
  exists P, pass_line pre (pr_time m) c suf = (pre ++ P ++ suf)%string /\ measured_text P m.
Proof.
  intros (D & W & _) F. destruct (C102_pass_text b pre (pr_time m) (pr_space m) suf (sane_nonneg _ D) W) as (T & M & O & RT & RM & SP).
  unfold pass_output in O. rewrite F in O. cbn [bind] in O. apply val_inj in O.
  exists (T ++ "/" ++ M)%string. split; [rewrite O, !str_app_assoc; reflexivity|]. exists T, M. auto.
Qed.
Lemma run_prints S b t l cfg (w : world sans S) s tr s' v :
  lines (st_name cfg) = [st_name cfg] -> 1 <= st_n1 cfg < two32 -> 1 <= st_n2 cfg < two32 ->
  fexec w (analyse_algorithm b t l cfg) s tr s' (Val v) -> s_sane tr ->
  exists r, scalls tr = run_calls r /\ run_text b t l cfg r (printed tr).
Proof.
  intros NL N1 N2 E SA.
  destruct (run_shape b t l cfg w s tr s' (Val v) E) as [(v' & V & m0 & m1 & r1 & m2 & r2 & c0 & c1 & c2 & tc & sc & rep & TR & F0 & F1 & F2 & TC & SC & VD & AD)|([p Y] & _)]; [|discriminate].
  apply val_inj in V. subst v'. exists (m0, (m1, r1), (m2, r2)). split; [rewrite TR; reflexivity|].
  assert (S0 : sane m0) by (apply (SA (CReset (Some m0))); rewrite TR; left; reflexivity).
  assert (S1 : sane m1) by (apply (SA (CPass1 (Some (m1, r1)))); rewrite TR; right; left; reflexivity).
  assert (S2 : sane m2) by (apply (SA (CPass2 (Some (m2, r2)))); rewrite TR; right; right; left; reflexivity).
  destruct (pass_line_text b "  Resetting: " m0 "" c0 S0 F0) as (P0 & L0 & M0).
  destruct (pass_line_text b "; Pass 1: " m1 "" c1 S1 F1) as (P1 & L1 & M1).
  destruct (pass_line_text b "; Pass 2: " m2 "" c2 S2 F2) as (P2 & L2 & M2).
  destruct S1 as (D1 & W1 & B1), S2 as (D2 & W2 & B2).
  destruct (C103_regular_report b (st_name cfg) (st_n1 cfg) (st_n2 cfg) (pr_time m1) (pr_time m2) (pr_space m1) (pr_space m2) tc sc NL D1 D2 N1 N2 W1 W2 B1 B2) as (R & HR & RS).
  unfold regular_report in HR. rewrite AD in HR. cbn [bind] in HR. apply val_inj in HR.
  exists P0, P1, P2, R, (sitem_text (last_item cfg v)), tc, sc. split.
  { rewrite TR. unfold printed, sshown. cbn [flat_map ev_query app map sitem_text]. rewrite str_app_nil in L0, L1, L2. rewrite L0, L1, L2, HR, !concat_cons. cbn [String.concat].
    unfold header. rewrite !str_app_assoc, ?str_app_nil. reflexivity. }
  do 3 (split; [assumption|]). split; [exact TC|]. split; [exact SC|]. split; [exact RS|].
  destruct VD as (tc' & sc' & TC' & SC' & VD). rewrite SC in SC'. apply val_inj in SC'. subst sc'. rewrite <- TC in TC'. subst tc'.
  unfold ending. destruct VD as [(A & ->)|[(A & B & ->)|(A & B & ->)]]; cbn [last_item sitem_text se_what se_max se_observed]; rewrite ?mismatch_msg_text; auto.
Qed.

(** ** C104: a run prints this and nothing else ... *)
Theorem C104_run : forall S b t l cfg (w : world sans S) s tr s' v,
  lines (st_name cfg) = [st_name cfg] -> 1 <= st_n1 cfg < two32 -> 1 <= st_n2 cfg < two32 ->
  fexec w (analyse_algorithm b t l cfg) s tr s' (Val v) -> s_sane tr ->
  exists r, scalls tr = run_calls r /\ run_text b t l cfg r (printed tr).
Proof. exact run_prints. Qed.
Print Assumptions C104_run.

(** ... and a test prints the texts of its runs, one after the other, and nothing else *)
Theorem C104_test : forall S b t l cfg (w : world sans S) max s tr s' e,
  lines (st_name cfg) = [st_name cfg] -> 1 <= st_n1 cfg < two32 -> 1 <= st_n2 cfg < two32 ->
  fexec w (test_algorithm b t l cfg max) s tr s' (Val e) -> s_sane tr ->
  exists runs texts, scalls tr = flat_map run_calls runs /\
    printed tr = String.concat "" texts /\ Forall2 (run_text b t l cfg) runs texts.
Proof.
  intros S b t l cfg w max s tr s' e NL N1 N2 E SA. unfold test_algorithm in E. apply fexec_bind in E.
  destruct E as [(x & tr1 & s1 & tr2 & E1 & (-> & -> & _) & ->)|(p & _ & Y)]; [|discriminate]. rewrite app_nil_r in *.
  assert (G : forall p s fs v tr s', tries (fun _ : unit => analyse_algorithm b t l cfg) w p s fs v tr s' -> p = analyse_algorithm b t l cfg -> s_sane tr ->
    exists runs texts, scalls tr = flat_map run_calls runs /\ printed tr = String.concat "" texts /\ Forall2 (run_text b t l cfg) runs texts).
  { clear - NL N1 N2. intros p s fs v tr s' H. induction H as [p s tr s' v H|p s tr s1 i e fs v tr' s' H T IH]; intros -> SA.
    - destruct (run_prints _ _ _ _ _ _ _ _ _ _ NL N1 N2 H SA) as (r & C & P). exists [r], [printed tr]. split; [cbn [flat_map]; rewrite app_nil_r; exact C|]. split; [reflexivity|auto].
    - assert (SA1 : s_sane tr) by (intros c I; apply SA; rewrite scalls_app; apply in_or_app; left; exact I).
      assert (SA2 : s_sane tr') by (intros c I; apply SA; rewrite scalls_app; apply in_or_app; right; exact I).
      destruct (run_prints _ _ _ _ _ _ _ _ _ _ NL N1 N2 H SA1) as (r & C & P). destruct (IH eq_refl SA2) as (runs & texts & C2 & P2 & F).
      exists (r :: runs), (printed tr :: texts). rewrite scalls_app, printed_app, concat_cons, C, C2, P2. split; [reflexivity|]. split; [reflexivity|]. constructor; assumption. }
  apply retry_spec in E1. destruct x as [r|f|es r|es f|es f].
  - exact (G _ _ _ _ _ _ E1 eq_refl SA).
  - destruct E1 as [i E1]. exact (G _ _ _ _ _ _ E1 eq_refl SA).
  - destruct E1 as (fs & E1 & _). exact (G _ _ _ _ _ _ E1 eq_refl SA).
  - destruct E1 as (fs & i & E1 & _). exact (G _ _ _ _ _ _ E1 eq_refl SA).
  - destruct E1 as (fs & i & E1 & _). exact (G _ _ _ _ _ _ E1 eq_refl SA).
Qed.
Print Assumptions C104_test.

(** A run in which a closure panics has printed what was measured before. *)
Theorem C104_interrupted : forall S b t l cfg (w : world sans S) s tr s' p,
  (forall s i s' a, w s (SOut i) s' a -> a <> None) ->
  1 <= st_n1 cfg < two32 -> 1 <= st_n2 cfg < two32 ->
  fexec w (analyse_algorithm b t l cfg) s tr s' (Panic p) -> s_sane tr ->
  match scalls tr with
  | [CReset None] => printed tr = header (st_name cfg)
  | [CReset (Some m0); CPass1 None] => exists P0, measured_text P0 m0 /\ printed tr = (header (st_name cfg) ++ "  Resetting: " ++ P0)%string
  | [CReset (Some m0); CPass1 (Some (m1, _)); CPass2 None] => exists P0 P1, measured_text P0 m0 /\ measured_text P1 m1 /\
      printed tr = (header (st_name cfg) ++ "  Resetting: " ++ P0 ++ "; Pass 1: " ++ P1)%string
  | _ => False
  end.
Proof.
  intros S b t l cfg w s tr s' p OUT N1 N2 E SA. unfold analyse_algorithm in E.
  assert (OB : forall B i (k : unit -> fprog sans B) s tr s' o, fexec w (fbind (s_out i) k) s tr s' o ->
     exists s1 tr2, fexec w (k tt) s1 tr2 s' o /\ tr = FEv (SOut i) (Some tt) :: tr2).
  { clear - OUT. intros B i k s tr s' o E. apply ask_bind in E. destruct E as [([] & s1 & tr' & W & E & ->)|(W & _)]; [eauto|]. destruct (OUT _ _ _ _ W eq_refl). }
  assert (SB : forall B pre m suf (k : unit -> fprog sans B) s tr s' o, sane m -> fexec w (fbind (show_pass b pre m suf) k) s tr s' o ->
     exists c s1 tr2, fmt_over_n b (pr_space m) 1 = Val c /\ fexec w (k tt) s1 tr2 s' o /\ tr = FEv (SOut (SIPass pre (pr_time m) c suf)) (Some tt) :: tr2).
  { clear - OB. intros B pre m suf k s tr s' o SM E. unfold show_pass in E. destruct (fmt_ok b (pr_space m) 1 ltac:(apply SM)) as [c C].
    assert (A : fexec w (fbind (s_out (SIPass pre (pr_time m) c suf)) k) s tr s' o) by (rewrite C in E; exact E).
    apply OB in A. destruct A as (s1 & tr2 & A & ->). eauto 8. }
  apply OB in E. destruct E as (sa & tra & E & ->).
  apply ask_bind in E. destruct E as [(m0 & s1 & tr1 & W0 & E & ->)|(W0 & -> & q & Q)]; [|reflexivity].
  assert (S0 : sane m0) by (apply (SA (CReset (Some m0))); left; reflexivity).
  apply SB in E; [|exact S0]. destruct E as (c0 & s2 & tr2 & F0 & E & ->).
  destruct (pass_line_text b "  Resetting: " m0 "" c0 S0 F0) as (P0 & L0 & M0).
  apply ask_bind in E. destruct E as [(x1 & s3 & tr3 & W1 & E & ->)|(W1 & -> & q & Q)].
  2:{ cbn [scalls flat_map scall_of app]. exists P0. split; [exact M0|]. unfold printed, sshown. cbn [flat_map ev_query app map sitem_text String.concat]. rewrite ?str_app_nil in L0. rewrite L0. reflexivity. }
  assert (S1 : sane (fst x1)) by (apply (SA (CPass1 (Some x1))); right; left; reflexivity).
  apply SB in E; [|exact S1]. destruct E as (c1 & s4 & tr4 & F1 & E & ->).
  destruct (pass_line_text b "; Pass 1: " (fst x1) "" c1 S1 F1) as (P1 & L1 & M1).
  apply ask_bind in E. destruct E as [(x2 & s5 & tr5 & W2 & E & ->)|(W2 & -> & q & Q)].
  2:{ cbn [scalls flat_map scall_of app]. destruct x1 as [m1 r1]. exists P0, P1. split; [exact M0|]. split; [exact M1|].
      unfold printed, sshown. cbn [flat_map ev_query app map sitem_text]. rewrite ?str_app_nil in L0, L1. rewrite L0, L1, !concat_cons. cbn [String.concat]. rewrite !str_app_nil. unfold header. rewrite !str_app_assoc. reflexivity. }
  exfalso. assert (S2 : sane (fst x2)) by (apply (SA (CPass2 (Some x2))); right; right; left; reflexivity).
  apply SB in E; [|exact S2]. destruct E as (c2 & s6 & tr6 & F2 & E & ->). cbv zeta in E.
  destruct S1 as (D1 & W1' & B1), S2 as (D2 & W2' & B2).
  set (tc := analyse_time_complexity _ _ _ _ _ _) in *.
  apply flift_exec in E. destruct E as [(sc & HS & E)|(N & _)].
  2:{ destruct (CrudProofs.max_growth_ok b _ W1') as [g1 G1]. destruct (CrudProofs.max_growth_ok b _ W2') as [g2 G2].
      unfold analyse_space_complexity in N. rewrite G1, G2 in N. cbn [bind] in N. eapply N. reflexivity. }
  apply OB in E. destruct E as (s7 & tr7 & E & _).
  apply flift_exec in E. destruct E as [(rep & HR & E)|(N & _)].
  2:{ destruct (C46_nonzero_set_sizes_do_not_panic b _ _ _ _ _ _ tc sc D1 D2 N1 N2 W1' W2' B1 B2) as [r R]. apply (N r R). }
  apply OB in E. destruct E as (s8 & tr8 & E & _).
  destruct (worse_than sc (st_max_space cfg)); [|destruct (worse_than tc (st_max_time cfg))];
    apply OB in E; destruct E as (s9 & tr9 & (_ & _ & E) & _); discriminate.
Qed.
Print Assumptions C104_interrupted.

(** *** Example: the two runs of C96_example, and all they print *)
Definition c104_cfg : std_cfg := StdCfg "sort" 1000 2000 O1 O1.
Definition c104_run := frun c96_answer (test_algorithm Debug Tol25 demo_libm c104_cfg 5) 0.
Example C104_example :
  fexec (det c96_answer) (test_algorithm Debug Tol25 demo_libm c104_cfg 5) 0 (fst (fst c104_run)) (snd (fst c104_run)) (snd c104_run) /\
  (exists e, snd c104_run = Val e) /\ s_sane (fst (fst c104_run)) /\ lines (st_name c104_cfg) = [st_name c104_cfg] /\
  String.eqb (printed (fst (fst c104_run)))
"Running 'sort' algorithm:
  Resetting: 1s/976.56KiB; Pass 1: 1s/+976.56KiB; Pass 2: 3s/+976.56KiB

'sort' regular-algorithm measurements:
pass          Δt              Δs             n            s⁻           t⁻
1)            1s      +976.56KiB          1000        +1000b       1.000ms
2)            3s      +976.56KiB          2000         +500b       1.500ms
--> Algorithm  Time Analysis: O(n²)
--> Algorithm Space Analysis: O(1) (allocated: 1.91MiB; auxiliary used space: 0.00b)


 ** TIME complexity mismatch on 'sort' operation: maximum: O1, measured: ON2 -- a reattempt may be performed...

Running 'sort' algorithm:
  Resetting: 1s/976.56KiB; Pass 1: 1s/+976.56KiB; Pass 2: 1s/+2.86MiB

'sort' regular-algorithm measurements:
pass          Δt              Δs             n            s⁻           t⁻
1)            1s      +976.56KiB          1000        +1000b       1.000ms
2)            1s        +2.86MiB          2000      +1.46KiB     500.000µs
--> Algorithm  Time Analysis: O(1)
--> Algorithm Space Analysis: O(n²) (allocated: 3.81MiB; auxiliary used space: 0.00b)


 ** Aborted due to SPACE complexity mismatch on 'sort' operation: maximum: O1, measured: ON2

" = true.
Proof.
  split; [apply frun_exec|]. split; [eexists; vm_compute; reflexivity|].
  split; [|split; [reflexivity|vm_compute; reflexivity]].
  assert (C : scalls (fst (fst c104_run)) =
    [CReset (Some (PassResult 1000000000 (SpacePass 0 0 1000000 0))); CPass1 (Some (PassResult 1000000000 (SpacePass 0 1000000 1000000 0), 1)); CPass2 (Some (PassResult 3000000000 (SpacePass 0 1000000 1000000 0), 2));
     CReset (Some (PassResult 1000000000 (SpacePass 0 0 1000000 0))); CPass1 (Some (PassResult 1000000000 (SpacePass 0 1000000 1000000 0), 1)); CPass2 (Some (PassResult 1000000000 (SpacePass 0 3000000 3000000 0), 2))]) by (vm_compute; reflexivity).
  assert (SN : forall d a g, 0 <= d < 2 ^ 53 -> 0 <= a <= g -> g < 2 ^ 40 -> sane (PassResult d (SpacePass 0 a g 0))).
  { intros d a g Hd Ha Hg. unfold sane, duration_sane, well_formed. cbn [pr_time pr_space used_memory_before used_memory_after max_used_memory min_used_memory]. pose proof two64_val. unfold nanos_per_sec. repeat split; try lia. }
  intros c Hc. rewrite C in Hc. cbn [In] in Hc. repeat (destruct Hc as [<-|Hc]; [cbn [fst]; apply SN; lia|]). contradiction.
Qed.
