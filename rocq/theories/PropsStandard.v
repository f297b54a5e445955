(** * Property theorems C45, C46: test_algorithm. *)
From Coq Require Import List ZArith String Lia Bool.
From Verif Require Import Machine Complexity Analysis AnalysisF64 AnalysisF64d AllocSpec Report ReportProofs Crud CrudSpec CrudProofs CrudMsg Free Standard StandardSpec Demo PropsReport.
Import ListNotations.
Open Scope Z_scope.

Section Proofs.
Context {S : Type} (b : build) (t : tolerance) (l : libm) (cfg : std_cfg) (w : world sans S).

Lemma ask_bind {B} q (k : sans q -> fprog sans B) s tr s' o : fexec w (fbind (ask q) k) s tr s' o ->
  (exists a s1 tr', w s q s1 (Some a) /\ fexec w (k a) s1 tr' s' o /\ tr = FEv q (Some a) :: tr')
  \/ (w s q s' None /\ tr = [FEv q None] /\ exists p, o = Panic p).
Proof. intros [H|(H1 & H2 & H3)]; [left; exact H|right; eauto]. Qed.
(** an output, or a shown pass *)
Lemma out_bind {B} i (k : unit -> fprog sans B) s tr s' o : fexec w (fbind (s_out i) k) s tr s' o ->
  (exists s1 tr2, fexec w (k tt) s1 tr2 s' o /\ tr = FEv (SOut i) (Some tt) :: tr2)
  \/ (tr = [FEv (SOut i) None] /\ (exists p, o = Panic p) /\ ~ returns w).
Proof.
  intros H. apply ask_bind in H. destruct H as [([] & s1 & tr' & H1 & H2 & ->)|(H1 & -> & p & ->)].
  - left. exists s1, tr'. split; [exact H2|reflexivity].
  - right. split; [reflexivity|]. split; [eauto|]. intros R. apply (R _ _ _ _ H1). reflexivity.
Qed.
Lemma show_bind {B} pre m suf (k : unit -> fprog sans B) s tr s' o : fexec w (fbind (show_pass b pre m suf) k) s tr s' o ->
  (exists c s1 tr2, fmt_over_n b (pr_space m) 1 = Val c /\ fexec w (k tt) s1 tr2 s' o /\ tr = FEv (SOut (SIPass pre (pr_time m) c suf)) (Some tt) :: tr2)
  \/ (scalls tr = [] /\ (exists p, o = Panic p) /\ ~ (returns w /\ sane m)).
Proof.
  intros H. unfold show_pass in H.
  assert (A : fexec w (fbind (flift (fmt_over_n b (pr_space m) 1)) (fun s => fbind (s_out (SIPass pre (pr_time m) s suf)) k)) s tr s' o).
  { destruct (fmt_over_n b (pr_space m) 1); exact H. }
  apply flift_exec in A. destruct A as [(a & Ha & A)|(N & -> & -> & p & ->)].
  - apply out_bind in A. destruct A as [(s1 & tr2 & A1 & A2)|(-> & A2 & A3)]; [left; eauto 8|]. right. split; [reflexivity|]. tauto.
  - right. split; [reflexivity|]. split; [eauto|]. intros [_ (_ & W & _)]. destruct (fmt_ok b (pr_space m) 1 W) as [x X]. apply (N x X).
Qed.

(** the shape of a run: everything it did and output, in order *)
Definition last_item (v : retry_result unit Z std_error) : sitem :=
  match v with
  | ROk r => SIComputed r
  | RTransient _ e | RFatal _ e => SIMismatch (st_name cfg) (se_what e) (se_max e) (se_observed e)
  end.
Definition completed (tr : list (fevent sans)) (v : retry_result unit Z std_error) : Prop :=
  exists m0 m1 r1 m2 r2 c0 c1 c2 tc sc rep,
    tr = [FEv (SOut (SIText ("Running '" ++ st_name cfg ++ "' algorithm:" ++ newline))) (Some tt);
          FEv SReset (Some m0); FEv (SOut (SIPass "  Resetting: " (pr_time m0) c0 "")) (Some tt);
          FEv SPass1 (Some (m1, r1)); FEv (SOut (SIPass "; Pass 1: " (pr_time m1) c1 "")) (Some tt);
          FEv SPass2 (Some (m2, r2)); FEv (SOut (SIPass "; Pass 2: " (pr_time m2) c2 "")) (Some tt);
          FEv (SOut (SIText (newline ++ newline))) (Some tt); FEv (SOut (SIAnalysis (st_name cfg) rep)) (Some tt);
          FEv (SOut (last_item v)) (Some tt)]%string /\
    fmt_over_n b (pr_space m0) 1 = Val c0 /\ fmt_over_n b (pr_space m1) 1 = Val c1 /\ fmt_over_n b (pr_space m2) 1 = Val c2 /\
    tc = analyse_time_complexity t l (st_n1 cfg) (st_n2 cfg) (pr_time m1) (pr_time m2) /\
    analyse_space_complexity b t l (st_n1 cfg) (st_n2 cfg) (pr_space m1) (pr_space m2) = Val sc /\
    std_verdict b t l cfg m1 m2 (Z.lxor r1 r2) v /\
    analysis_display b (regular_rows b (st_n1 cfg) (st_n2 cfg) (pr_time m1) (pr_time m2) (pr_space m1) (pr_space m2)) tc sc (pr_space m1) (pr_space m2) = Val rep.
Definition good_run (tr : list (fevent sans)) : Prop :=
  returns w /\ s_sane tr /\ 1 <= st_n1 cfg < two32 /\ 1 <= st_n2 cfg < two32.
Lemma scalls_app a c : scalls (a ++ c) = scalls a ++ scalls c. Proof. apply flat_map_app. Qed.
Lemma scalls_cons e tr : scalls (e :: tr) = scall_of e ++ scalls tr. Proof. reflexivity. Qed.

Definition prefix_of_run (c : list scall) : Prop :=
  match c with
  | [] | [CReset _] | [CReset (Some _); CPass1 _] | [CReset (Some _); CPass1 (Some _); CPass2 _] => True
  | _ => False
  end.
Ltac ends R := right; split; [eauto|]; rewrite ?scalls_cons; cbn [scall_of app];
  split; [exact I|]; intros (R & _).
Lemma run_shape s tr s' o : fexec w (analyse_algorithm b t l cfg) s tr s' o ->
  (exists v, o = Val v /\ completed tr v) \/ ((exists p, o = Panic p) /\ prefix_of_run (scalls tr) /\ ~ good_run tr).
Proof.
  intros E. unfold analyse_algorithm in E.
  apply out_bind in E. destruct E as [(sa & tra & E & ->)|(-> & P & F)]; [|ends R; exact (F R)].
  apply ask_bind in E. destruct E as [(m0 & s1 & tr1 & W0 & E & ->)|(W0 & -> & p & ->)]; [|ends R; apply (R _ _ _ _ W0); reflexivity].
  apply show_bind in E. destruct E as [(c0 & s2 & tr2 & C0 & E & ->)|(N1 & P & F)].
  2:{ right. split; [exact P|]. rewrite !scalls_cons. cbn [scall_of app]. rewrite N1. split; [exact I|].
      intros (R & SA & _). apply F. split; [exact R|]. apply (SA (CReset (Some m0))). rewrite !scalls_cons. left. reflexivity. }
  apply ask_bind in E. destruct E as [(x1 & s3 & tr3 & W1 & E & ->)|(W1 & -> & p & ->)]; [|ends R; apply (R _ _ _ _ W1); reflexivity].
  apply show_bind in E. destruct E as [(c1 & s4 & tr4 & C1 & E & ->)|(N2 & P & F)].
  2:{ right. split; [exact P|]. rewrite !scalls_cons. cbn [scall_of app]. rewrite N2. split; [exact I|].
      intros (R & SA & _). apply F. split; [exact R|]. apply (SA (CPass1 (Some x1))). rewrite !scalls_cons. right. left. reflexivity. }
  apply ask_bind in E. destruct E as [(x2 & s5 & tr5 & W2 & E & ->)|(W2 & -> & p & ->)]; [|ends R; apply (R _ _ _ _ W2); reflexivity].
  apply show_bind in E. destruct E as [(c2 & s6 & tr6 & C2 & E & ->)|(N3 & P & F)].
  2:{ right. split; [exact P|]. rewrite !scalls_cons. cbn [scall_of app]. rewrite N3. split; [exact I|].
      intros (R & SA & _). apply F. split; [exact R|]. apply (SA (CPass2 (Some x2))). rewrite !scalls_cons. right. right. left. reflexivity. }
  cbv zeta in E. set (tc := analyse_time_complexity _ _ _ _ _ _) in *.
  set (done tr := FEv (SOut (SIText ("Running '" ++ st_name cfg ++ "' algorithm:" ++ newline)%string)) (Some tt) :: FEv SReset (Some m0)
    :: FEv (SOut (SIPass "  Resetting: " (pr_time m0) c0 "")) (Some tt) :: FEv SPass1 (Some x1)
    :: FEv (SOut (SIPass "; Pass 1: " (pr_time (fst x1)) c1 "")) (Some tt) :: FEv SPass2 (Some x2)
    :: FEv (SOut (SIPass "; Pass 2: " (pr_time (fst x2)) c2 "")) (Some tt) :: tr : list (fevent sans)).
  assert (SC : forall tr6, scalls (done tr6) = [CReset (Some m0); CPass1 (Some x1); CPass2 (Some x2)] ++ scalls tr6) by (intros; reflexivity).
  change (FEv _ _ :: _) with (done tr6).
  assert (GOOD : good_run (done tr6) -> sane (fst x1) /\ sane (fst x2)).
  { intros (_ & SA & _). split; [apply (SA (CPass1 (Some x1)))|apply (SA (CPass2 (Some x2)))]; rewrite SC; [right; left|right; right; left]; reflexivity. }
  apply flift_exec in E. destruct E as [(sc & HS & E)|(N & -> & -> & p & ->)].
  2:{ right. split; [eauto|]. rewrite SC. split; [exact I|]. intros G. destruct (GOOD G) as [(_ & Wf1 & _) (_ & Wf2 & _)].
      destruct (max_growth_ok b _ Wf1) as [g1 G1]. destruct (max_growth_ok b _ Wf2) as [g2 G2].
      unfold analyse_space_complexity in N. rewrite G1, G2 in N. cbn [bind] in N. eapply N. reflexivity. }
  apply out_bind in E. destruct E as [(s7 & tr7 & E & ->)|(-> & P & F)].
  2:{ right. split; [exact P|]. rewrite SC. split; [exact I|]. intros (R & _). exact (F R). }
  apply flift_exec in E. destruct E as [(rep & HR & E)|(N & -> & -> & p & ->)].
  2:{ right. split; [eauto|]. rewrite SC. split; [exact I|]. intros G. destruct (GOOD G) as [(D1 & Wf1 & S1) (D2 & Wf2 & S2)].
      destruct G as (_ & _ & H1 & H2).
      destruct (C46_nonzero_set_sizes_do_not_panic b _ _ _ _ _ _ tc sc D1 D2 H1 H2 Wf1 Wf2 S1 S2) as [r R]. apply (N r R). }
  apply out_bind in E. destruct E as [(s8 & tr8 & E & ->)|(-> & P & F)].
  2:{ right. split; [exact P|]. rewrite SC. split; [exact I|]. intros (R & _). exact (F R). }
  destruct (worse_than sc (st_max_space cfg)) eqn:WS; [|destruct (worse_than tc (st_max_time cfg)) eqn:WT].
  all: apply out_bind in E; destruct E as [(s9 & tr9 & E & ->)|(-> & P & F)];
    [|right; split; [exact P|]; rewrite SC; split; [exact I|]; intros (R & _); exact (F R)].
  all: destruct E as (-> & -> & E); left; eexists; split; [exact E|].
  all: destruct x1 as [m1 r1], x2 as [m2 r2]; cbn [fst snd] in *; exists m0, m1, r1, m2, r2, c0, c1, c2, tc, sc, rep.
  all: (split; [reflexivity|]); do 3 (split; [assumption|]); (split; [reflexivity|]); (split; [exact HS|]); (split; [|exact HR]).
  all: exists tc, sc; split; [reflexivity|]; split; [exact HS|].
  - left. split; [apply worse_than_spec; exact WS|reflexivity].
  - right. left. apply not_worse_than_spec in WS. apply worse_than_spec in WT. auto.
  - right. right. apply not_worse_than_spec in WS. apply not_worse_than_spec in WT. rewrite Z.lxor_0_l. auto.
Qed.
End Proofs.

(** ** C45: every run calls reset, pass 1, pass 2, in this order and nothing else; its
    verdict compares space first (fatal), then time (transient).  A run that does not
    end panicked in a closure, or on absurd measurements or a zero set size. *)
Theorem C45_each_run : forall S b t l cfg (w : world sans S) s tr s' o,
  fexec w (analyse_algorithm b t l cfg) s tr s' o ->
  (exists v m0 m1 r1 m2 r2, o = Val v /\
     scalls tr = [CReset (Some m0); CPass1 (Some (m1, r1)); CPass2 (Some (m2, r2))] /\
     std_verdict b t l cfg m1 m2 (Z.lxor r1 r2) v)
  \/ ((exists p, o = Panic p) /\
      ~ (returns w /\ s_sane tr /\ 1 <= st_n1 cfg < two32 /\ 1 <= st_n2 cfg < two32)).
Proof.
  intros S b t l cfg w s tr s' o E. destruct (run_shape b t l cfg w s tr s' o E) as [(v & -> & m0 & m1 & r1 & m2 & r2 & c0 & c1 & c2 & tc & sc & rep & -> & _ & _ & _ & _ & _ & H2 & _)|(P & _ & N)].
  - left. exists v, m0, m1, r1, m2, r2. auto.
  - right. auto.
Qed.
Print Assumptions C45_each_run.

(** ... and the test: [tries] are successive runs of the analysis, all but the last
    ending with a time mismatch.  It returns iff the first run that is not a time
    mismatch succeeds, within 1 + max_retry_attempts runs. *)
Theorem C45_outcome : forall S b t l cfg (w : world sans S) max s tr s' e,
  0 <= max < two32 ->
  fexec w (test_algorithm b t l cfg max) s tr s' (Val e) ->
  let run := analyse_algorithm b t l cfg in
  let sequence := tries (fun _ => run) w run s in
  match e with
  | StdPassed => exists fs r, sequence fs (ROk r) tr s' /\ Z.of_nat (length fs) + 1 <= 1 + max
  | StdPanicked es e => exists fs, es = map snd fs /\
      ( sequence fs (RFatal tt e) tr s' /\ Z.of_nat (length fs) + 1 <= 1 + max      (* a space mismatch *)
      \/ sequence fs (RTransient tt e) tr s' /\ Z.of_nat (length fs) + 1 = 1 + max) (* time mismatches only *)
  end.
Proof.
  intros S b t l cfg w max s tr s' e Hm E. cbv zeta. unfold test_algorithm in E. apply fexec_bind in E.
  destruct E as [(x & tr1 & s1 & tr2 & E1 & (-> & -> & E2) & ->)|(p & _ & X)]; [|discriminate]. rewrite app_nil_r.
  apply retry_spec in E1. destruct x as [r|f|es r|es f|es f]; injection E2 as ->.
  - exists [], r. split; [exact E1|cbn [length]; lia].
  - destruct E1 as [[] T]. exists []. split; [reflexivity|]. left. split; [exact T|cbn [length]; lia].
  - destruct E1 as (fs & T & _ & L). exists fs, r. split; [exact T|lia].
  - destruct E1 as (fs & [] & T & -> & L). exists fs. split; [reflexivity|]. right. split; [exact T|lia].
  - destruct E1 as (fs & [] & T & -> & L). exists fs. split; [reflexivity|]. left. split; [exact T|lia].
Qed.
Print Assumptions C45_outcome.

(** a fatal verdict is always a space mismatch and stops immediately; a transient one a time mismatch *)
Theorem C45_classification : forall S b t l cfg (w : world sans S) s tr s' e,
  (fexec w (analyse_algorithm b t l cfg) s tr s' (Val (RFatal tt e)) -> se_what e = Space) /\
  (fexec w (analyse_algorithm b t l cfg) s tr s' (Val (RTransient tt e)) -> se_what e = Time).
Proof.
  intros S b t l cfg w s tr s' e. split; intros E; destruct (C45_each_run _ _ _ _ _ _ _ _ _ _ E) as [(v & m0 & m1 & r1 & m2 & r2 & V & _ & (tc & sc & _ & _ & H))|([p X] & _)]; try discriminate;
    apply val_inj in V; subst v; destruct H as [(_ & H)|[(_ & _ & H)|(_ & _ & H)]]; try discriminate; injection H as ->; reflexivity.
Qed.
Print Assumptions C45_classification.

(** ** C43, the other runner: a run of test_algorithm whose space exceeds its maximum is
    reported for space, whatever its time, and nothing runs after it *)
Theorem C43_test_algorithm_reports_space_first : forall S b t l cfg (w : world sans S) s tr s' v m0 m1 r1 m2 r2 sc,
  fexec w (analyse_algorithm b t l cfg) s tr s' (Val v) ->
  scalls tr = [CReset (Some m0); CPass1 (Some (m1, r1)); CPass2 (Some (m2, r2))] ->
  analyse_space_complexity b t l (st_n1 cfg) (st_n2 cfg) (pr_space m1) (pr_space m2) = Val sc ->
  clt (st_max_space cfg) sc ->
  v = RFatal tt (StdError Space (st_max_space cfg) sc).
Proof.
  intros S b t l cfg w s tr s' v m0 m1 r1 m2 r2 sc E C A L.
  destruct (C45_each_run _ _ _ _ _ _ _ _ _ _ E) as [(v' & n0 & n1 & q1 & n2 & q2 & V & C' & (tc & sc' & _ & A' & H))|([p X] & _)]; [|discriminate].
  apply val_inj in V. subst v'. rewrite C in C'. injection C' as <- <- <- <- <-. rewrite A in A'. apply val_inj in A'. subst sc'.
  unfold clt, cle in *. destruct H as [(_ & H)|[(H & _)|(H & _)]]; [exact H|lia|lia].
Qed.
Print Assumptions C43_test_algorithm_reports_space_first.
Theorem C43_test_algorithm_never_retries_space : forall S b t l cfg (w : world sans S) max s tr s' e,
  0 <= max < two32 ->
  fexec w (test_algorithm b t l cfg max) s tr s' (Val e) ->
  (* every run before the last one met its space maximum *)
  exists fs v, tries (fun _ => analyse_algorithm b t l cfg) w (analyse_algorithm b t l cfg) s fs v tr s' /\
    Forall (fun f => se_what (snd f) = Time) fs.
Proof.
  intros S b t l cfg w max s tr s' e Hm E. apply C45_outcome in E; [|exact Hm]. cbv zeta in E.
  assert (K : forall s tr s' fs v, tries (fun _ => analyse_algorithm b t l cfg) w (analyse_algorithm b t l cfg) s fs v tr s' ->
     Forall (fun f => se_what (snd f) = Time) fs).
  { clear. assert (G : forall p s fs v tr s', tries (fun _ : unit => analyse_algorithm b t l cfg) w p s fs v tr s' -> p = analyse_algorithm b t l cfg ->
      Forall (fun f => se_what (snd f) = Time) fs).
    { intros p s fs v tr s' H. induction H as [|p s tr s1 i e fs r tr' s' E H IH]; intros ->; [constructor|]. constructor; [|apply IH; reflexivity].
      destruct i. eapply (proj2 (C45_classification _ _ _ _ _ _ _ _ _ _)). exact E. }
    intros s tr s' fs v H. eapply G; [exact H|reflexivity]. }
  destruct e as [|es e].
  - destruct E as (fs & r & T & _). eauto.
  - destruct E as (fs & _ & [(T & _)|(T & _)]); eauto.
Qed.
Print Assumptions C43_test_algorithm_never_retries_space.

Lemma tries_panic {S} b t l cfg (w : world sans S) max s tr s' p :
  fexec w (test_algorithm b t l cfg max) s tr s' (Panic p) ->
  exists s0 tr1 tr0 q, fexec w (analyse_algorithm b t l cfg) s0 tr0 s' (Panic q) /\ tr = tr1 ++ tr0.
Proof.
  intros E. unfold test_algorithm in E. apply fexec_bind in E. destruct E as [(x & tr1 & s1 & tr2 & E1 & (_ & _ & E2) & ->)|(q & E1 & X)]; [discriminate|].
  apply retry_panic in E1. destruct E1 as [(q1 & E1)|(i & s0 & tr0 & q1 & E1 & tr1 & ->)].
  - exists s, [], tr, q1. auto.
  - exists s0, tr1, tr0, q1. auto.
Qed.
(** there is no other end when closures return, measurements are sane and set sizes are not zero *)
Theorem C45_no_other_end : forall S b t l cfg (w : world sans S) max s tr s' o,
  returns w -> 1 <= st_n1 cfg < two32 -> 1 <= st_n2 cfg < two32 ->
  fexec w (test_algorithm b t l cfg max) s tr s' o -> s_sane tr -> exists e, o = Val e.
Proof.
  intros S b t l cfg w max s tr s' o R H1 H2 E SA. destruct o as [e|p|]; [eauto| |destruct (fexec_no_spin w _ _ _ _ _ E eq_refl)].
  exfalso. destruct (tries_panic b t l cfg w max s tr s' p E) as (s0 & tr1 & tr0 & q & E0 & ->).
  destruct (C45_each_run _ _ _ _ _ _ _ _ _ _ E0) as [(v & m0 & m1 & r1 & m2 & r2 & V & _)|(_ & N)]; [discriminate|].
  apply N. split; [exact R|]. split; [|auto]. intros c Hc. apply SA. rewrite scalls_app. apply in_or_app. right. exact Hc.
Qed.
Print Assumptions C45_no_other_end.

(** a world in which every pass measures the same: 1 s, then 3 s, 1 MB each; the test
    expecting O(1) time gives up after its retries *)
Definition demo_world : world sans unit := fun _ q _ a =>
  match q as q' return option (sans q') -> Prop with
  | SReset => fun a => a = Some (PassResult 5 (SpacePass 0 0 0 0))
  | SPass1 => fun a => a = Some (PassResult 1000000000 (SpacePass 0 0 1000000 0), 1)
  | SPass2 => fun a => a = Some (PassResult 3000000000 (SpacePass 0 0 1000000 0), 2)
  | SOut _ => fun a => a = Some tt
  end a.
Lemma demo_world_ok : returns demo_world /\ answers demo_world.
Proof.
  split.
  - intros s q s' a H. destruct q; cbn in H; subst; discriminate.
  - intros s q. exists tt. destruct q; eexists; reflexivity.
Qed.
Definition demo_std : std_cfg := StdCfg "sort" 1000 2000 O1 ON.
Example C45_example : exists tr s' e, fexec demo_world (test_algorithm Debug Tol25 demo_libm demo_std 2) tt tr s' (Val e) /\ e <> StdPassed.
Proof.
  destruct (fexec_exists demo_world (test_algorithm Debug Tol25 demo_libm demo_std 2) (proj2 demo_world_ok) tt) as (tr & s' & o & E).
  assert (WS : forall s q s1 (a : option (sans q)), demo_world s q s1 a ->
     match q as q' return option (sans q') -> Prop with SReset => fun a => forall m, a = Some m -> sane m | SPass1 | SPass2 => fun a => forall x, a = Some x -> sane (fst x) | SOut _ => fun _ => True end a).
  { intros s q s1 a H. assert (SN : forall d g, 0 <= d < 2 ^ 53 -> 0 <= g < 2 ^ 62 -> sane (PassResult d (SpacePass 0 0 g 0))).
    { intros d g Hd Hg. unfold sane, duration_sane, well_formed. cbn [pr_time pr_space used_memory_before used_memory_after max_used_memory min_used_memory]. pose proof two64_val. unfold nanos_per_sec. repeat split; try lia. }
    destruct q; cbn in H |- *; auto; intros x ->; injection H as ->; apply SN; lia. }
  assert (EV : forall A (m : fprog sans A) s tr s' o, fexec demo_world m s tr s' o -> s_sane tr /\ forall x, In (CPass1 (Some x)) (scalls tr) -> x = (PassResult 1000000000 (SpacePass 0 0 1000000 0), 1)).
  { intros A m. induction m as [a|p|q c IH]; intros s0 tr0 s0' o0 X; [destruct X as (-> & _); split; intros ? []|destruct X as (-> & _); split; intros ? []|].
    destruct X as [(a & s1 & tr' & W & X & ->)|(W & -> & _)].
    - destruct (IH a _ _ _ _ X) as [I1 I2]. pose proof (WS _ _ _ _ W) as WW. split.
      + intros cc Hc. unfold scalls in Hc. cbn [flat_map] in Hc. apply in_app_or in Hc. destruct Hc as [Hc|Hc]; [|apply I1; exact Hc].
        destruct q; cbn in Hc, WW; try (destruct Hc as [<-|[]]; eauto); destruct Hc.
      + intros x Hc. unfold scalls in Hc. cbn [flat_map] in Hc. apply in_app_or in Hc. destruct Hc as [Hc|Hc]; [|apply I2; exact Hc].
        destruct q; cbn in Hc, W; try (destruct Hc as [Hc|[]]; congruence). destruct Hc.
    - destruct (proj1 demo_world_ok _ _ _ _ W eq_refl). }
  destruct (EV _ _ _ _ _ _ E) as [SA _].
  destruct (C45_no_other_end _ _ _ _ demo_std _ 2 _ _ _ _ (proj1 demo_world_ok) ltac:(rewrite two32_val; cbn; lia) ltac:(rewrite two32_val; cbn; lia) E SA) as [e ->].
  exists tr, s', e. split; [exact E|]. intros ->.
  pose proof (C45_outcome _ _ _ _ _ _ 2 _ _ _ _ ltac:(rewrite two32_val; lia) E) as (fs & r & T & _).
  (* no run can succeed *)
  assert (NO : forall s tr s' r, ~ fexec demo_world (analyse_algorithm Debug Tol25 demo_libm demo_std) s tr s' (Val (ROk r))).
  { intros s0 tr0 s0' r0 X. destruct (C45_each_run _ _ _ _ _ _ _ _ _ _ X) as [(v & m0 & m1 & r1 & m2 & r2 & V & SC & (tc & sc & TC & _ & H))|([p Y] & _)]; [|discriminate].
    apply val_inj in V. subst v.
    assert (EV2 : forall A (m : fprog sans A) s tr s' o, fexec demo_world m s tr s' o -> forall x, In (CPass2 (Some x)) (scalls tr) -> x = (PassResult 3000000000 (SpacePass 0 0 1000000 0), 2)).
    { intros A m. induction m as [a|p|q c IH]; intros s2 tr2 s2' o2 Z; [destruct Z as (-> & _); intros ? []|destruct Z as (-> & _); intros ? []|].
      destruct Z as [(a & s1 & tr' & W & Z & ->)|(W & -> & _)].
      - intros x Hc. unfold scalls in Hc. cbn [flat_map] in Hc. apply in_app_or in Hc. destruct Hc as [Hc|Hc]; [|apply (IH a _ _ _ _ Z); exact Hc].
        destruct q; cbn in Hc, W; try (destruct Hc as [Hc|[]]; congruence). destruct Hc.
      - destruct (proj1 demo_world_ok _ _ _ _ W eq_refl). }
    pose proof (proj2 (EV _ _ _ _ _ _ X) (m1, r1) ltac:(rewrite SC; cbn; auto)) as M1. pose proof (EV2 _ _ _ _ _ _ X (m2, r2) ltac:(rewrite SC; cbn; auto)) as M2.
    injection M1 as -> ->. injection M2 as -> ->. cbn [pr_time pr_space st_n1 st_n2 demo_std] in TC.
    assert (TCN : clt O1 tc) by (subst tc; vm_compute; reflexivity).
    clear TC EV EV2 X SC WS. destruct H as [(_ & H)|[(_ & _ & H)|(_ & H & _)]]; [discriminate H|discriminate H|]. cbn [st_max_time demo_std] in H. unfold clt, cle in TCN, H. clear - TCN H. lia. }
  clear E SA. revert T. generalize tt as s0. 
  assert (TN : forall p s0 fs0 v tr0 s0', tries (fun _ : unit => analyse_algorithm Debug Tol25 demo_libm demo_std) demo_world p s0 fs0 v tr0 s0' ->
     p = analyse_algorithm Debug Tol25 demo_libm demo_std -> v <> ROk r).
  { intros p s0 fs0 v tr0 s0' T. induction T as [p s0 tr0 s0' v X|p s0 tr0 s1 i e fs0 v tr1 s0' X T IH]; intros ->.
    - intros ->. exact (NO _ _ _ _ X).
    - apply IH. reflexivity. }
  intros s0 T. exact (TN _ _ _ _ _ _ T eq_refl eq_refl).
Qed.

(** ** C46 for the runner: a zero set size makes every run, hence every test, panic *)
Theorem C46_test_algorithm_zero_set_size : forall S b t l cfg (w : world sans S) max s tr s' o,
  st_n1 cfg = 0 \/ st_n2 cfg = 0 ->
  fexec w (test_algorithm b t l cfg max) s tr s' o -> s_durations_sane tr -> exists p, o = Panic p.
Proof.
  intros S b t l cfg w max s tr s' o Z E DS.
  assert (NO : forall s0 tr0 s0' v, fexec w (analyse_algorithm b t l cfg) s0 tr0 s0' (Val v) -> ~ s_durations_sane tr0).
  { intros s0 tr0 s0' v X D. destruct (run_shape b t l cfg w _ _ _ _ X) as [(v' & _ & m0 & m1 & r1 & m2 & r2 & c0 & c1 & c2 & tc & sc & rep & SC & _ & _ & _ & _ & _ & _ & R)|([p Y] & _)]; [|discriminate].
    destruct (C46_zero_set_size_panics b (st_n1 cfg) (st_n2 cfg) (pr_time m1) (pr_time m2) (pr_space m1) (pr_space m2) tc sc) as [p P]; [| |exact Z|].
    - apply (D (CPass1 (Some (m1, r1)))). rewrite SC. cbn; auto.
    - apply (D (CPass2 (Some (m2, r2)))). rewrite SC. cbn; auto.
    - rewrite R in P. discriminate. }
  destruct o as [e|p|]; [|eauto|destruct (fexec_no_spin w _ _ _ _ _ E eq_refl)]. exfalso.
  unfold test_algorithm in E. apply fexec_bind in E. destruct E as [(x & tr1 & s1 & tr2 & E1 & (-> & _ & _) & ->)|(q & E1 & X)]; [|discriminate]. rewrite app_nil_r in DS.
  unfold retry_with_delays in E1. apply fexec_bind in E1. destruct E1 as [(v & tr3 & s3 & tr4 & E1 & _ & ->)|(q & _ & X)]; [|discriminate].
  apply (NO _ _ _ _ E1). intros c Hc. apply DS. rewrite scalls_app. apply in_or_app. left. exact Hc.
Qed.
Print Assumptions C46_test_algorithm_zero_set_size.
