(** * Theorems about the Cargo features (C57). *)
From Coq Require Import List String Bool.
From Verif Require Import Machine Analysis Features.
Import ListNotations.
Open Scope string_scope.

(** ** C57: features *)
Definition has (fs : features) (f : string) : Prop := In f fs.
Lemma enabled_feature fs n : enabled fs (Feature n) = true <-> has fs n.
Proof.
  cbn [enabled]. unfold has. rewrite existsb_exists. split.
  - intros (x & Hx & E). apply String.eqb_eq in E. subst x. exact Hx.
  - intros H. exists n. split; [exact H|]. apply String.eqb_refl.
Qed.
Lemma enabled_feature_f fs n : enabled fs (Feature n) = false <-> ~ has fs n.
Proof. rewrite <- enabled_feature. destruct (enabled fs (Feature n)); split; intros; try congruence; exfalso; auto. Qed.


(** the three constants as functions of which of the features are on *)
Lemma active_cons {A} fs c (x : A) l : active fs ((c, x) :: l) = if enabled fs c then x :: active fs l else active fs l.
Proof. unfold active. cbn [filter fst]. destruct (enabled fs c); reflexivity. Qed.
Lemma active_nil {A} fs : active fs (@nil (cfg * A)) = nil. Proof. reflexivity. Qed.
Lemma enabled_not fs c : enabled fs (CNot c) = negb (enabled fs c). Proof. reflexivity. Qed.
Lemma enabled_any1 fs c : enabled fs (CAny [c]) = enabled fs c.
Proof. change (enabled fs c || false = enabled fs c)%bool. apply orb_false_r. Qed.
Lemma enabled_any2 fs c d : enabled fs (CAny [c; d]) = (enabled fs c || enabled fs d)%bool.
Proof. change (enabled fs c || (enabled fs d || false) = enabled fs c || enabled fs d)%bool. rewrite orb_false_r. reflexivity. Qed.
Lemma tolerance_of fs : active fs percent_tolerance =
  let a := enabled fs (Feature "tolerance_10_percent") in let b := enabled fs (Feature "tolerance_25_percent") in
  ((if a || negb b then [Tol10] else []) ++ (if b then [Tol25] else []))%bool%list.
Proof.
  unfold percent_tolerance. rewrite !active_cons, active_nil, enabled_any2, enabled_not, enabled_any1.
  generalize (enabled fs (Feature "tolerance_10_percent")) (enabled fs (Feature "tolerance_25_percent")).
  intros [] []; reflexivity.
Qed.
Lemma output_of fs : active fs output =
  let a := enabled fs (Feature "report_stdout") in let b := enabled fs (Feature "report_stderr") in
  ((if a then [SinkStdout] else []) ++ (if b then [SinkStderr] else []) ++ (if a || b then [] else [SinkNull]))%bool%list.
Proof.
  unfold output. rewrite !active_cons, active_nil, enabled_not, enabled_any2.
  generalize (enabled fs (Feature "report_stdout")) (enabled fs (Feature "report_stderr")).
  intros [] []; reflexivity.
Qed.
Lemma alloc_of fs : active fs alloc_static = [if enabled fs (Feature "no_allocator_metrics") then Detached else Global].
Proof.
  unfold alloc_static. rewrite !active_cons, active_nil, enabled_not.
  generalize (enabled fs (Feature "no_allocator_metrics")). intros []; reflexivity.
Qed.

Theorem C57_when_it_compiles : forall fs,
  compiles fs <->
  ~ (has fs "tolerance_10_percent" /\ has fs "tolerance_25_percent") /\
  ~ (has fs "report_stdout" /\ has fs "report_stderr").
Proof.
  intros fs. unfold compiles. rewrite tolerance_of, output_of, alloc_of, <- !enabled_feature.
  generalize (enabled fs (Feature "tolerance_10_percent")) (enabled fs (Feature "tolerance_25_percent"))
    (enabled fs (Feature "report_stdout")) (enabled fs (Feature "report_stderr")) (enabled fs (Feature "no_allocator_metrics")).
  intros [] [] [] [] []; cbn [orb negb app length]; split; intros X; try tauto;
    repeat split; try reflexivity; intuition discriminate.
Qed.
Print Assumptions C57_when_it_compiles.

(** which constants a compiling build has; [no_report] has no influence *)
Theorem C57_selected_constants : forall fs, compiles fs ->
  active fs percent_tolerance = [if enabled fs (Feature "tolerance_25_percent") then Tol25 else Tol10]
  /\ active fs output = [if enabled fs (Feature "report_stdout") then SinkStdout
                         else if enabled fs (Feature "report_stderr") then SinkStderr else SinkNull]
  /\ active fs alloc_static = [if enabled fs (Feature "no_allocator_metrics") then Detached else Global]
  /\ active ("no_report"%string :: fs) output = active fs output.
Proof.
  intros fs. rewrite C57_when_it_compiles, <- !enabled_feature. rewrite tolerance_of, !output_of, alloc_of.
  assert (F : forall n, n <> "no_report"%string -> enabled ("no_report"%string :: fs) (Feature n) = enabled fs (Feature n)).
  { intros n Hn. cbn [enabled existsb]. destruct (String.eqb_spec n "no_report") as [E|E]; [contradiction|reflexivity]. }
  rewrite (F "report_stdout"%string), (F "report_stderr"%string) by discriminate. clear F.
  generalize (enabled fs (Feature "tolerance_10_percent")) (enabled fs (Feature "tolerance_25_percent"))
    (enabled fs (Feature "report_stdout")) (enabled fs (Feature "report_stderr")) (enabled fs (Feature "no_allocator_metrics")).
  intros [] [] [] [] [] [H1 H2]; try (exfalso; tauto); repeat split; reflexivity.
Qed.
Print Assumptions C57_selected_constants.
Example C57_default_compiles : compiles default_features /\ ~ compiles ("tolerance_25_percent"%string :: default_features)
  /\ ~ compiles ("report_stderr"%string :: default_features) /\ compiles nil.
Proof.
  rewrite !C57_when_it_compiles. unfold has, default_features. cbn [In]. repeat split; intuition discriminate.
Qed.
