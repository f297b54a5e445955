(** * C101-C103: what the texts of the reports say, read back with the readers of ReadSpec.v. *)
From Coq Require Import ZArith Reals Lra Lia String Ascii List Bool.
From Flocq Require Import Core.Core IEEE754.BinarySingleNaN.
From Verif Require Import Machine Complexity Floats Analysis AnalysisF64d AllocSpec Report ReportProofs PropsReport PropsReport2 CrudMsg TextProofs DurationProofs
  Format ReadSpec FormatProofs ReportText ReportTextSpec ReportTextProofs.
Import ListNotations.
Open Scope R_scope.

Lemma split_on_some c s : split_on c s <> [].
Proof. destruct s as [|x s]; cbn [split_on]; [discriminate|]. destruct (Ascii.eqb x c); [discriminate|]. destruct (split_on c s); discriminate. Qed.
Lemma split_on_none c s : split_on c s = [s] -> free_of c s = true.
Proof.
  induction s as [|x s IH]; cbn [split_on free_of]; intros H; [reflexivity|].
  destruct (Ascii.eqb x c) eqn:E.
  - exfalso. injection H as H. discriminate.
  - cbn [negb andb]. apply IH. pose proof (split_on_some c s) as NE. destruct (split_on c s) as [|y l]; [congruence|]. injection H as H; subst; reflexivity.
Qed.
Lemma time_pretty_line tc : free_of "010" (as_time_pretty_str tc) = true.
Proof. destruct tc; reflexivity. Qed.
Lemma space_pretty_line sc : free_of "010" (as_space_pretty_str sc) = true.
Proof. destruct sc; reflexivity. Qed.
Lemma sane_nonneg t : duration_sane t -> (0 <= t)%Z.
Proof. unfold duration_sane. lia. Qed.
Lemma per_n_nonneg v t n : (0 <= t)%Z -> (1 <= n)%Z ->
  Rabs (IZR v - IZR t / IZR n) <= / 2 + bpow radix2 (-50) * (IZR t / IZR n) -> (0 <= v)%Z.
Proof.
  intros T N R. assert (Y : 0 <= IZR t / IZR n) by (apply Rmult_le_pos; [apply IZR_le; lia|apply Rlt_le, Rinv_0_lt_compat, IZR_lt; lia]).
  set (y := IZR t / IZR n) in *. assert (B : 0 < bpow radix2 (-50) <= 1 / 100000000) by (cbn; lra).
  assert (bpow radix2 (-50) * y <= 1 / 100000000 * y) by (apply Rmult_le_compat_r; lra).
  apply Rabs_le_inv in R. assert (-1 < IZR v) by lra. assert (-1 < v)%Z by (apply lt_IZR; lra). lia.
Qed.

(** ** C101: a memory cell, and the summary of a report *)
Theorem C101_memory_cell : forall b m n, well_formed m -> (1 <= n < two32)%Z ->
  exists s, fmt_over_n b m n = Val s /\ memory_text (cell s) m n.
Proof.
  intros b m n W N. destruct (fmt_ok b m n W) as [s E]. exists s. split; [exact E|]. apply (memory_cell b m n s W N E).
Qed.
Print Assumptions C101_memory_cell.

Lemma summary_ok b m1 m2 s : well_formed m1 -> well_formed m2 -> (max_used_memory m1 < 2 ^ 62)%Z -> (max_used_memory m2 < 2 ^ 62)%Z ->
  space_display b m1 m2 = Val s -> summary_says (summary_text s) m1 m2 /\ free_of "010" (summary_text s) = true.
Proof.
  intros W1 W2 S1 S2 H. unfold space_display in H. rewrite ReportProofs.delta_ok, aux_ok in H by assumption. cbn [bind] in H.
  assert (BT : (- (2 ^ 63) < net m1 m2 < 2 ^ 63 /\ 0 <= auxiliary m1 m2 < 2 ^ 64)%Z) by (unfold well_formed in *; unfold net, auxiliary; lia).
  fold (net m1 m2) in H. fold (auxiliary m1 m2) in H.
  rewrite checked_i64_in in H by (rewrite two63_val; lia). cbn [bind] in H. apply val_inj in H. subst s.
  destruct (human_text (Z.abs (net m1 m2))) as (P1 & x1 & R1 & C1); [rewrite two64_val; lia|].
  destruct (human_text (auxiliary m1 m2)) as (P2 & x2 & R2 & C2); [rewrite two64_val; lia|].
  unfold summary_text. cbn [ss_op ss_amount ss_auxiliary]. split.
  - do 2 eexists. exists x1, x2. split; [reflexivity|]. split; [exact R1|]. split; [exact C1|]. split; [exact R2|exact C2].
  - rewrite !free_app, !(plain_free "010" (cell _)) by (try reflexivity; assumption). destruct (0 <=? net m1 m2)%Z; reflexivity.
Qed.
Theorem C101_summary : forall b m1 m2,
  well_formed m1 -> well_formed m2 -> (max_used_memory m1 < 2 ^ 62)%Z -> (max_used_memory m2 < 2 ^ 62)%Z ->
  exists s, space_display b m1 m2 = Val s /\ summary_says (summary_text s) m1 m2.
Proof.
  intros b m1 m2 W1 W2 S1 S2. destruct (space_display_ok b m1 m2 W1 W2 S1 S2) as [s E]. exists s. split; [exact E|].
  apply (summary_ok b m1 m2 s); assumption.
Qed.
Print Assumptions C101_summary.
Definition demo_m1 : space_pass := SpacePass 1000 5096 6000 1000.
Definition demo_m2 : space_pass := SpacePass 5096 9000000 9000500 5000.
Example C101_example : well_formed demo_m1 /\ (max_used_memory demo_m1 < 2 ^ 62)%Z /\
  match fmt_over_n Debug demo_m1 1, fmt_over_n Debug demo_m1 1000, space_display Debug demo_m1 demo_m2 with
  | Val a, Val c, Val s => String.eqb (cell a) "+4.88KiB" && String.eqb (cell c) "+5b" &&
      String.eqb (summary_text s) "allocated: 8.58MiB; auxiliary used space: 1.37KiB"
  | _, _, _ => false end = true.
Proof.
  split; [unfold well_formed; rewrite two64_val; cbn; lia|]. split; [cbn; lia|]. vm_compute. reflexivity.
Qed.

(** ** C102: the text of a pass *)
Theorem C102_pass_text : forall b prefix t m suffix, (0 <= t)%Z -> well_formed m ->
  exists T M, pass_output b prefix t m suffix = Val (prefix ++ T ++ "/" ++ M ++ suffix)%string /\
    read_duration T = Some (IZR t) /\ memory_text M m 1 /\ split_on "/" (T ++ "/" ++ M)%string = [T; M].
Proof.
  intros b prefix t m suffix T W. destruct (fmt_ok b m 1 W) as [s E].
  destruct (memory_cell b m 1 s W ltac:(rewrite two32_val; lia) E) as (M & P & _).
  exists (duration_debug t), (cell s). split; [unfold pass_output; rewrite E; reflexivity|].
  split; [apply read_duration_debug, T|]. split; [exact M|].
  change ("/" ++ cell s)%string with (String "/" (cell s)).
  rewrite split_on_app by (apply plain_free; [reflexivity|apply duration_plain, T]).
  rewrite split_on_free by (apply plain_free; [reflexivity|exact P]). reflexivity.
Qed.
Print Assumptions C102_pass_text.
Example C102_example : (0 <= 1234567)%Z /\ well_formed demo_m1 /\
  match pass_output Debug "First: " 1234567 demo_m1 "; " with Val s => String.eqb s "First: 1.234567ms/+4.88KiB; " | _ => false end = true.
Proof. split; [lia|]. split; [unfold well_formed; rewrite two64_val; cbn; lia|]. vm_compute. reflexivity. Qed.

(** ** C103: the reports *)
Lemma row_read b label r t m size per D O others : label <> EmptyString -> free_of " " label = true -> free_of "010" label = true ->
  duration_sane t -> well_formed m -> (0 <= size)%Z -> (1 <= per)%Z ->
  row_for b r t m size per -> row_detail r = D -> row_repetitions r = O ->
  (forall tail, exists W, words (String.concat "" (map (fun s => pad 12 (cell s) ++ "  ") D)
     ++ String.concat "" (map (fun n => pad 12 (dec n) ++ "  ") O) ++ tail)%string = (W ++ words tail)%list /\ others W) ->
  free_of "010" (String.concat "" (map (fun s => pad 12 (cell s) ++ "  ") D) ++ String.concat "" (map (fun n => pad 12 (dec n) ++ "  ") O))%string = true ->
  pass_row (row_body label r) label t m size others per /\ free_of "010" (row_body label r) = true.
Proof.
  intros L1 L2 L3 T W Hs Hp (R1 & R2 & R3 & R4) ED EO HW HF. apply sane_nonneg in T.
  destruct (memory_cell b m 1 (row_space r) W ltac:(rewrite two32_val; lia) R2) as (M & PM & NM).
  pose proof (per_n_nonneg _ _ _ T Hp R4) as V0.
  assert (T' : (0 <= row_time r)%Z) by lia.
  unfold row_body. rewrite ED, EO. split.
  - destruct (HW (pad 12 (duration_debug_prec 3 (row_per_n r)))) as (X & EX & OX).
    exists (duration_debug (row_time r)), (cell (row_space r)), (dec (row_n r)), X, (duration_debug_prec 3 (row_per_n r)).
    split; [|split; [rewrite R1; apply read_duration_debug, T|split; [exact M|split; [rewrite R3; apply read_int_dec, Hs|split; [exact OX|apply time_per_cell; assumption]]]]].
    rewrite words_label by assumption. rewrite words_cell by (try apply duration_plain; try apply duration_not_empty; exact T').
    rewrite words_cell by assumption. rewrite words_cell by (try apply dec_plain; apply dec_not_empty).
    rewrite EX, words_last by (try apply duration_prec_plain; try apply duration_prec_not_empty; exact V0). reflexivity.
  - rewrite free_app in HF. apply andb_prop in HF. destruct HF as [F1 F2].
    rewrite !free_app, L3, F1, F2, !pad_free by (try apply duration_plain; try apply duration_prec_plain; try apply dec_plain; assumption). reflexivity.
Qed.
Lemma columns_line k : free_of "010" (columns k) = true.
Proof. destruct k; reflexivity. Qed.

Lemma report_read b k name rows r1 r2 tc sc m1 m2 rep row1 row2 :
  lines name = [name] -> well_formed m1 -> well_formed m2 -> (max_used_memory m1 < 2 ^ 62)%Z -> (max_used_memory m2 < 2 ^ 62)%Z ->
  rows = Val [r1; r2] -> analysis_display b rows tc sc m1 m2 = Val rep ->
  row1 (row_body "1)" r1) /\ free_of "010" (row_body "1)" r1) = true ->
  row2 (row_body "2)" r2) /\ free_of "010" (row_body "2)" r2) = true ->
  report_says (analysis_text k name rep) ("'" ++ name ++ "' " ++ kind_name k ++ " measurements:") (words (columns k)) row1 row2 tc sc m1 m2.
Proof.
  intros HN W1 W2 S1 S2 ER H [P1 F1] [P2 F2]. apply split_on_none in HN. subst rows. unfold analysis_display in H. cbn [bind] in H.
  apply bind_val in H. destruct H as (s & ES & H). apply val_inj in H. subst rep.
  destruct (summary_ok b m1 m2 s W1 W2 S1 S2 ES) as [SS FS].
  unfold analysis_text, measurements_text. cbn [rep_rows rep_time rep_space rep_summary].
  exists (columns k), (row_body "1)" r1), (row_body "2)" r2), (summary_text s). split; [|auto].
  rewrite !row_line_body.
  transitivity (lines (("'" ++ name ++ "' " ++ kind_name k ++ " measurements:") ++ newline ++ columns k ++ newline ++ row_body "1)" r1 ++ newline
     ++ row_body "2)" r2 ++ newline ++ ("--> Algorithm  Time Analysis: " ++ as_time_pretty_str tc) ++ newline
     ++ ("--> Algorithm Space Analysis: " ++ as_space_pretty_str sc ++ " (" ++ summary_text s ++ ")") ++ newline ++ "")%string).
  { f_equal. rewrite <- !str_app_assoc. reflexivity. }
  rewrite !lines_app; [reflexivity|..].
  - rewrite !free_app, space_pretty_line, FS. reflexivity.
  - rewrite free_app, time_pretty_line. reflexivity.
  - exact F2.
  - exact F1.
  - apply columns_line.
  - rewrite !free_app, HN. destruct k; reflexivity.
Qed.

Theorem C103_regular_report : forall b name n1 n2 t1 t2 m1 m2 tc sc,
  lines name = [name] -> duration_sane t1 -> duration_sane t2 -> (1 <= n1 < two32)%Z -> (1 <= n2 < two32)%Z ->
  well_formed m1 -> well_formed m2 -> (max_used_memory m1 < 2 ^ 62)%Z -> (max_used_memory m2 < 2 ^ 62)%Z ->
  exists txt, regular_report b name n1 n2 t1 t2 m1 m2 tc sc = Val txt /\
    report_says txt ("'" ++ name ++ "' regular-algorithm measurements:") ["pass"; "Δt"; "Δs"; "n"; "s⁻"; "t⁻"]%string
      (fun line => pass_row line "1)" t1 m1 n1 (memory_per m1 n1) n1)
      (fun line => pass_row line "2)" t2 m2 n2 (memory_per m2 n2) n2) tc sc m1 m2.
Proof.
  intros b name n1 n2 t1 t2 m1 m2 tc sc HN T1 T2 N1 N2 W1 W2 S1 S2.
  destruct (regular_rows_ok b n1 n2 t1 t2 m1 m2 W1 W2 T1 T2 N1 N2) as [rs ER].
  destruct (C46_nonzero_set_sizes_do_not_panic b n1 n2 t1 t2 m1 m2 tc sc T1 T2 N1 N2 W1 W2 S1 S2) as [rep ERep].
  unfold regular_report. rewrite ERep. cbn [bind]. eexists. split; [reflexivity|].
  destruct (C74_regular_rows b n1 n2 t1 t2 m1 m2 rs T1 T2 N1 N2 ER) as (r1 & r2 & p1 & p2 & -> & R1 & R2 & E1 & E2 & D1 & D2 & O1 & O2).
  assert (K : forall m n p, well_formed m -> (1 <= n < two32)%Z -> fmt_over_n b m n = Val p ->
    (forall tail, exists W, words (String.concat "" (map (fun s => pad 12 (cell s) ++ "  ") [p])
       ++ String.concat "" (map (fun n => pad 12 (dec n) ++ "  ") []) ++ tail)%string = (W ++ words tail)%list /\ memory_per m n W) /\
    free_of "010" (String.concat "" (map (fun s => pad 12 (cell s) ++ "  ") [p]) ++ String.concat "" (map (fun n => pad 12 (dec n) ++ "  ") []))%string = true).
  { intros m n p W N E. destruct (memory_cell b m n p W N E) as (M & P & NE). cbn [map String.concat]. split.
    - intros tail. exists [cell p]. split; [|exists (cell p); auto].
      change ("" ++ tail)%string with tail. rewrite <- str_app_assoc. rewrite words_cell by assumption. reflexivity.
    - rewrite !free_app, pad_free by exact P. reflexivity. }
  destruct (K m1 n1 p1 W1 N1 E1) as [K1 K2]. destruct (K m2 n2 p2 W2 N2 E2) as [K3 K4].
  apply (report_read b Regular name _ r1 r2 tc sc m1 m2 rep _ _ HN W1 W2 S1 S2 ER ERep).
  - apply (row_read b "1)" r1 t1 m1 n1 n1 [p1] []); try assumption; try reflexivity; try discriminate; lia.
  - apply (row_read b "2)" r2 t2 m2 n2 n2 [p2] []); try assumption; try reflexivity; try discriminate; lia.
Qed.
Print Assumptions C103_regular_report.

Theorem C103_constant_set_report : forall b name size1 size2 repetitions t1 t2 m1 m2 tc sc,
  lines name = [name] -> duration_sane t1 -> duration_sane t2 -> (0 <= size1)%Z -> (0 <= size2)%Z -> (1 <= repetitions < two32)%Z ->
  well_formed m1 -> well_formed m2 -> (max_used_memory m1 < 2 ^ 62)%Z -> (max_used_memory m2 < 2 ^ 62)%Z ->
  exists txt, constant_set_report b name size1 size2 repetitions t1 t2 m1 m2 tc sc = Val txt /\
    report_says txt ("'" ++ name ++ "' constant set iterator-algorithm measurements:") ["pass"; "Δt"; "Δs"; "Σn"; "⊆r"; "t⁻"]%string
      (fun line => pass_row line "1)" t1 m1 size1 (repetitions_column repetitions) repetitions)
      (fun line => pass_row line "2)" t2 m2 size2 (repetitions_column repetitions) repetitions) tc sc m1 m2.
Proof.
  intros b name n1 n2 rp t1 t2 m1 m2 tc sc HN T1 T2 N1 N2 RP W1 W2 S1 S2.
  destruct (constant_set_rows_ok b n1 n2 rp t1 t2 m1 m2 W1 W2 T1 T2 RP) as [rs ER].
  destruct (space_display_ok b m1 m2 W1 W2 S1 S2) as [s Es].
  assert (ERep : exists rep, analysis_display b (constant_set_rows b n1 n2 rp t1 t2 m1 m2) tc sc m1 m2 = Val rep).
  { unfold analysis_display. rewrite ER, Es. cbn [bind]. eexists; reflexivity. }
  destruct ERep as [rep ERep].
  unfold constant_set_report. rewrite ERep. cbn [bind]. eexists. split; [reflexivity|].
  destruct (C74_constant_set_rows b n1 n2 rp t1 t2 m1 m2 rs T1 T2 RP ER) as (r1 & r2 & -> & R1 & R2 & O1 & O2 & D1 & D2).
  assert (K1 : forall tail, exists W, words (String.concat "" (map (fun s => pad 12 (cell s) ++ "  ") [])
       ++ String.concat "" (map (fun n => pad 12 (dec n) ++ "  ") [rp]) ++ tail)%string = (W ++ words tail)%list /\ repetitions_column rp W).
  { intros tail. exists [dec rp]. cbn [map String.concat]. split; [|exists (dec rp); split; [reflexivity|apply read_int_dec; lia]].
    change (words ((pad 12 (dec rp) ++ "  ") ++ tail) = ([dec rp] ++ words tail)%list)%string.
    rewrite <- str_app_assoc. rewrite words_cell by (try apply dec_plain; apply dec_not_empty). reflexivity. }
  assert (K2 : free_of "010" (String.concat "" (map (fun s => pad 12 (cell s) ++ "  ") []) ++ String.concat "" (map (fun n => pad 12 (dec n) ++ "  ") [rp]))%string = true).
  { cbn [map String.concat]. rewrite !free_app, pad_free by apply dec_plain. reflexivity. }
  apply (report_read b ConstantSet name _ r1 r2 tc sc m1 m2 rep _ _ HN W1 W2 S1 S2 ER ERep).
  - apply (row_read b "1)" r1 t1 m1 n1 rp [] [rp]); try assumption; try reflexivity; try discriminate; lia.
  - apply (row_read b "2)" r2 t2 m2 n2 rp [] [rp]); try assumption; try reflexivity; try discriminate; lia.
Qed.
Print Assumptions C103_constant_set_report.

Theorem C103_set_resizing_report : forall b name delta t1 t2 m1 m2 tc sc,
  lines name = [name] -> duration_sane t1 -> duration_sane t2 -> (1 <= delta)%Z -> (2 * delta < two32)%Z ->
  well_formed m1 -> well_formed m2 -> (max_used_memory m1 < 2 ^ 62)%Z -> (max_used_memory m2 < 2 ^ 62)%Z ->
  exists txt, set_resizing_report b name delta t1 t2 m1 m2 tc sc = Val txt /\
    report_says txt ("'" ++ name ++ "' set resizing iterator-algorithm measurements:") ["pass"; "Δt"; "Δs"; "Σn"; "t⁻"]%string
      (fun line => pass_row line "1)" t1 m1 delta no_other delta)
      (fun line => pass_row line "2)" t2 m2 (2 * delta) no_other delta) tc sc m1 m2.
Proof.
  intros b name n t1 t2 m1 m2 tc sc HN T1 T2 N1 N2 W1 W2 S1 S2.
  assert (ER : exists rs, set_resizing_rows b n t1 t2 m1 m2 = Val rs) by (apply set_resizing_rows_ok; try assumption; rewrite two31_val; rewrite two32_val in N2; lia).
  destruct ER as [rs ER]. destruct (space_display_ok b m1 m2 W1 W2 S1 S2) as [s Es].
  assert (ERep : exists rep, analysis_display b (set_resizing_rows b n t1 t2 m1 m2) tc sc m1 m2 = Val rep).
  { unfold analysis_display. rewrite ER, Es. cbn [bind]. eexists; reflexivity. }
  destruct ERep as [rep ERep].
  unfold set_resizing_report. rewrite ERep. cbn [bind]. eexists. split; [reflexivity|].
  destruct (C74_set_resizing_rows b n t1 t2 m1 m2 rs T1 T2 N1 N2 ER) as (r1 & r2 & -> & R1 & R2 & O1 & O2 & D1 & D2).
  assert (K1 : forall tail, exists W, words (String.concat "" (map (fun s => pad 12 (cell s) ++ "  ") [])
       ++ String.concat "" (map (fun n => pad 12 (dec n) ++ "  ") []) ++ tail)%string = (W ++ words tail)%list /\ no_other W).
  { intros tail. exists []. split; reflexivity. }
  apply (report_read b SetResizing name _ r1 r2 tc sc m1 m2 rep _ _ HN W1 W2 S1 S2 ER ERep).
  - apply (row_read b "1)" r1 t1 m1 n n [] []); try assumption; try reflexivity; try discriminate; lia.
  - apply (row_read b "2)" r2 t2 m2 (2 * n) n [] []); try assumption; try reflexivity; try discriminate; lia.
Qed.
Print Assumptions C103_set_resizing_report.
(** a whole report of each kind *)
Example C103_regular_example : lines "sort" = ["sort"%string] /\ duration_sane 1234567 /\ (1 <= 1000 < two32)%Z /\ well_formed demo_m2 /\
  match regular_report Debug "sort" 1000 3000 1234567 3703700 demo_m1 demo_m2 ON ON with
  | Val s => String.eqb s
"'sort' regular-algorithm measurements:
pass          Δt              Δs             n            s⁻           t⁻
1)    1.234567ms        +4.88KiB          1000           +5b       1.235µs
2)      3.7037ms        +8.58MiB          3000      +2.93KiB       1.235µs
--> Algorithm  Time Analysis: O(n)
--> Algorithm Space Analysis: O(n) (allocated: 8.58MiB; auxiliary used space: 1.37KiB)
"
  | _ => false end = true.
Proof.
  split; [reflexivity|]. split; [unfold duration_sane, nanos_per_sec; lia|]. split; [rewrite two32_val; lia|].
  split; [unfold well_formed; rewrite two64_val; cbn; lia|]. vm_compute. reflexivity.
Qed.
Example C103_set_example :
  match constant_set_report Debug "Read" 1000 2000 500 1234567 3703700 demo_m1 demo_m2 O1 OLogN, set_resizing_report Debug "Create" 1000 1234567 3703700 demo_m1 demo_m2 ON2 ON with
  | Val s, Val s' => String.eqb s
"'Read' constant set iterator-algorithm measurements:
pass          Δt              Δs            Σn            ⊆r            t⁻
1)    1.234567ms        +4.88KiB          1000           500       2.469µs
2)      3.7037ms        +8.58MiB          2000           500       7.407µs
--> Algorithm  Time Analysis: O(1)
--> Algorithm Space Analysis: O(log(n)) (allocated: 8.58MiB; auxiliary used space: 1.37KiB)
" && String.eqb s'
"'Create' set resizing iterator-algorithm measurements:
pass          Δt              Δs            Σn            t⁻
1)    1.234567ms        +4.88KiB          1000       1.235µs
2)      3.7037ms        +8.58MiB          2000       3.704µs
--> Algorithm  Time Analysis: O(n²)
--> Algorithm Space Analysis: O(n) (allocated: 8.58MiB; auxiliary used space: 1.37KiB)
"
  | _, _ => false end = true.
Proof. vm_compute. reflexivity. Qed.
