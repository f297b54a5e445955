(** * Reading back the cells of a report. *)
From Coq Require Import ZArith Reals Lra Lia String Ascii List Bool.
From Flocq Require Import Core.Core IEEE754.BinarySingleNaN Relative.
From Verif Require Import Machine Complexity Floats Analysis AnalysisF64d AllocSpec Report ReportProofs PropsReport PropsReport2 CrudMsg TextProofs DurationProofs
  Format ReadSpec FormatProofs ReportText ReportTextSpec.
Import ListNotations.
Open Scope R_scope.

(** ** lines and words *)
Lemma split_on_app c a b : free_of c a = true -> split_on c (a ++ String c b)%string = a :: split_on c b.
Proof.
  induction a as [|x a IH]; cbn [append free_of split_on]; intros H; [rewrite Ascii.eqb_refl; reflexivity|].
  apply andb_prop in H. destruct H as [H1 H2]. destruct (Ascii.eqb x c); [discriminate|]. rewrite IH by exact H2. reflexivity.
Qed.
Lemma split_on_free c a : free_of c a = true -> split_on c a = [a].
Proof.
  induction a as [|x a IH]; cbn [free_of split_on]; intros H; [reflexivity|].
  apply andb_prop in H. destruct H as [H1 H2]. destruct (Ascii.eqb x c); [discriminate|]. rewrite IH by exact H2. reflexivity.
Qed.
Lemma lines_app a b : free_of "010" a = true -> lines (a ++ newline ++ b)%string = a :: lines b.
Proof. exact (split_on_app "010" a b). Qed.
Lemma words_blank s : words (String " " s) = words s.
Proof. reflexivity. Qed.
Lemma words_blanks n s : words (blanks n ++ s)%string = words s.
Proof. induction n as [|n IH]; [reflexivity|]. cbn [blanks append]. rewrite words_blank. exact IH. Qed.
Lemma words_app a b : a <> EmptyString -> free_of " " a = true -> words (a ++ String " " b)%string = a :: words b.
Proof.
  intros N F. unfold words. rewrite split_on_app by exact F. cbn [filter]. destruct (String.eqb_spec a ""); [contradiction|]. reflexivity.
Qed.
Lemma words_one a : a <> EmptyString -> free_of " " a = true -> words a = [a].
Proof.
  intros N F. unfold words. rewrite split_on_free by exact F. cbn [filter]. destruct (String.eqb_spec a ""); [contradiction|]. reflexivity.
Qed.

(** ** cells contain no blanks, new lines or slashes *)
Definition plain (c : ascii) : bool := negb (Ascii.eqb c " ") && negb (Ascii.eqb c "010") && negb (Ascii.eqb c "/").
Lemma plain_free c s : plain c = false -> all_chars plain s = true -> free_of c s = true.
Proof.
  intros P. induction s as [|x s IH]; cbn; intros H; [reflexivity|]. apply andb_prop in H. destruct H as [H1 H2].
  rewrite IH by exact H2. destruct (Ascii.eqb_spec x c); [subst; congruence|reflexivity].
Qed.
Lemma numeric_plain c : numeric c = true -> plain c = true.
Proof.
  unfold numeric, plain. intros H. destruct (Ascii.eqb_spec c " ") as [->|]; [discriminate|]. destruct (Ascii.eqb_spec c "010") as [->|]; [discriminate|].
  destruct (Ascii.eqb_spec c "/") as [->|]; [discriminate|]. reflexivity.
Qed.
Lemma decimals_plain k n : (0 <= n)%Z -> all_chars plain (decimals k n) = true.
Proof. intros H. eapply all_chars_impl; [exact numeric_plain|]. apply decimals_numeric, H. Qed.
Lemma dec_plain n : all_chars plain (dec n) = true.
Proof.
  eapply all_chars_impl; [|apply dec_digits]. intros c H. apply numeric_plain. unfold numeric. rewrite H. reflexivity.
Qed.
Lemma fmt_decimal_plain i integer frac u : (i < 9)%nat -> (0 <= frac < 10 ^ Z.of_nat (S i))%Z -> all_chars plain u = true ->
  all_chars plain (fmt_decimal integer frac (10 ^ Z.of_nat i) u) = true.
Proof.
  intros Hi HF HU. destruct (fraction_spec 9 i frac Hi HF) as (_ & _ & _ & v & _ & R). cbv zeta in *.
  unfold fmt_decimal. set (s := fraction 9 frac (10 ^ Z.of_nat i)) in *. cbv zeta.
  rewrite !all_chars_app, dec_plain, HU. destruct (String.eqb s ""); [reflexivity|].
  cbn [append all_chars]. change (plain ".") with true. rewrite (all_chars_impl is_digit plain); [reflexivity| |].
  - intros c H. apply numeric_plain. unfold numeric. rewrite H. reflexivity.
  - eapply read_digits_all, (R 0%Z).
Qed.
Lemma duration_plain d : (0 <= d)%Z -> all_chars plain (duration_debug d) = true.
Proof.
  intros H. unfold duration_debug, duration_unit.
  assert (G : forall i u k, (i < 9)%nat -> k = (10 ^ Z.of_nat (S i))%Z -> all_chars plain u = true ->
    all_chars plain (fmt_decimal (d / k) (d mod k) (10 ^ Z.of_nat i) u) = true).
  { intros i u k Hi HK HU. apply fmt_decimal_plain; [exact Hi| |exact HU]. rewrite <- HK. apply Z.mod_pos_bound. subst k. apply Z.pow_pos_nonneg; lia. }
  destruct (Z.leb_spec nanos_per_sec d); [|destruct (Z.leb_spec 1000000 d); [|destruct (Z.leb_spec 1000 d)]].
  - exact (G 8%nat "s"%string 1000000000%Z ltac:(lia) eq_refl eq_refl).
  - exact (G 5%nat "ms"%string 1000000%Z ltac:(lia) eq_refl eq_refl).
  - exact (G 2%nat "µs"%string 1000%Z ltac:(lia) eq_refl eq_refl).
  - change (all_chars plain (dec d ++ "ns")%string = true). rewrite all_chars_app, dec_plain. reflexivity.
Qed.
Lemma rhe_nonneg a d : (0 <= a)%Z -> (0 < d)%Z -> (0 <= round_half_even a d)%Z.
Proof.
  intros. unfold round_half_even. cbv zeta. assert (0 <= a / d)%Z by (apply Z.div_pos; lia).
  repeat match goal with |- context [if ?b then _ else _] => destruct b end; lia.
Qed.
Lemma duration_prec_plain k d : (0 <= d)%Z -> all_chars plain (duration_debug_prec k d) = true.
Proof.
  intros H. unfold duration_debug_prec, duration_unit.
  assert (P : (0 < 10 ^ Z.of_nat k)%Z) by (apply Z.pow_pos_nonneg; lia).
  repeat match goal with |- context [if ?b then _ else _] => destruct b end;
    rewrite all_chars_app, decimals_plain by (apply rhe_nonneg; lia); reflexivity.
Qed.
Lemma not_empty_app a b : a <> EmptyString -> (a ++ b)%string <> EmptyString.
Proof. destruct a; [congruence|discriminate]. Qed.
Lemma decimals_not_empty k n : decimals k n <> EmptyString.
Proof. destruct k; cbn [decimals]; [apply dec_not_empty|apply not_empty_app, dec_not_empty]. Qed.
Lemma duration_not_empty d : duration_debug d <> EmptyString.
Proof.
  unfold duration_debug. destruct (duration_unit d) as [u ns]. unfold fmt_decimal. destruct (_ =? _)%Z; apply not_empty_app, dec_not_empty.
Qed.
Lemma duration_prec_not_empty k d : duration_debug_prec k d <> EmptyString.
Proof. unfold duration_debug_prec. destruct (duration_unit d) as [u ns]. apply not_empty_app, decimals_not_empty. Qed.

(** ** the time per element, with three decimals *)
Lemma read_duration_3 d : (0 <= d)%Z ->
  exists x, read_duration (duration_debug_prec 3 d) = Some x /\ Rabs (x - IZR d) <= IZR d / 2000.
Proof.
  intros H. destruct (read_duration_prec 3 d H) as (x & u & RA & EU & NU & R).
  exists (x * IZR (snd (duration_unit d))). split; [unfold read_duration, read_with; rewrite RA, NU; reflexivity|].
  assert (D : snd (duration_unit d) = 1%Z \/ (snd (duration_unit d) <= d)%Z).
  { unfold duration_unit. destruct (Z.leb_spec nanos_per_sec d) as [L|L]; [right; exact L|].
    destruct (Z.leb_spec 1000000 d) as [L1|L1]; [right; exact L1|]. destruct (Z.leb_spec 1000 d) as [L2|L2]; [right; exact L2|left; reflexivity]. }
  assert (D0 : 0 <= IZR d) by (apply IZR_le; lia).
  destruct D as [D|D].
  - assert (E : x = IZR d).
    { unfold duration_debug_prec in RA. pose proof (unit_like_time d) as UL. destruct (duration_unit d) as [u' ns] eqn:E. cbn [fst snd] in *. subst ns.
      assert (RE : round_half_even (d * 10 ^ Z.of_nat 3) 1 = (d * 1000)%Z).
      { unfold round_half_even. cbv zeta. rewrite Z.mod_1_r, Z.div_1_r. reflexivity. }
      rewrite RE, read_amount_decimals in RA by (try exact UL; lia). injection RA as RA _. rewrite <- RA. unfold quantity. cbn [fst snd pow]. rewrite mult_IZR. field. }
    rewrite D, E, Rmult_1_r. replace (IZR d - IZR d) with 0 by ring. rewrite Rabs_R0. lra.
  - apply IZR_le in D. eapply Rle_trans; [exact R|]. cbn [pow]. lra.
Qed.

(** ** amounts of memory *)
Lemma pos_fin (x : f32) : 0 < B2R x -> is_finite x = true /\ Bsign x = false.
Proof.
  destruct x as [s|s| |s m e B]; cbn [B2R]; try lra. intros H. split; [reflexivity|]. destruct s; [exfalso|reflexivity].
  pose proof (F2R_lt_0 radix2 (Float radix2 (Z.neg m) e) ltac:(cbn; lia)) as N. cbn [cond_Zopp Z.opp] in H. lra.
Qed.
Lemma human_sign (x : f32) : is_finite x = true -> Bsign x = false ->
  is_finite (sh_value (human_readable x)) = true /\ Bsign (sh_value (human_readable x)) = false.
Proof.
  intros F S. assert (P : 0 <= B2R x).
  { destruct x as [s|s| |s m e B]; try discriminate; [cbn; lra|]. cbn in S. subst s. apply F2R_ge_0. cbn. lia. }
  destruct (unit_value x F P) as [U _]. destruct U as [[U _]|U].
  - unfold human_readable in *. cbn [sh_unit sh_value] in *.
    destruct (f32_ltb gib x); [discriminate|]. destruct (f32_ltb mib x); [discriminate|]. destruct (f32_ltb kib x); [discriminate|]. auto.
  - apply pos_fin. decompose [or and] U; lra.
Qed.
Lemma unit_bytes_of u v : in_unit u v -> bytes_of u = Some (unit_bytes u) /\ unit_like u /\ 0 < unit_bytes u /\
  (u = "b"%string /\ 0 <= v <= 1024 /\ unit_bytes u = 1 \/ u <> "b"%string /\ 1 < v).
Proof.
  assert (V10 : bpow radix2 10 = 1024) by (simpl; lra).
  assert (V20 : bpow radix2 20 = 1048576) by (simpl; lra).
  assert (V30 : bpow radix2 30 = 1073741824) by (simpl; lra).
  intros [[-> V]|[[-> [V _]]|[[-> [V _]]|[-> V]]]]; unfold unit_bytes; cbn [String.eqb Ascii.eqb Bool.eqb]; rewrite ?V10, ?V20, ?V30;
    (split; [reflexivity|split; [reflexivity|split; [lra|]]]); [left; auto|right; split; [discriminate|exact V]..].
Qed.
Lemma read_cell (s : shown) y : in_unit (sh_unit s) (B2R (sh_value s)) ->
  Rabs (B2R (sh_value s) * unit_bytes (sh_unit s) - y) <= bpow radix2 (-22) * y -> 0 <= y ->
  is_finite (sh_value s) = true -> Bsign (sh_value s) = false ->
  (sh_decimals s = 2%nat \/ sh_decimals s = 0%nat /\ sh_unit s = "b"%string /\
     exists k : Z, Rabs (IZR k - B2R (sh_value s)) < 8589935 * bpow radix2 (-33)) ->
  exists n, (0 <= n)%Z /\ cell s = (sh_sign s ++ decimals (sh_decimals s) n ++ sh_unit s)%string /\
    exists x, read_bytes (decimals (sh_decimals s) n ++ sh_unit s)%string = Some x /\ close x y.
Proof.
  intros U A Y F S D. destruct s as [sg v k u]. cbn [sh_sign sh_value sh_decimals sh_unit] in *.
  destruct (unit_bytes_of u _ U) as (BU & UL & BP & C).
  destruct (fixed_spec 24 128 k v F S) as (n & E & N & R).
  exists n. split; [exact N|]. unfold cell. cbn [sh_sign sh_value sh_decimals sh_unit]. rewrite E. split; [reflexivity|].
  exists (quantity (n, k) * unit_bytes u). split; [unfold read_bytes, read_with; rewrite read_amount_decimals, BU by assumption; reflexivity|].
  assert (B22 : bpow radix2 (-22) = / 4194304) by (cbn; lra).
  assert (B33 : bpow radix2 (-33) = / 8589934592) by (cbn; lra).
  rewrite B22 in A. set (q := quantity (n, k)) in *. set (w := B2R v) in *. set (z := unit_bytes u) in *.
  assert (QW : Rabs (q - w) <= 5 / 1000).
  { destruct D as [->|(-> & -> & K & HK)].
    - eapply Rle_trans; [exact R|]. cbn [pow]. lra.
    - rewrite B33 in HK. unfold q, quantity in *. cbn [fst snd pow] in *. unfold Rdiv in R |- *. rewrite Rinv_1, !Rmult_1_r in R |- *.
      apply Rabs_le_inv in R. apply Rabs_lt_inv in HK.
      assert (n = K). { assert (n - K < 1)%Z by (apply lt_IZR; rewrite minus_IZR; lra). assert (K - n < 1)%Z by (apply lt_IZR; rewrite minus_IZR; lra). lia. }
      subst K. apply Rabs_le. lra. }
  unfold close. apply Rabs_le_inv in A, QW.
  assert (LO : - (5 / 1000 * z) <= (q - w) * z <= 5 / 1000 * z) by (split; [apply Ropp_le_cancel; rewrite Ropp_involutive, Ropp_mult_distr_l|]; apply Rmult_le_compat_r; lra).
  replace (q * z - y) with ((q - w) * z + (w * z - y)) by ring.
  destruct C as [(_ & W & Z1)|(_ & W)].
  - rewrite Z1 in *. apply Rle_trans with (6 / 1000); [|apply Rmax_l]. apply Rabs_le. lra.
  - apply Rle_trans with (y / 199); [|apply Rmax_r].
    assert (z <= w * z) by (rewrite <- (Rmult_1_l z) at 1; apply Rmult_le_compat_r; lra). apply Rabs_le. lra.
Qed.

Lemma read_memory_sign sg k n u x : sg = "+"%string \/ sg = "-"%string \/ sg = ""%string -> (0 <= n)%Z ->
  read_bytes (decimals k n ++ u)%string = Some x -> read_memory (sg ++ decimals k n ++ u)%string = Some (sg, x).
Proof.
  intros S N R. destruct S as [->|[->| ->]].
  - change (read_memory (String "+" (decimals k n ++ u)) = Some ("+"%string, x)). unfold read_memory. cbn [Ascii.eqb Bool.eqb]. rewrite R. reflexivity.
  - change (read_memory (String "-" (decimals k n ++ u)) = Some ("-"%string, x)). unfold read_memory. cbn [Ascii.eqb Bool.eqb]. rewrite R. reflexivity.
  - change ("" ++ decimals k n ++ u)%string with (decimals k n ++ u)%string. unfold read_memory.
    pose proof (decimals_numeric k n N) as NU. pose proof (decimals_not_empty k n) as NE.
    destruct (decimals k n) as [|c s]; [congruence|]. cbn [append all_chars] in *. apply andb_prop in NU. destruct NU as [NU _].
    destruct (Ascii.eqb_spec c "+") as [->|_]; [discriminate|]. destruct (Ascii.eqb_spec c "-") as [->|_]; [discriminate|]. rewrite R. reflexivity.
Qed.
Lemma cell_plain (s : shown) v : in_unit (sh_unit s) v -> sh_sign s = "+"%string \/ sh_sign s = "-"%string \/ sh_sign s = ""%string ->
  forall k n, (0 <= n)%Z -> all_chars plain (sh_sign s ++ decimals k n ++ sh_unit s)%string = true.
Proof.
  intros U S k n N. rewrite !all_chars_app, decimals_plain by exact N.
  assert (all_chars plain (sh_sign s) = true) as -> by (destruct S as [->|[->| ->]]; reflexivity).
  destruct U as [[-> _]|[[-> _]|[[-> _]|[-> _]]]]; reflexivity.
Qed.

Lemma swing_nonneg m : well_formed m -> (0 <= largest_swing m)%Z.
Proof. unfold well_formed, largest_swing. lia. Qed.
Lemma memory_cell b m n s : well_formed m -> (1 <= n < two32)%Z -> fmt_over_n b m n = Val s ->
  memory_text (cell s) m n /\ all_chars plain (cell s) = true /\ cell s <> EmptyString.
Proof.
  intros W Hn H. destruct (C73_memory_cell b m n s W Hn H) as (U & A & D & DE).
  destruct (fmt_cell b m n s W ltac:(lia) H) as (E1 & E2 & E3).
  destruct (amount32_spec m n W Hn) as (F & P & _ & _).
  assert (Y : 0 <= swing_per m n).
  { unfold swing_per. pose proof (swing_nonneg m W) as SN. unfold largest_swing in SN. apply Rmult_le_pos; [apply IZR_le; lia|apply Rlt_le, Rinv_0_lt_compat, IZR_lt; lia]. }
  assert (HS : is_finite (sh_value s) = true /\ Bsign (sh_value s) = false).
  { rewrite E2. apply human_sign; [rewrite is_finite_Babs; exact F|]. apply Bsign_Babs. }
  assert (SG : sh_sign s = "+"%string \/ sh_sign s = "-"%string \/ sh_sign s = ""%string).
  { unfold fmt_over_n in H. destruct (usize_sub b _ _); [|discriminate|discriminate]. cbn [bind] in H. destruct (usize_sub b _ _); [|discriminate|discriminate].
    cbn [bind] in H. apply val_inj in H. rewrite <- H. cbn [sh_sign]. destruct (f32_ltb _ _); [auto|]. destruct (f32_ltb _ _); auto. }
  destruct (read_cell s (swing_per m n) U A Y (proj1 HS) (proj2 HS)) as (k & K & -> & x & R & C).
  { destruct D as [D|D]; [right|left; exact D]. split; [exact D|]. exact (proj1 DE D). }
  split.
  - exists (sh_sign s), x. split; [apply read_memory_sign; assumption|]. split; [exact C|].
    unfold well_formed in W. apply (C54_sign_is_sound b m n s); try exact H; lia.
  - split; [eapply cell_plain; eassumption|].
    intros C0. apply (f_equal String.length) in C0. rewrite !str_length_app in C0. cbn in C0.
    destruct U as [[U _]|[[U _]|[[U _]|[U _]]]]; rewrite U in C0; cbn in C0; lia.
Qed.

(** ** the summary *)
Lemma human_text z : (0 <= z < two64)%Z ->
  let s := human_readable (f32_of_int z) in
  all_chars plain (cell s) = true /\ exists x, read_bytes (cell s) = Some x /\ close x (IZR z).
Proof.
  intros Hz s. destruct (C63_memory_units z Hz) as [U V]. fold s in U, V. rewrite two64_val in Hz.
  destruct (of_int32_spec z) as [F E]; [lia|].
  assert (S : Bsign (f32_of_int z) = false).
  { destruct (Z.eq_dec z 0) as [->|N]; [reflexivity|]. apply pos_fin.
    apply Rlt_le_trans with 1; [lra|]. rewrite <- (of_int32_exact 1) by lia. apply of_int32_mono; lia. }
  destruct (human_sign _ F S) as [FV SV]. fold s in FV, SV.
  assert (A : Rabs (B2R (sh_value s) * unit_bytes (sh_unit s) - IZR z) <= bpow radix2 (-22) * IZR z).
  { rewrite V, E. destruct (Z.eq_dec z 0) as [->|N].
    - rewrite round_0 by exact _. replace (0 - 0) with 0 by ring. rewrite Rabs_R0. lra.
    - eapply Rle_trans; [apply relative_error_N_FLT with (emin := SpecFloat.emin 24 128) (prec := 24%Z); [reflexivity|]|].
      + rewrite Rabs_pos_eq by (apply IZR_le; lia). apply Rle_trans with 1; [|apply IZR_le; lia].
        change 1 with (bpow radix2 0). apply bpow_le. unfold SpecFloat.emin. lia.
      + rewrite Rabs_pos_eq by (apply IZR_le; lia).
        assert (0 <= IZR z) by (apply IZR_le; lia). cbn. lra. }
  destruct (read_cell s (IZR z) U A ltac:(apply IZR_le; lia) FV SV) as (k & K & EC & x & R & C); [left; reflexivity|].
  assert (SE : sh_sign s = ""%string) by reflexivity.
  rewrite EC. split; [apply (cell_plain s _ U); auto|]. exists x. rewrite SE. split; [exact R|exact C].
Qed.

(** ** rows *)
Lemma words_cell w s rest : all_chars plain s = true -> s <> EmptyString ->
  words (pad w s ++ "  " ++ rest)%string = s :: words rest.
Proof.
  intros P N. unfold pad. rewrite <- str_app_assoc, words_blanks. cbn [append].
  rewrite words_app; [|exact N|apply plain_free; [reflexivity|exact P]]. rewrite words_blank. reflexivity.
Qed.
Lemma words_last w s : all_chars plain s = true -> s <> EmptyString -> words (pad w s) = [s].
Proof.
  intros P N. unfold pad. rewrite words_blanks. apply words_one; [exact N|apply plain_free; [reflexivity|exact P]].
Qed.
Lemma words_label label rest : label <> EmptyString -> free_of " " label = true -> words (label ++ " " ++ rest)%string = label :: words rest.
Proof. intros N F. apply (words_app label rest N F). Qed.

(** a row without its new line *)
Definition row_body (label : string) (r : row) : string :=
  (label ++ " " ++ pad 13 (duration_debug (row_time r)) ++ "  " ++ pad 14 (cell (row_space r)) ++ "  " ++ pad 12 (dec (row_n r)) ++ "  "
  ++ String.concat "" (map (fun s => pad 12 (cell s) ++ "  ") (row_detail r))
  ++ String.concat "" (map (fun n => pad 12 (dec n) ++ "  ") (row_repetitions r))
  ++ pad 12 (duration_debug_prec 3 (row_per_n r)))%string.
Lemma row_line_body label r : row_line label r = (row_body label r ++ newline)%string.
Proof. unfold row_line, row_body. rewrite <- !str_app_assoc. reflexivity. Qed.
Lemma blanks_free c n : Ascii.eqb " " c = false -> free_of c (blanks n) = true.
Proof. intros H. induction n as [|n IH]; [reflexivity|]. cbn [blanks free_of]. rewrite H, IH. reflexivity. Qed.
Lemma pad_free w s : all_chars plain s = true -> free_of "010" (pad w s) = true.
Proof. intros P. unfold pad. rewrite free_app, blanks_free, (plain_free "010" s) by (try reflexivity; exact P). reflexivity. Qed.

(** the time per element of a row *)
Lemma time_per_cell t n v : (0 <= t)%Z -> (1 <= n)%Z -> (0 <= v)%Z ->
  Rabs (IZR v - IZR t / IZR n) <= / 2 + bpow radix2 (-50) * (IZR t / IZR n) -> time_per_text (duration_debug_prec 3 v) t n.
Proof.
  intros T N V R. destruct (read_duration_3 v V) as (x & E & X). exists x. split; [exact E|].
  assert (Y : 0 <= IZR t / IZR n) by (apply Rmult_le_pos; [apply IZR_le; lia|apply Rlt_le, Rinv_0_lt_compat, IZR_lt; lia]).
  set (y := IZR t / IZR n) in *. assert (B : bpow radix2 (-50) <= 1 / 100000000) by (cbn; lra).
  assert (bpow radix2 (-50) * y <= 1 / 100000000 * y) by (apply Rmult_le_compat_r; lra).
  apply Rabs_le_inv in R, X. apply Rabs_le. lra.
Qed.
