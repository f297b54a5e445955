(** * Reading back what std writes. *)
From Coq Require Import ZArith Reals Lra Lia String Ascii List Bool DecimalString DecimalFacts DecimalN.
From Flocq Require Import Core.Core IEEE754.BinarySingleNaN.
From Verif Require Import Machine Floats Analysis Report CrudMsg TextProofs DurationProofs Format ReadSpec.
Import ListNotations.
Open Scope Z_scope.

(** ** integers *)
Lemma read_digits_uint d : forall acc, (0 <= acc) ->
  read_digits acc (NilEmpty.string_of_uint d) =
  Some (match acc with
        | Z0 => Z.of_N (N.of_uint d)
        | Zpos p => Zpos (Pos.of_uint_acc d p)
        | Zneg p => acc end).
Proof.
  unfold N.of_uint.
  induction d; intros acc HA; (destruct acc as [|p|p]; [| |lia]);
    cbn [NilEmpty.string_of_uint read_digits]; try reflexivity;
    match goal with |- context [is_digit ?c] => let v := eval vm_compute in (is_digit c) in replace (is_digit c) with v by reflexivity end;
    match goal with |- context [digit_value ?c] => let v := eval vm_compute in (digit_value c) in replace (digit_value c) with v by reflexivity end;
    cbv iota; rewrite IHd by lia; f_equal;
    try reflexivity;
    match goal with |- match 10 * Zpos p + ?k with _ => _ end = Z.pos (Pos.of_uint_acc ?D p) =>
      let q := eval cbn [Pos.of_uint_acc] in (Pos.of_uint_acc D p) in
      match q with Pos.of_uint_acc _ ?q => replace (10 * Zpos p + k) with (Zpos q) by lia; reflexivity end end.
Qed.
Lemma to_uint_not_nil k : N.to_uint k <> Decimal.Nil.
Proof.
  intros C. assert (U : Decimal.unorm (N.to_uint k) = N.to_uint k).
  { rewrite <- (Unsigned.of_to k) at 2. rewrite Unsigned.to_of. reflexivity. }
  rewrite C in U. discriminate.
Qed.
Lemma dec_uint n : dec n = NilEmpty.string_of_uint (N.to_uint (Z.to_N n)).
Proof.
  unfold dec, NilZero.string_of_uint. pose proof (to_uint_not_nil (Z.to_N n)).
  destruct (N.to_uint (Z.to_N n)); congruence.
Qed.
Lemma read_digits_dec n : 0 <= n -> read_digits 0 (dec n) = Some n.
Proof. intros H. rewrite dec_uint, read_digits_uint by lia. rewrite Unsigned.of_to, Z2N.id; auto. Qed.
Lemma dec_not_empty n : dec n <> EmptyString.
Proof.
  rewrite dec_uint. pose proof (to_uint_not_nil (Z.to_N n)).
  destruct (N.to_uint (Z.to_N n)); cbn; congruence.
Qed.
Lemma read_int_dec n : 0 <= n -> read_int (dec n) = Some n.
Proof.
  intros H. unfold read_int. destruct (String.eqb_spec (dec n) "") as [E|_].
  - destruct (dec_not_empty n E).
  - apply read_digits_dec, H.
Qed.

(** every character satisfies [p] *)
Fixpoint all_chars (p : ascii -> bool) (s : string) : bool :=
  match s with EmptyString => true | String c s => p c && all_chars p s end.
Lemma all_chars_app p a b : all_chars p (a ++ b)%string = all_chars p a && all_chars p b.
Proof. induction a as [|x a IH]; cbn; [reflexivity|]. rewrite IH, andb_assoc. reflexivity. Qed.
Lemma all_chars_impl (p q : ascii -> bool) s : (forall c, p c = true -> q c = true) -> all_chars p s = true -> all_chars q s = true.
Proof. intros I. induction s as [|c s IH]; cbn; [auto|]. intros H. apply andb_prop in H. destruct H as [A B]. rewrite (I _ A), IH; auto. Qed.
Lemma read_digits_all s : forall acc v, read_digits acc s = Some v -> all_chars is_digit s = true.
Proof.
  induction s as [|c s IH]; intros acc v E; cbn in *; [reflexivity|].
  destruct (is_digit c); [|discriminate]. cbn. eapply IH, E.
Qed.
Lemma dec_digits n : all_chars is_digit (dec n) = true.
Proof.
  assert (H : read_digits 0 (dec n) = Some (Z.of_N (Z.to_N n))).
  { rewrite dec_uint, read_digits_uint by lia. rewrite Unsigned.of_to. reflexivity. }
  eapply read_digits_all, H.
Qed.
Lemma read_digits_app s : forall acc t, read_digits acc (s ++ t)%string =
  match read_digits acc s with Some v => read_digits v t | None => None end.
Proof.
  induction s as [|c s IH]; intros acc t; [reflexivity|].
  cbn [append read_digits]. destruct (is_digit c); [apply IH|reflexivity].
Qed.
(** the part of a text a reader takes *)
Lemma span_app p a b : all_chars p a = true -> span p b = (EmptyString, b) -> span p (a ++ b)%string = (a, b).
Proof.
  induction a as [|c a IH]; cbn [append span all_chars]; intros H E; [exact E|].
  apply andb_prop in H. destruct H as [-> H]. rewrite IH; auto.
Qed.
Lemma span_all p a : all_chars p a = true -> span p a = (a, EmptyString).
Proof.
  induction a as [|c a IH]; cbn [span all_chars]; intros H; [reflexivity|].
  apply andb_prop in H. destruct H as [-> H]. rewrite IH; auto.
Qed.

(** ** digits *)
Lemma digit_spec n : 0 <= n < 10 -> is_digit (digit n) = true /\ digit_value (digit n) = n.
Proof.
  intros H. assert (C : n = 0 \/ n = 1 \/ n = 2 \/ n = 3 \/ n = 4 \/ n = 5 \/ n = 6 \/ n = 7 \/ n = 8 \/ n = 9) by lia.
  decompose [or] C; subst; split; reflexivity.
Qed.
Lemma str_length_app a b : String.length (a ++ b)%string = (String.length a + String.length b)%nat.
Proof. induction a as [|c a IH]; cbn; congruence. Qed.
Lemma length_digits k : forall n, String.length (digits k n) = k.
Proof. induction k as [|k IH]; intros n; [reflexivity|]. cbn [digits]. rewrite str_length_app, IH. cbn. lia. Qed.
Lemma read_digits_digits k : forall n acc, 0 <= n < 10 ^ Z.of_nat k ->
  read_digits acc (digits k n) = Some (acc * 10 ^ Z.of_nat k + n).
Proof.
  induction k as [|k IH]; intros n acc H.
  - cbn. f_equal. change (10 ^ Z.of_nat 0) with 1 in H. lia.
  - rewrite Nat2Z.inj_succ, Z.pow_succ_r in * by lia.
    cbn [digits]. rewrite read_digits_app, IH.
    + cbn [read_digits].
      destruct (digit_spec (n mod 10) (Z.mod_pos_bound n 10 ltac:(lia))) as [-> ->].
      f_equal. pose proof (Z.div_mod n 10 ltac:(lia)). lia.
    + split; [apply Z.div_pos; lia|]. apply Z.div_lt_upper_bound; lia.
Qed.
Lemma read_int_digits k n : 0 <= n < 10 ^ Z.of_nat (S k) -> read_int (digits (S k) n) = Some n.
Proof.
  intros H. unfold read_int. destruct (String.eqb_spec (digits (S k) n) "") as [E|_].
  - apply (f_equal String.length) in E. rewrite length_digits in E. discriminate.
  - rewrite read_digits_digits by exact H. reflexivity.
Qed.

(** ** numbers with decimals *)
Lemma read_decimals k n : 0 <= n -> read_decimal (decimals k n) = Some (n, k).
Proof.
  intros H. unfold read_decimal. destruct k as [|k]; cbn [decimals].
  - rewrite span_all by apply dec_digits. rewrite read_int_dec by exact H. reflexivity.
  - set (q := 10 ^ Z.of_nat (S k)). assert (Q : 0 < q) by (apply Z.pow_pos_nonneg; lia).
    assert (M : 0 <= n mod q < q) by (apply Z.mod_pos_bound; lia).
    rewrite (span_app is_digit (dec (n / q)) ("." ++ digits (S k) (n mod q))%string (dec_digits _)) by reflexivity.
    cbn [append]. rewrite Ascii.eqb_refl.
    rewrite read_int_dec by (apply Z.div_pos; lia). rewrite read_int_digits by exact M.
    rewrite length_digits. fold q. f_equal. f_equal. pose proof (Z.div_mod n q ltac:(lia)). lia.
Qed.
Lemma decimals_numeric k n : 0 <= n -> all_chars numeric (decimals k n) = true.
Proof.
  assert (D : forall c, is_digit c = true -> numeric c = true) by (intros c E; unfold numeric; rewrite E; reflexivity).
  intros H. destruct k as [|k]; cbn [decimals].
  - eapply all_chars_impl; [exact D|apply dec_digits].
  - rewrite !all_chars_app. rewrite (all_chars_impl _ _ _ D (dec_digits _)). cbn.
    eapply all_chars_impl; [exact D|]. change (all_chars is_digit (digits (S k) (n mod 10 ^ Z.of_nat (S k))) = true).
    eapply read_digits_all with (acc := 0). apply read_digits_digits. apply Z.mod_pos_bound. apply Z.pow_pos_nonneg; lia.
Qed.
(** a unit does not start like a number *)
Definition unit_like (u : string) : Prop := span numeric u = (EmptyString, u).
Lemma read_amount_decimals k n u : 0 <= n -> unit_like u ->
  read_amount (decimals k n ++ u)%string = Some (quantity (n, k), u).
Proof.
  intros H U. unfold read_amount. rewrite (span_app numeric _ u (decimals_numeric k n H) U).
  rewrite read_decimals by exact H. reflexivity.
Qed.
Lemma shown_decimals_decimals k n u : 0 <= n -> unit_like u -> shown_decimals (decimals k n ++ u)%string = Some k.
Proof.
  intros H U. unfold shown_decimals. rewrite (span_app numeric _ u (decimals_numeric k n H) U). cbn [fst].
  rewrite read_decimals by exact H. reflexivity.
Qed.

(** ** floats *)
Open Scope R_scope.
Lemma pow10 k : IZR (10 ^ Z.of_nat k) = 10 ^ k.
Proof. rewrite <- pow_IZR. reflexivity. Qed.
Lemma pow10_pos k : 0 < 10 ^ k.
Proof. apply pow_lt. lra. Qed.
Lemma scaled_mantissa_spec prec emax (k : nat) m e B : let x := B754_finite false m e B : binary_float prec emax in
  (0 <= scaled_mantissa k m e)%Z /\
  Rabs (IZR (scaled_mantissa k m e) - B2R x * 10 ^ k) <= / 2.
Proof.
  cbv zeta. unfold B2R, F2R. cbn [Fnum Fexp cond_Zopp]. unfold scaled_mantissa.
  assert (P10 : (0 < 10 ^ Z.of_nat k)%Z) by (apply Z.pow_pos_nonneg; lia).
  destruct (Z.leb_spec 0 e) as [He|He].
  - split; [apply Z.mul_nonneg_nonneg; [apply Z.mul_nonneg_nonneg; [lia|apply Z.pow_nonneg; lia]|lia]|].
    rewrite !mult_IZR, pow10. rewrite <- (IZR_Zpower radix2) by exact He. change (radix_val radix2) with 2%Z.
    replace (IZR (Z.pos m) * IZR (2 ^ e) * 10 ^ k - IZR (Z.pos m) * IZR (2 ^ e) * 10 ^ k) with 0 by ring.
    rewrite Rabs_R0. lra.
  - assert (PP : (0 < 2 ^ (- e))%Z) by (apply Z.pow_pos_nonneg; lia).
    pose proof (round_half_even_spec (Z.pos m * 10 ^ Z.of_nat k) (2 ^ (- e)) PP) as R.
    split.
    + pose proof (round_half_even_spec (Z.pos m * 10 ^ Z.of_nat k) (2 ^ (- e)) PP) as R'.
      unfold round_half_even. cbv zeta.
      assert (0 <= Z.pos m * 10 ^ Z.of_nat k / 2 ^ (- e))%Z by (apply Z.div_pos; lia).
      repeat match goal with |- context [if ?b then _ else _] => destruct b end; lia.
    + replace (IZR (Z.pos m) * bpow radix2 e * 10 ^ k) with (IZR (Z.pos m * 10 ^ Z.of_nat k) / IZR (2 ^ (- e))); [exact R|].
      rewrite mult_IZR, pow10. replace e with (- (- e))%Z at 2 by lia. rewrite bpow_opp.
      rewrite <- (IZR_Zpower radix2) by lia. change (radix_val radix2) with 2%Z. unfold Rdiv. ring.
Qed.
(** [{:.k}] of a float is within half a unit of the last place *)
Lemma fixed_spec prec emax (k : nat) (x : binary_float prec emax) : is_finite x = true -> Bsign x = false ->
  exists n, fixed k x = decimals k n /\ (0 <= n)%Z /\ Rabs (quantity (n, k) - B2R x) <= / 2 / 10 ^ k.
Proof.
  pose proof (pow10_pos k) as P.
  destruct x as [s|s| |s m e B]; try discriminate; intros _ S; cbn [Bsign] in S; subst s.
  - exists 0%Z. split; [reflexivity|]. split; [lia|]. unfold quantity. cbn [fst snd B2R].
    unfold Rdiv. rewrite Rmult_0_l, Rminus_0_r, Rabs_R0. apply Rlt_le, Rmult_lt_0_compat; [lra|apply Rinv_0_lt_compat; exact P].
  - exists (scaled_mantissa k m e). destruct (scaled_mantissa_spec prec emax k m e B) as [N R].
    split; [reflexivity|]. split; [exact N|]. unfold quantity. cbn [fst snd].
    set (v := B2R (B754_finite false m e B : binary_float prec emax)) in *.
    replace (IZR (scaled_mantissa k m e) / 10 ^ k - v) with ((IZR (scaled_mantissa k m e) - v * 10 ^ k) * / 10 ^ k) by (field; lra).
    rewrite Rabs_mult, (Rabs_pos_eq (/ 10 ^ k)) by (apply Rlt_le, Rinv_0_lt_compat; exact P).
    apply Rmult_le_compat_r; [apply Rlt_le, Rinv_0_lt_compat; exact P|exact R].
Qed.

(** ** durations *)
Open Scope Z_scope.
Lemma fraction_spec fuel : forall i frac, (i < fuel)%nat -> 0 <= frac < 10 ^ Z.of_nat (S i) ->
  let s := fraction fuel frac (10 ^ Z.of_nat i) in
  (String.length s <= S i)%nat /\ (frac <> 0 -> s <> EmptyString) /\ (frac = 0 -> s = EmptyString) /\
  exists v, v * 10 ^ Z.of_nat (S i - String.length s) = frac /\
    forall acc, read_digits acc s = Some (acc * 10 ^ Z.of_nat (String.length s) + v).
Proof.
  induction fuel as [|fuel IH]; intros i frac HF H; [lia|]. cbv zeta. cbn [fraction].
  destruct (Z.eqb_spec frac 0) as [E|E].
  { split; [cbn; lia|]. split; [congruence|]. split; [reflexivity|]. exists 0. split; [subst; lia|]. intros acc. cbn. f_equal. lia. }
  assert (P : 0 < 10 ^ Z.of_nat i) by (apply Z.pow_pos_nonneg; lia).
  rewrite Nat2Z.inj_succ, Z.pow_succ_r in H by lia.
  assert (Q : 0 <= frac / 10 ^ Z.of_nat i < 10).
  { split; [apply Z.div_pos; lia|apply Z.div_lt_upper_bound; lia]. }
  assert (M : 0 <= frac mod 10 ^ Z.of_nat i < 10 ^ Z.of_nat i) by (apply Z.mod_pos_bound; lia).
  pose proof (Z.div_mod frac (10 ^ Z.of_nat i) ltac:(lia)) as DM.
  destruct (digit_spec _ Q) as [D1 D2].
  destruct i as [|i].
  - change (10 ^ Z.of_nat 0) with 1 in *. rewrite Z.mod_1_r in *.
    assert (F0 : forall f x, fraction f 0 x = EmptyString) by (intros [|f] x; reflexivity).
    rewrite F0. cbn [String.length]. split; [lia|]. split; [discriminate|]. split; [congruence|].
    exists frac. split; [change (10 ^ Z.of_nat (1 - 1)) with 1; lia|]. intros acc. cbn [read_digits]. rewrite D1, D2, Z.div_1_r.
    f_equal. change (10 ^ Z.of_nat 1) with 10. lia.
  - assert (DV : 10 ^ Z.of_nat (S i) / 10 = 10 ^ Z.of_nat i).
    { rewrite Nat2Z.inj_succ, Z.pow_succ_r by lia. rewrite Z.mul_comm. apply Z.div_mul. lia. }
    rewrite DV.
    destruct (IH i (frac mod 10 ^ Z.of_nat (S i)) ltac:(lia) M) as (L & _ & _ & v & V & R). cbv zeta in *.
    set (s := fraction fuel (frac mod 10 ^ Z.of_nat (S i)) (10 ^ Z.of_nat i)) in *.
    cbn [String.length]. split; [lia|]. split; [discriminate|]. split; [congruence|].
    exists (frac / 10 ^ Z.of_nat (S i) * 10 ^ Z.of_nat (String.length s) + v). split.
    + change (S (S i) - S (String.length s))%nat with (S i - String.length s)%nat.
      rewrite Z.mul_add_distr_r, V, <- Z.mul_assoc, <- Z.pow_add_r by lia.
      replace (Z.of_nat (String.length s) + Z.of_nat (S i - String.length s)) with (Z.of_nat (S i)) by lia. lia.
    + intros acc. cbn [read_digits]. rewrite D1, D2, R. f_equal. rewrite (Nat2Z.inj_succ (String.length s)), (Z.pow_succ_r _ (Z.of_nat (String.length s))) by lia. ring.
Qed.

Lemma read_amount_num num u x : read_decimal num = Some x -> all_chars numeric num = true -> unit_like u ->
  read_amount (num ++ u)%string = Some (quantity x, u).
Proof. intros R N U. unfold read_amount. rewrite (span_app numeric _ u N U), R. reflexivity. Qed.

(** an integer and a fraction of [10^(i+1)]-ths are read back exactly *)
Lemma read_fmt_decimal i integer frac u : (i < 9)%nat -> 0 <= integer -> 0 <= frac < 10 ^ Z.of_nat (S i) -> unit_like u ->
  exists x, read_amount (fmt_decimal integer frac (10 ^ Z.of_nat i) u) = Some (x, u) /\
    (x * IZR (10 ^ Z.of_nat (S i)) = IZR (integer * 10 ^ Z.of_nat (S i) + frac))%R.
Proof.
  intros Hi HI HF U. destruct (fraction_spec 9 i frac Hi HF) as (L & NE & EE & v & V & R). cbv zeta in *.
  unfold fmt_decimal. set (s := fraction 9 frac (10 ^ Z.of_nat i)) in *. cbv zeta.
  destruct (String.eqb_spec s EmptyString) as [E|E].
  - assert (F0 : frac = 0). { destruct (Z.eq_dec frac 0) as [Z0|Z0]; [exact Z0|exfalso; exact (NE Z0 E)]. }
    change ("" ++ u)%string with u. exists (quantity (integer, O)). split.
    + apply (read_amount_num (dec integer) u).
      * exact (read_decimals 0 integer HI).
      * exact (decimals_numeric 0 integer HI).
      * exact U.
    + unfold quantity. cbn [fst snd pow]. rewrite F0, Z.add_0_r, mult_IZR. field.
  - rewrite (str_app_assoc (dec integer)). exists (quantity (integer * 10 ^ Z.of_nat (String.length s) + v, String.length s)). split.
    + apply read_amount_num; [|
        rewrite !all_chars_app; apply andb_true_intro; (split; [exact (decimals_numeric 0 integer HI)|]);
        apply andb_true_intro; (split; [reflexivity|]); apply (all_chars_impl is_digit);
        [intros c C; unfold numeric; rewrite C; reflexivity|eapply read_digits_all, (R 0)] |exact U].
      unfold read_decimal. change ("." ++ s)%string with (String "." s).
      rewrite (span_app is_digit (dec integer) (String "." s) (dec_digits _)) by reflexivity.
      rewrite Ascii.eqb_refl, read_int_dec by exact HI. unfold read_int.
      destruct (String.eqb_spec s "") as [E'|_]; [destruct (E E')|]. rewrite R. f_equal.
    + unfold quantity. cbn [fst snd]. rewrite <- pow10.
      assert (S1 : 10 ^ Z.of_nat (S i) = 10 ^ Z.of_nat (String.length s) * 10 ^ Z.of_nat (S i - String.length s)).
      { rewrite <- Z.pow_add_r by lia. f_equal. lia. }
      rewrite <- V, S1, mult_IZR. unfold Rdiv. rewrite Rmult_assoc, <- (Rmult_assoc (/ _)), Rinv_l, Rmult_1_l, <- mult_IZR.
      2:{ apply not_0_IZR. assert (0 < 10 ^ Z.of_nat (String.length s)) by (apply Z.pow_pos_nonneg; lia). lia. }
      f_equal. ring.
Qed.
Lemma unit_like_time d : unit_like (fst (duration_unit d)).
Proof. unfold duration_unit. repeat match goal with |- context [if ?b then _ else _] => destruct b end; reflexivity. Qed.

(** [{:?}] of a duration is read back exactly *)
Lemma read_duration_debug d : 0 <= d -> read_duration (duration_debug d) = Some (IZR d).
Proof.
  intros H. unfold read_duration, read_with, duration_debug, duration_unit.
  assert (G : forall i u k, (i < 9)%nat -> nanoseconds_of u = Some (IZR k) -> k = 10 ^ Z.of_nat (S i) -> unit_like u ->
    match read_amount (fmt_decimal (d / k) (d mod k) (10 ^ Z.of_nat i) u) with
    | Some (x, u) => match nanoseconds_of u with Some k => Some (x * k)%R | None => None end | None => None end = Some (IZR d)).
  { intros i u k Hi HU HK UL. assert (0 < k) by (subst k; apply Z.pow_pos_nonneg; lia).
    destruct (read_fmt_decimal i (d / k) (d mod k) u Hi) as (x & -> & X); [apply Z.div_pos; lia| |exact UL|].
    - rewrite <- HK. apply Z.mod_pos_bound. lia.
    - rewrite HU, <- HK in *. f_equal. rewrite X. f_equal. pose proof (Z.div_mod d k ltac:(lia)). lia. }
  destruct (Z.leb_spec nanos_per_sec d); [|destruct (Z.leb_spec 1000000 d); [|destruct (Z.leb_spec 1000 d)]].
  - exact (G 8%nat "s"%string 1000000000 ltac:(lia) eq_refl eq_refl eq_refl).
  - exact (G 5%nat "ms"%string 1000000 ltac:(lia) eq_refl eq_refl eq_refl).
  - exact (G 2%nat "µs"%string 1000 ltac:(lia) eq_refl eq_refl eq_refl).
  - change (if (1 =? 1)%Z then fmt_decimal d 0 1 "ns" else fmt_decimal (d / 1)%Z (d mod 1)%Z (1 / 10)%Z "ns")%string with (decimals 0 d ++ "ns")%string.

    rewrite (read_amount_decimals 0 d "ns" H eq_refl). cbv beta iota. change (nanoseconds_of "ns") with (Some 1%R). cbv iota. f_equal. unfold quantity. cbn [fst snd pow]. field.
Qed.

(** [{:.k?}] is within half a unit of the last place *)
Lemma read_duration_prec k d : 0 <= d -> exists x u, read_amount (duration_debug_prec k d) = Some (x, u) /\
  u = fst (duration_unit d) /\ nanoseconds_of u = Some (IZR (snd (duration_unit d))) /\
  (Rabs (x * IZR (snd (duration_unit d)) - IZR d) <= / 2 / 10 ^ k * IZR (snd (duration_unit d)))%R.
Proof.
  intros H. unfold duration_debug_prec.
  assert (N : nanoseconds_of (fst (duration_unit d)) = Some (IZR (snd (duration_unit d)))).
  { unfold duration_unit. repeat match goal with |- context [if ?b then _ else _] => destruct b end; reflexivity. }
  assert (P : 0 < snd (duration_unit d)).
  { unfold duration_unit. repeat match goal with |- context [if ?b then _ else _] => destruct b end; reflexivity. }
  pose proof (unit_like_time d) as U.
  destruct (duration_unit d) as [u ns]. cbn [fst snd] in *.
  pose proof (round_half_even_spec (d * 10 ^ Z.of_nat k) ns P) as R.
  assert (P10 : 0 < 10 ^ Z.of_nat k) by (apply Z.pow_pos_nonneg; lia).
  assert (NN : 0 <= round_half_even (d * 10 ^ Z.of_nat k) ns).
  { unfold round_half_even. cbv zeta.
    assert (0 <= d * 10 ^ Z.of_nat k / ns) by (apply Z.div_pos; lia).
    repeat match goal with |- context [if ?b then _ else _] => destruct b end; lia. }
  eexists _, u. split; [apply read_amount_decimals; [exact NN|exact U]|]. split; [reflexivity|]. split; [exact N|].
  unfold quantity. cbn [fst snd]. rewrite mult_IZR, pow10 in R.
  set (r := IZR (round_half_even (d * 10 ^ Z.of_nat k) ns)) in *.
  pose proof (pow10_pos k) as PR. assert (PN : (0 < IZR ns)%R) by (apply IZR_lt; lia).
  replace (r / 10 ^ k * IZR ns - IZR d)%R with ((r - IZR d * 10 ^ k / IZR ns) * (IZR ns / 10 ^ k))%R by (field; lra).
  rewrite Rabs_mult, (Rabs_pos_eq (IZR ns / 10 ^ k)) by (apply Rlt_le, Rdiv_lt_0_compat; lra).
  apply Rle_trans with (/ 2 * (IZR ns / 10 ^ k))%R.
  - apply Rmult_le_compat_r; [apply Rlt_le, Rdiv_lt_0_compat; lra|exact R].
  - apply Req_le. field. lra.
Qed.

(** ** scientific notation *)
Lemma read_digits_bounds s : forall acc v, 0 <= acc -> read_digits acc s = Some v ->
  acc * 10 ^ Z.of_nat (String.length s) <= v < (acc + 1) * 10 ^ Z.of_nat (String.length s).
Proof.
  induction s as [|c s IH]; intros acc v A E; cbn [read_digits String.length] in *.
  - injection E as <-. change (10 ^ Z.of_nat 0) with 1. lia.
  - destruct (is_digit c) eqn:D; [|discriminate].
    assert (DV : 0 <= digit_value c <= 9).
    { unfold is_digit in D. apply andb_prop in D. destruct D as [D1 D2]. apply Nat.leb_le in D1, D2. unfold digit_value. lia. }
    specialize (IH (10 * acc + digit_value c) v ltac:(lia) E). rewrite Nat2Z.inj_succ, Z.pow_succ_r by lia.
    assert (0 < 10 ^ Z.of_nat (String.length s)) by (apply Z.pow_pos_nonneg; lia). nia.
Qed.
Lemma dec_length n : 1 <= n ->
  exists l, String.length (dec n) = S l /\ 10 ^ Z.of_nat l <= n < 10 ^ Z.of_nat (S l).
Proof.
  intros H. pose proof (read_digits_dec n ltac:(lia)) as R.
  destruct (read_digits_bounds _ 0 n ltac:(lia) R) as [_ UB].
  rewrite Z.add_0_l, Z.mul_1_l in UB.
  rewrite dec_uint in *. set (k := Z.to_N n) in *.
  assert (U : Decimal.unorm (N.to_uint k) = N.to_uint k).
  { rewrite <- (Unsigned.of_to k) at 2. rewrite Unsigned.to_of. reflexivity. }
  assert (G : forall c s, NilEmpty.string_of_uint (N.to_uint k) = String c s -> is_digit c = true -> 1 <= digit_value c ->
     exists l, String.length (NilEmpty.string_of_uint (N.to_uint k)) = S l /\ 10 ^ Z.of_nat l <= n < 10 ^ Z.of_nat (S l)).
  { intros c s E D V. rewrite E in *. exists (String.length s). split; [reflexivity|].
    cbn [read_digits] in R. rewrite D in R. rewrite Z.mul_0_r, Z.add_0_l in R.
    destruct (read_digits_bounds _ (digit_value c) n ltac:(lia) R) as [LB _].
    assert (0 < 10 ^ Z.of_nat (String.length s)) by (apply Z.pow_pos_nonneg; lia).
    split; [nia|exact UB]. }
  destruct (N.to_uint k) as [|d|d|d|d|d|d|d|d|d|d] eqn:E.
  - destruct (to_uint_not_nil _ E).
  - exfalso. unfold Decimal.unorm in U. cbn [Decimal.nzhead] in U.
    destruct (Decimal.nzhead d) eqn:F; try discriminate.
    + injection U as U. subst d. apply (f_equal N.of_uint) in E. rewrite Unsigned.of_to in E. cbn in E. unfold k in E. lia.
    + injection U as U. subst u. destruct (nzhead_nonzero _ _ F).
  - apply (G "1"%char _ eq_refl eq_refl); vm_compute; discriminate.
  - apply (G "2"%char _ eq_refl eq_refl); vm_compute; discriminate.
  - apply (G "3"%char _ eq_refl eq_refl); vm_compute; discriminate.
  - apply (G "4"%char _ eq_refl eq_refl); vm_compute; discriminate.
  - apply (G "5"%char _ eq_refl eq_refl); vm_compute; discriminate.
  - apply (G "6"%char _ eq_refl eq_refl); vm_compute; discriminate.
  - apply (G "7"%char _ eq_refl eq_refl); vm_compute; discriminate.
  - apply (G "8"%char _ eq_refl eq_refl); vm_compute; discriminate.
  - apply (G "9"%char _ eq_refl eq_refl); vm_compute; discriminate.
Qed.
(** a number of at least one, to [k + 1] significant digits *)
Lemma significant_spec k num den : 0 < den -> den <= num ->
  let '(n, e) := significant k num den in
  0 <= e /\ 10 ^ Z.of_nat k <= n < 10 ^ (Z.of_nat k + 1) /\
  (Rabs (quantity (n, k) * powerRZ 10 e - IZR num / IZR den) <= / 2 / 10 ^ k * (IZR num / IZR den))%R.
Proof.
  intros HD HN. unfold significant, exponent10. destruct (Z.leb_spec den num) as [_|C]; [|lia].
  assert (Q1 : 1 <= num / den) by (apply Z.div_le_lower_bound; lia).
  destruct (dec_length (num / den) Q1) as (l & -> & LO & HI).
  replace (Z.of_nat (S l) - 1) with (Z.of_nat l) by lia.
  set (x := (IZR num / IZR den)%R). assert (DR : (0 < IZR den)%R) by (apply IZR_lt; lia).
  assert (XL : (10 ^ l <= x)%R).
  { rewrite <- pow10. apply Rle_trans with (IZR (num / den)); [apply IZR_le; lia|].
    unfold x. apply (Rmult_le_reg_r (IZR den)); [exact DR|]. unfold Rdiv. rewrite Rmult_assoc, Rinv_l, Rmult_1_r by lra.
    rewrite <- mult_IZR. apply IZR_le. pose proof (Z.mul_div_le num den HD). lia. }
  assert (XH : (x < 10 ^ S l)%R).
  { rewrite <- pow10. unfold x. apply (Rmult_lt_reg_r (IZR den)); [exact DR|]. unfold Rdiv. rewrite Rmult_assoc, Rinv_l, Rmult_1_r by lra.
    rewrite <- mult_IZR. apply IZR_lt. pose proof (Z.mod_pos_bound num den HD). pose proof (Z.div_mod num den ltac:(lia)). nia. }
  cbv zeta. set (p := Z.of_nat k - Z.of_nat l).
  set (n := if 0 <=? p then round_half_even (num * 10 ^ p) den else round_half_even num (den * 10 ^ (- p))).
  assert (PL := pow10_pos l). assert (PK := pow10_pos k).
  assert (NB : (Rabs (IZR n - x * (10 ^ k / 10 ^ l)) <= / 2)%R).
  { subst n. destruct (Z.leb_spec 0 p) as [P|P].
    - assert (E : (10 ^ k / 10 ^ l)%R = IZR (10 ^ p)).
      { replace k with (Z.to_nat p + l)%nat by lia. rewrite pow_add. replace p with (Z.of_nat (Z.to_nat p)) at 2 by lia.
        rewrite pow10. field. lra. }
      rewrite E. pose proof (round_half_even_spec (num * 10 ^ p) den HD) as R. rewrite mult_IZR in R.
      replace (x * IZR (10 ^ p))%R with (IZR num * IZR (10 ^ p) / IZR den)%R by (unfold x; field; lra). exact R.
    - assert (PP : 0 < 10 ^ (- p)) by (apply Z.pow_pos_nonneg; lia).
      assert (E : (10 ^ k / 10 ^ l)%R = (/ IZR (10 ^ (- p)))%R).
      { replace l with (Z.to_nat (- p) + k)%nat by lia. rewrite pow_add. replace (- p) with (Z.of_nat (Z.to_nat (- p))) at 2 by lia.
        rewrite pow10. pose proof (pow10_pos (Z.to_nat (- p))). field. lra. }
      rewrite E. pose proof (round_half_even_spec num (den * 10 ^ (- p)) ltac:(nia)) as R. rewrite mult_IZR in R.
      assert (0 < IZR (10 ^ (- p)))%R by (apply IZR_lt; lia).
      replace (x * / IZR (10 ^ - p))%R with (IZR num / (IZR den * IZR (10 ^ (- p))))%R by (unfold x; field; lra). exact R. }
  assert (YL : (10 ^ k <= x * (10 ^ k / 10 ^ l))%R).
  { apply (Rmult_le_reg_r (10 ^ l / 10 ^ k)); [apply Rdiv_lt_0_compat; lra|].
    replace (10 ^ k * (10 ^ l / 10 ^ k))%R with (10 ^ l)%R by (field; lra).
    replace (x * (10 ^ k / 10 ^ l) * (10 ^ l / 10 ^ k))%R with x by (field; lra). exact XL. }
  assert (YH : (x * (10 ^ k / 10 ^ l) < 10 * 10 ^ k)%R).
  { apply (Rmult_lt_reg_r (10 ^ l / 10 ^ k)); [apply Rdiv_lt_0_compat; lra|].
    replace (10 * 10 ^ k * (10 ^ l / 10 ^ k))%R with (10 * 10 ^ l)%R by (field; lra).
    replace (x * (10 ^ k / 10 ^ l) * (10 ^ l / 10 ^ k))%R with x by (field; lra). exact XH. }
  apply Rabs_le_inv in NB.
  assert (NL : 10 ^ Z.of_nat k <= n).
  { assert (10 ^ Z.of_nat k - 1 < n); [|lia]. apply lt_IZR. rewrite minus_IZR, pow10. lra. }
  assert (NH : n <= 10 ^ (Z.of_nat k + 1)).
  { assert (n < 10 * 10 ^ Z.of_nat k + 1); [|rewrite Z.pow_add_r by lia; lia]. apply lt_IZR. rewrite plus_IZR, mult_IZR, pow10. lra. }
  assert (V : (Rabs (IZR n / 10 ^ k * 10 ^ l - x) <= / 2 / 10 ^ k * x)%R).
  { replace (IZR n / 10 ^ k * 10 ^ l - x)%R with ((IZR n - x * (10 ^ k / 10 ^ l)) * (10 ^ l / 10 ^ k))%R by (field; lra).
    rewrite Rabs_mult, (Rabs_pos_eq (10 ^ l / 10 ^ k)) by (apply Rlt_le, Rdiv_lt_0_compat; lra).
    apply Rle_trans with (/ 2 * (10 ^ l / 10 ^ k))%R.
    - apply Rmult_le_compat_r; [apply Rlt_le, Rdiv_lt_0_compat; lra|]. apply Rabs_le. lra.
    - replace (/ 2 * (10 ^ l / 10 ^ k))%R with (/ 2 / 10 ^ k * 10 ^ l)%R by (field; lra).
      apply Rmult_le_compat_l; [|exact XL]. apply Rlt_le, Rdiv_lt_0_compat; lra. }
  clearbody n. destruct (Z.eqb_spec n (10 ^ (Z.of_nat k + 1))) as [E|E].
  - split; [lia|]. split; [split; [lia|apply Z.pow_lt_mono_r; lia]|].
    unfold quantity. cbn [fst snd]. rewrite E, Z.pow_add_r, mult_IZR, pow10 in V by lia. change (IZR (10 ^ 1)) with 10%R in V.
    rewrite pow10. replace (Z.of_nat l + 1) with (Z.of_nat (S l)) by lia. rewrite <- pow_powerRZ. cbn [pow].
    replace (10 ^ k / 10 ^ k * (10 * 10 ^ l))%R with (10 ^ k * 10 / 10 ^ k * 10 ^ l)%R by (field; lra). exact V.
  - split; [lia|]. split; [lia|]. unfold quantity. cbn [fst snd]. rewrite <- pow_powerRZ. exact V.
Qed.
(** [{:.ke}] of a float of at least one *)
Lemma exponential_spec prec emax k (x : binary_float prec emax) : is_finite x = true -> (1 <= B2R x)%R ->
  exists n e, exponential k x = (decimals k n ++ "e" ++ dec e)%string /\ 0 <= e /\
    10 ^ Z.of_nat k <= n < 10 ^ (Z.of_nat k + 1) /\
    (Rabs (quantity (n, k) * powerRZ 10 e - B2R x) <= / 2 / 10 ^ k * B2R x)%R.
Proof.
  destruct x as [s|s| |s m e B]; try discriminate; intros _ H; [cbn in H; lra|].
  assert (S : s = false).
  { destruct s; [|reflexivity]. exfalso. unfold B2R in H. cbn [cond_Zopp] in H.
    pose proof (F2R_lt_0 radix2 (Float radix2 (Z.neg m) e) ltac:(cbn; lia)). cbn in H0, H. lra. }
  subst s. cbn [exponential minus append].
  assert (G : forall num den, 0 < den -> B2R (B754_finite false m e B : binary_float prec emax) = (IZR num / IZR den)%R ->
    exists n x, (let '(n, x) := significant k num den in decimals k n ++ "e" ++ dec_signed x)%string = (decimals k n ++ "e" ++ dec x)%string /\ 0 <= x /\
    10 ^ Z.of_nat k <= n < 10 ^ (Z.of_nat k + 1) /\
    (Rabs (quantity (n, k) * powerRZ 10 x - B2R (B754_finite false m e B : binary_float prec emax)) <= / 2 / 10 ^ k * B2R (B754_finite false m e B : binary_float prec emax))%R).
  { intros num den HD E. rewrite E in *. assert (DR : (0 < IZR den)%R) by (apply IZR_lt; lia).
    assert (den <= num).
    { apply le_IZR. apply (Rmult_le_reg_r (/ IZR den)); [apply Rinv_0_lt_compat; exact DR|]. rewrite Rinv_r by lra. exact H. }
    pose proof (significant_spec k num den HD H0) as S. destruct (significant k num den) as [n x]. destruct S as (S1 & S2 & S3).
    exists n, x. split; [|auto]. unfold dec_signed. destruct (Z.ltb_spec x 0); [lia|]. rewrite Z.abs_eq by lia. reflexivity. }
  unfold exponential. destruct (Z.leb_spec 0 e) as [He|He].
  - destruct (G (Z.pos m * 2 ^ e) 1 ltac:(lia)) as (n & x & A & A').
    + unfold B2R, F2R. cbn [Fnum Fexp cond_Zopp]. rewrite mult_IZR, <- (IZR_Zpower radix2) by exact He. change (radix_val radix2) with 2. field.
    + exists n, x. split; [|exact A']. etransitivity; [|exact A]. destruct (significant k (Z.pos m * 2 ^ e) 1); reflexivity.
  - assert (PP : 0 < 2 ^ (- e)) by (apply Z.pow_pos_nonneg; lia).
    destruct (G (Z.pos m) (2 ^ (- e)) PP) as (n & x & A & A').
    + unfold B2R, F2R. cbn [Fnum Fexp cond_Zopp]. replace e with (- (- e)) at 1 by lia. rewrite bpow_opp, <- (IZR_Zpower radix2) by lia. reflexivity.
    + exists n, x. split; [|exact A']. etransitivity; [|exact A]. destruct (significant k (Z.pos m) (2 ^ (- e))); reflexivity.
Qed.
Lemma read_scientific_spec k n e : 0 <= n -> 0 <= e ->
  read_scientific (decimals k n ++ "e" ++ dec e)%string = Some (quantity (n, k) * powerRZ 10 e)%R.
Proof.
  intros HN HE. unfold read_scientific. rewrite (span_app numeric _ ("e" ++ dec e)%string (decimals_numeric k n HN)) by reflexivity.
  cbn [append]. rewrite Ascii.eqb_refl, read_decimals, read_int_dec by assumption. reflexivity.
Qed.
