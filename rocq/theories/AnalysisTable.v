(** * The full decision table of the general analysis, over the reals. *)
From Coq Require Import ZArith Reals Lra Lia Bool List Psatz.
From Flocq Require Import Core.Core.
From Verif Require Import Machine Complexity Floats Analysis GrowthSpec AnalysisR.
Import ListNotations.
Open Scope R_scope.

(** The class immediately below a law's class (the documented "between" classes). *)
Definition below_class (f : law) : complexity :=
  match f with
  | Lconst => BetterThanO1 | Llog => BetweenO1AndOLogN | Ln => BetweenOLogNAndON | Lnlogn => BetweenONAndONLogN
  | Ln2 => BetweenONLogNAndON2 | Ln3 => BetweenON2AndON3 | Ln4 => BetweenON3AndON4
  end.
Lemma below_idx f : discr (below_class f) = (2 * Z.of_nat (idx f))%Z.
Proof. destruct f; reflexivity. Qed.
Lemma clt_idx g f : clt (law_class g) (law_class f) <-> (idx g < idx f)%nat.
Proof. unfold clt. rewrite !idx_class. lia. Qed.

Section T.
Variables (t : tolerance) (u1 u2 n1 n2 : R).
Hypothesis (H1 : 1 < n1) (H2 : 1 < n2).
Let X := u2 / u1. Let T := tolR t.
Let Rf f := law_ratio f n1 n2.
Let rest := last_level t u1 u2 n1 n2.
Let cls := analyseR t u1 u2 n1 n2.
Definition passed (f : law) : Prop := forall g, clt (law_class g) (law_class f) -> (1 + T) * Rf g < X.

Lemma at_law f : passed f -> discr cls =
  if Rlt_bool (X / Rf f) (1 - T) then (2 * Z.of_nat (idx f))%Z
  else if Rle_bool (Rabs (X / Rf f - 1)) T then (2 * Z.of_nat (idx f) + 1)%Z
  else rk t X (skipn (S (idx f)) (divisors n1 n2)) (2 * Z.of_nat (idx f) + 2) rest.
Proof.
  intros P. unfold cls. rewrite analyseR_rk. fold X rest. rewrite (rk_skip t _ _ _ _ (idx f)).
  - replace (0 + 2 * Z.of_nat (idx f))%Z with (2 * Z.of_nat (idx f))%Z by lia.
    assert (S : skipn (idx f) (divisors n1 n2) = Rf f :: skipn (Datatypes.S (idx f)) (divisors n1 n2)).
    { rewrite divisors_eq by exact H1. destruct f; reflexivity. }
    rewrite S. cbn [rk]. reflexivity.
  - intros j d Hj E. destruct (divisors_nth_inv n1 n2 j d H1 E) as (g & Hg & ->). split; [apply ratio_pos; assumption|]. apply P. apply clt_idx. lia.
  - destruct f; cbn; lia.
Qed.
Lemma tail_ge f : (2 * Z.of_nat (idx f) + 2 <= rk t X (skipn (S (idx f)) (divisors n1 n2)) (2 * Z.of_nat (idx f) + 2) rest)%Z.
Proof.
  apply rk_lower. pose proof (last_level_ge t u1 u2 n1 n2). fold rest in H. rewrite skipn_length. cbn [length divisors]. destruct f; cbn [idx] in *; lia.
Qed.
Lemma level_cases f : (Rlt_bool (X / Rf f) (1 - T) = true /\ X < (1 - T) * Rf f) \/
  (Rlt_bool (X / Rf f) (1 - T) = false /\ Rle_bool (Rabs (X / Rf f - 1)) T = true /\ (1 - T) * Rf f <= X <= (1 + T) * Rf f) \/
  (Rlt_bool (X / Rf f) (1 - T) = false /\ Rle_bool (Rabs (X / Rf f - 1)) T = false /\ (1 + T) * Rf f < X).
Proof.
  pose proof (ratio_pos f n1 n2 H1 H2) as P. fold (Rf f) in P. pose proof (tolR_bounds t) as TB. fold T in TB.
  assert (E : X / Rf f * Rf f = X) by (field; lra).
  destruct (Rlt_or_le X ((1 - T) * Rf f)) as [A|A].
  - left. split; [|exact A]. apply Rlt_bool_true. apply Rmult_lt_reg_r with (Rf f); lra.
  - right. destruct (Rle_or_lt X ((1 + T) * Rf f)) as [B|B].
    + left. destruct (level_in t X (Rf f) P (conj A B)) as [L1 L2]. auto.
    + right. destruct (level_gt t X (Rf f) P B) as [L1 L2]. auto.
Qed.
Lemma not_passed f : ~ passed f -> exists g, clt (law_class g) (law_class f) /\ X <= (1 + T) * Rf g.
Proof.
  intros N. assert (D : forall l0 : list law, (forall g, In g l0 -> clt (law_class g) (law_class f) -> (1 + T) * Rf g < X) \/
     exists g, clt (law_class g) (law_class f) /\ X <= (1 + T) * Rf g).
  { induction l0 as [|g l0 [IH|IH]]; [left; intros g []| |right; exact IH].
    destruct (Rlt_or_le ((1 + T) * Rf g) X) as [A|A].
    - left. intros h [<-|Hh] C; [exact A|apply IH; assumption].
    - unfold clt. destruct (Z_lt_le_dec (discr (law_class g)) (discr (law_class f))) as [L|L]; [right; exists g; split; [exact L|exact A]|].
      left. intros h [<-|Hh] C; [lia|apply IH; assumption]. }
  destruct (D [Lconst; Llog; Ln; Lnlogn; Ln2; Ln3; Ln4]) as [A|A]; [|exact A].
  exfalso. apply N. intros g C. apply A; [destruct g; cbn; tauto|exact C].
Qed.
Lemma not_passed_low f : ~ passed f -> (discr cls < 2 * Z.of_nat (idx f))%Z.
Proof.
  intros N. destruct (not_passed f N) as (g & C & L). apply clt_idx in C.
  pose proof (no_false_alarm t g u1 u2 n1 n2 H1 H2 L) as F. unfold cle in F. rewrite idx_class in F. unfold cls. lia.
Qed.

Lemma table_exact f : cls = law_class f <-> passed f /\ (1 - T) * Rf f <= X <= (1 + T) * Rf f.
Proof.
  split.
  - intros E. assert (P : ~ ~ passed f). { intros N. apply not_passed_low in N. rewrite E, idx_class in N. lia. }
    assert (P' : passed f). { intros g C. destruct (Rlt_or_le ((1 + T) * Rf g) X) as [A|A]; [exact A|]. exfalso. apply P. intros Q. specialize (Q g C). lra. }
    split; [exact P'|]. pose proof (at_law f P') as D. rewrite E, idx_class in D.
    destruct (level_cases f) as [[L1 L]|[[L1 [L2 L]]|[L1 [L2 L]]]]; [|exact L|]; exfalso; rewrite L1 in D.
    + lia.
    + rewrite L2 in D. pose proof (tail_ge f). lia.
  - intros [P W]. apply discr_inj. rewrite (at_law f P), idx_class.
    destruct (level_cases f) as [[L1 L]|[[L1 [L2 L]]|[L1 [L2 L]]]]; [lra|rewrite L1, L2; reflexivity|lra].
Qed.
Lemma table_below f : cls = below_class f <-> passed f /\ X < (1 - T) * Rf f.
Proof.
  split.
  - intros E. assert (P : ~ ~ passed f). { intros N. apply not_passed_low in N. rewrite E, below_idx in N. lia. }
    assert (P' : passed f). { intros g C. destruct (Rlt_or_le ((1 + T) * Rf g) X) as [A|A]; [exact A|]. exfalso. apply P. intros Q. specialize (Q g C). lra. }
    split; [exact P'|]. pose proof (at_law f P') as D. rewrite E, below_idx in D.
    destruct (level_cases f) as [[L1 L]|[[L1 [L2 L]]|[L1 [L2 L]]]]; [exact L| |]; exfalso; rewrite L1, L2 in D.
    + lia.
    + pose proof (tail_ge f). lia.
  - intros [P W]. apply discr_inj. rewrite (at_law f P), below_idx. pose proof (ratio_pos f n1 n2 H1 H2) as Pf. fold (Rf f) in Pf. pose proof (tolR_bounds t) as TB. fold T in TB.
    destruct (level_cases f) as [[L1 L]|[[L1 [L2 L]]|[L1 [L2 L]]]]; [rewrite L1; reflexivity|lra|nra].
Qed.
Lemma table_rest : (forall f, (1 + T) * Rf f < X) -> discr cls = rest.
Proof.
  intros P. unfold cls. rewrite analyseR_rk. fold X rest. rewrite (rk_skip t _ _ _ _ 7).
  - reflexivity.
  - intros j d Hj E. destruct (divisors_nth_inv n1 n2 j d H1 E) as (g & Hg & ->). split; [apply ratio_pos; assumption|]. apply P.
  - cbn; lia.
Qed.
Lemma table_beyond : clt ON4 cls <-> forall f, (1 + T) * Rf f < X.
Proof.
  split.
  - intros C f. destruct (Rlt_or_le ((1 + T) * Rf f) X) as [A|A]; [exact A|]. exfalso.
    pose proof (no_false_alarm t f u1 u2 n1 n2 H1 H2 A) as F. unfold cle, clt, cls in *. rewrite idx_class in F. cbn [discr] in C. destruct f; cbn in F; lia.
  - intros P. unfold clt. rewrite table_rest by exact P. pose proof (last_level_ge t u1 u2 n1 n2). fold rest in H. cbn [discr]. lia.
Qed.
Lemma table_exponential : clt ON4 cls -> let E := u2 / Rpower u1 (n2 / n1) in
  (cls = BetweenON4AndOkN <-> E < 1 - T) /\ (cls = OkN <-> 1 - T <= E <= 1 + T) /\ (cls = WorseThanExponential <-> 1 + T < E).
Proof.
  intros C E. pose proof (table_rest (proj1 table_beyond C)) as D. unfold rest, last_level in D. cbv zeta in D. fold E T in D.
  pose proof (tolR_bounds t) as TB. fold T in TB.
  assert (K : (E < 1 - T /\ discr cls = 14%Z) \/ (1 - T <= E <= 1 + T /\ discr cls = 15%Z) \/ (1 + T < E /\ discr cls = 16%Z)).
  { destruct (Rlt_or_le E (1 - T)) as [A|A]; [rewrite Rlt_bool_true in D by exact A; auto|]. rewrite Rlt_bool_false in D by exact A. right.
    destruct (Rle_or_lt E (1 + T)) as [B|B]; [rewrite Rle_bool_true in D by (apply Rabs_le; lra); left; auto|].
    rewrite Rle_bool_false in D by (rewrite Rabs_pos_eq; lra). right; auto. }
  assert (W : forall c, cls = c <-> discr cls = discr c) by (intros c; split; [intros ->; reflexivity|apply discr_inj]).
  rewrite !W. cbn [discr]. destruct K as [[A ->]|[[A ->]|[A ->]]]; repeat split; intros; try lia; try lra.
Qed.
End T.
