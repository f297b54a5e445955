(** * Reading a text back: strings that can be split unambiguously. *)
From Coq Require Import ZArith String Ascii List Bool Lia DecimalString DecimalFacts DecimalN.
From Verif Require Import Machine Report CrudMsg.
Import ListNotations.
Open Scope Z_scope.

Fixpoint free_of (c : ascii) (s : string) : bool :=
  match s with EmptyString => true | String a s => negb (Ascii.eqb a c) && free_of c s end.
Lemma str_app_nil s : (s ++ "")%string = s.
Proof. induction s as [|a s IH]; cbn; congruence. Qed.
Lemma str_app_assoc a b c : (a ++ (b ++ c) = (a ++ b) ++ c)%string.
Proof. induction a as [|x a IH]; cbn; congruence. Qed.
Lemma str_app_cancel a x y : (a ++ x = a ++ y)%string -> x = y.
Proof. induction a as [|c a IH]; cbn; [auto|]. intros H. injection H as H. auto. Qed.
Lemma free_app c a b : free_of c (a ++ b)%string = free_of c a && free_of c b.
Proof. induction a as [|x a IH]; cbn; [reflexivity|]. rewrite IH, andb_assoc. reflexivity. Qed.
(** the part before the first [c] can be told *)
Lemma split_char c a b x y : free_of c a = true -> free_of c b = true ->
  (a ++ String c x = b ++ String c y)%string -> a = b /\ x = y.
Proof.
  revert b. induction a as [|u a IH]; intros [|v b] A B E; cbn in *.
  - injection E as E. auto.
  - injection E as Ev _. subst v. rewrite Ascii.eqb_refl in B. discriminate.
  - injection E as Ev _. subst u. rewrite Ascii.eqb_refl in A. discriminate.
  - injection E as -> E. apply andb_prop in A, B. destruct A as [_ A], B as [_ B].
    destruct (IH b A B E) as [-> ->]. auto.
Qed.

(** ** decimal numbers *)
Lemma uint_free d : forall c, (forallb (fun x => negb (Ascii.eqb x c)) ["0"; "1"; "2"; "3"; "4"; "5"; "6"; "7"; "8"; "9"]%char) = true ->
  free_of c (NilEmpty.string_of_uint d) = true.
Proof.
  intros c H. cbn [forallb] in H. repeat rewrite andb_true_iff in H.
  induction d; cbn [NilEmpty.string_of_uint free_of]; auto; apply andb_true_intro; (split; [intuition|exact IHd]).
Qed.
Lemma dec_free n c : (forallb (fun x => negb (Ascii.eqb x c)) ["0"; "1"; "2"; "3"; "4"; "5"; "6"; "7"; "8"; "9"]%char) = true ->
  free_of c (dec n) = true.
Proof.
  intros H. unfold dec. unfold NilZero.string_of_uint.
  destruct (N.to_uint (Z.to_N n)) eqn:E; try (rewrite <- E; apply uint_free; exact H).
  cbn [forallb] in H. cbn [free_of]. apply andb_prop in H. destruct H as [-> _]. reflexivity.
Qed.
Lemma dec_inj m n : 0 <= m -> 0 <= n -> dec m = dec n -> m = n.
Proof.
  intros Hm Hn E. unfold dec in E.
  assert (U : forall k, Decimal.unorm (N.to_uint k) = N.to_uint k).
  { intros k. rewrite <- (Unsigned.of_to k) at 2. rewrite Unsigned.to_of. reflexivity. }
  assert (NN : forall k, N.to_uint k <> Decimal.Nil).
  { intros k C. specialize (U k). rewrite C in U. discriminate. }
  pose proof (NilZero.usu (N.to_uint (Z.to_N m)) (NN _)) as A.
  pose proof (NilZero.usu (N.to_uint (Z.to_N n)) (NN _)) as B.
  rewrite E, B in A. injection A as A.
  apply (f_equal N.of_uint) in A. rewrite !Unsigned.of_to in A. apply Z2N.inj in A; auto.
Qed.
