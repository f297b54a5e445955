(** * The complexity classes, their order and their labels.
    Models /repo/src/low_level_analysis/types/types.rs:12-31 and types_impl.rs:9-48. *)
From Coq Require Import List ZArith Lia Bool String.
Import ListNotations.
Open Scope Z_scope.

(** types.rs:13-31 [pub enum BigOAlgorithmComplexity], same order. *)
Inductive complexity :=
| BetterThanO1
| O1
| BetweenO1AndOLogN
| OLogN
| BetweenOLogNAndON
| ON
| BetweenONAndONLogN
| ONLogN
| BetweenONLogNAndON2
| ON2
| BetweenON2AndON3
| ON3
| BetweenON3AndON4
| ON4
| BetweenON4AndOkN
| OkN
| WorseThanExponential.

(** [c as u32]: a field-less enum without explicit discriminants casts to its
    position in the declaration (types.rs:13-31). The cast is what the runners
    compare (standard.rs:108,112; crud.rs:362,371; regular_async_builder.rs:177,186). *)
Definition discr (c : complexity) : Z :=
  match c with
  | BetterThanO1 => 0
  | O1 => 1
  | BetweenO1AndOLogN => 2
  | OLogN => 3
  | BetweenOLogNAndON => 4
  | ON => 5
  | BetweenONAndONLogN => 6
  | ONLogN => 7
  | BetweenONLogNAndON2 => 8
  | ON2 => 9
  | BetweenON2AndON3 => 10
  | ON3 => 11
  | BetweenON3AndON4 => 12
  | ON4 => 13
  | BetweenON4AndOkN => 14
  | OkN => 15
  | WorseThanExponential => 16
  end.

(** vocabulary (no code of /repo); "at most as bad as" *)
Definition cle (a b : complexity) : Prop := discr a <= discr b.
(** vocabulary (no code of /repo) *)
Definition clt (a b : complexity) : Prop := discr a < discr b.
(** standard.rs:108,112; crud.rs:362,371; regular_async_builder.rs:177,186; [observed as u32 > expected as u32] *)
Definition worse_than (observed expected : complexity) : bool := discr expected <? discr observed.

(** bookkeeping (no code of /repo) *)
Definition complexity_eq_dec (a b : complexity) : {a = b} + {a <> b}.
Proof. decide equality. Defined.

(** types_impl.rs:11-31 [as_pretty_str] *)
Definition as_pretty_str (c : complexity) : string :=
  match c with
  | BetterThanO1 => "Better than O(1)"
  | O1 => "O(1)"
  | BetweenO1AndOLogN => "Worse than O(1), but better than O(log(n))"
  | OLogN => "O(log(n))"
  | BetweenOLogNAndON => "Worse than O(log(n)), but better than O(n)"
  | ON => "O(n)"
  | BetweenONAndONLogN => "Worse than O(n), but better than O(n.log(n))"
  | ONLogN => "O(n.log(n))"
  | BetweenONLogNAndON2 => "Worse than O(n.log(n)), but better than O(n²)"
  | ON2 => "O(n²)"
  | BetweenON2AndON3 => "Worse than O(n²), but better than O(n³)"
  | ON3 => "O(n³)"
  | BetweenON3AndON4 => "Worse than O(n³), but better than O(n⁴)"
  | ON4 => "O(n⁴)"
  | BetweenON4AndOkN => "Worse than O(n⁴), but better than O(kⁿ)"
  | OkN => "O(kⁿ)"
  | WorseThanExponential => "Worse than O(kⁿ)"
  end%string.

(** types_impl.rs:33-39 [as_time_pretty_str] *)
Definition as_time_pretty_str (c : complexity) : string :=
  match c with
  | BetterThanO1 => "Better than O(1) -- aren't the machines idle? too many threads? too little RAM?"
  | WorseThanExponential => "Worse than Exponential!! -- worse than O(kⁿ) -- really, really bad algorithm, too short execution times or is there a hidden bug?"
  | _ => as_pretty_str c
  end%string.

(** types_impl.rs:41-47 [as_space_pretty_str] *)
Definition as_space_pretty_str (c : complexity) : string :=
  match c with
  | BetterThanO1 => "Better than O(1) -- are initialization allocations involved? Consider using a warm up pass"
  | WorseThanExponential => "Worse than Exponential!! -- worse than O(kⁿ) -- really, really bad algorithm or is there a hidden bug?"
  | _ => as_pretty_str c
  end%string.

(** ** Specification of the order: the classes from best to worst. *)
(** specification (no code of /repo) *)
Definition best_to_worst : list complexity :=
  [ BetterThanO1; O1; BetweenO1AndOLogN; OLogN; BetweenOLogNAndON; ON;
    BetweenONAndONLogN; ONLogN; BetweenONLogNAndON2; ON2; BetweenON2AndON3; ON3;
    BetweenON3AndON4; ON4; BetweenON4AndOkN; OkN; WorseThanExponential ].

Lemma best_to_worst_all c : In c best_to_worst.
Proof. destruct c; simpl; tauto. Qed.

Lemma discr_inj a b : discr a = discr b -> a = b.
Proof. destruct a; destruct b; simpl; intros H; congruence. Qed.

Lemma discr_position i c :
  nth_error best_to_worst i = Some c <-> discr c = Z.of_nat i.
Proof.
  split.
  - intros H.
    do 17 (destruct i as [|i]; [simpl in H; injection H as <-; reflexivity|]).
    simpl in H. destruct i; discriminate.
  - intros H. assert (Hi : i = Z.to_nat (discr c)) by lia. subst i.
    destruct c; reflexivity.
Qed.

Lemma discr_bounds c : 0 <= discr c <= 16.
Proof. destruct c; simpl; lia. Qed.

Lemma pretty_inj a b : as_pretty_str a = as_pretty_str b -> a = b.
Proof. destruct a; destruct b; intros H; try reflexivity; discriminate H. Qed.
Lemma time_pretty_inj a b : as_time_pretty_str a = as_time_pretty_str b -> a = b.
Proof. destruct a; destruct b; intros H; try reflexivity; discriminate H. Qed.
Lemma space_pretty_inj a b : as_space_pretty_str a = as_space_pretty_str b -> a = b.
Proof. destruct a; destruct b; intros H; try reflexivity; discriminate H. Qed.

Lemma worse_than_spec o e : worse_than o e = true <-> clt e o.
Proof. unfold worse_than, clt; rewrite Z.ltb_lt; tauto. Qed.
Lemma not_worse_than_spec o e : worse_than o e = false <-> cle o e.
Proof. unfold worse_than, cle; rewrite Z.ltb_ge; tauto. Qed.

Lemma cle_refl a : cle a a. Proof. unfold cle; lia. Qed.
Lemma cle_trans a b c : cle a b -> cle b c -> cle a c. Proof. unfold cle; lia. Qed.
