(** * Specification of the reference growth laws (independent of the model). *)
From Coq Require Import Reals List.
From Verif Require Import Complexity.
Import ListNotations.
Open Scope R_scope.

(** The growth laws the crate can recognise, and what they mean. The base of the
    logarithm is irrelevant: only quotients of values are ever compared. *)
Inductive law := Lconst | Llog | Ln | Lnlogn | Ln2 | Ln3 | Ln4.

Definition law_fun (f : law) (n : R) : R :=
  match f with
  | Lconst => 1
  | Llog => ln n
  | Ln => n
  | Lnlogn => n * ln n
  | Ln2 => n ^ 2
  | Ln3 => n ^ 3
  | Ln4 => n ^ 4
  end.

(** The class whose documented meaning is "the cost is c * f(n)". *)
Definition law_class (f : law) : complexity :=
  match f with
  | Lconst => O1 | Llog => OLogN | Ln => ON | Lnlogn => ONLogN
  | Ln2 => ON2 | Ln3 => ON3 | Ln4 => ON4
  end.

(** By how much a cost following [f] grows when n goes from [n1] to [n2]. *)
Definition law_ratio (f : law) (n1 n2 : R) : R := law_fun f n2 / law_fun f n1.

(** Total cost of [count] consecutive operations when the operation performed on
    a set of [i] elements costs [cost i]. *)
Fixpoint total_cost (cost : nat -> R) (from count : nat) : R :=
  match count with
  | O => 0
  | S k => cost from + total_cost cost (S from) k
  end.
