(** * C90: the text of allocator statistics shows every one of them, unambiguously. *)
From Coq Require Import ZArith String Ascii List Bool Lia.
From Verif Require Import Machine Alloc AllocSpec Report CrudMsg TextProofs StatsText.
Import ListNotations.
Open Scope string_scope.

(** ** Specification *)
(** the number a reader finds after [label] in [text]: the first place where [label] occurs *)
Fixpoint after (label text : string) : option string :=
  if String.prefix label text then Some (substring (String.length label) (String.length text - String.length label) text)
  else match text with EmptyString => None | String _ t => after label t end.
Fixpoint leading_digits (s : string) : string :=
  match s with
  | String c t => if Nat.leb 48 (nat_of_ascii c) && Nat.leb (nat_of_ascii c) 57 then String c (leading_digits t) else EmptyString
  | EmptyString => EmptyString
  end.
Definition number_after (label text : string) : option string := option_map leading_digits (after label text).

(** ** Proofs *)
Lemma digit_c d : forall t, leading_digits (DecimalString.NilEmpty.string_of_uint d ++ t) = (DecimalString.NilEmpty.string_of_uint d ++ leading_digits t).
Proof. induction d; intros t; cbn [DecimalString.NilEmpty.string_of_uint append leading_digits]; try reflexivity; cbn [nat_of_ascii N_of_ascii]; rewrite <- IHd; reflexivity. Qed.
Lemma dec_digits n t : leading_digits (dec n ++ t) = (dec n ++ leading_digits t).
Proof.
  unfold dec, DecimalString.NilZero.string_of_uint. destruct (N.to_uint (Z.to_N n)) eqn:E; try reflexivity; rewrite <- E; apply digit_c.
Qed.
Lemma sub0 : forall s, substring 0 (String.length s) s = s.
Proof. induction s as [|c s IH]; cbn; [reflexivity|rewrite IH; reflexivity]. Qed.
Lemma after_here label t : after label (label ++ t) = Some t.
Proof.
  assert (P : forall l, String.prefix l (l ++ t) = true).
  { induction l as [|c l IH]; [destruct t; reflexivity|]. cbn. destruct (ascii_dec c c); [exact IH|contradiction]. }
  assert (S : forall l, substring (String.length l) (String.length (l ++ t) - String.length l) (l ++ t) = t).
  { induction l as [|c l IH]; [cbn [String.length append]; rewrite Nat.sub_0_r; apply sub0|]. cbn [String.length append substring Nat.sub]. exact IH. }
  destruct (label ++ t) eqn:E.
  - cbn [after]. rewrite <- E, P, S. reflexivity.
  - cbn [after]. rewrite <- E, P, S. reflexivity.
Qed.
(** a number never contains the first character of a label *)
Definition is_digit (c : ascii) : bool := Nat.leb 48 (nat_of_ascii c) && Nat.leb (nat_of_ascii c) 57.
Lemma after_skip_uint c l d : is_digit c = false -> forall t, after (String c l) (DecimalString.NilEmpty.string_of_uint d ++ t) = after (String c l) t.
Proof.
  intros H. induction d; intros t; cbn [DecimalString.NilEmpty.string_of_uint append]; [reflexivity|..];
    (cbn [after String.prefix]; match goal with |- context [ascii_dec c ?x] => destruct (ascii_dec c x) as [->|_]; [discriminate H|] end; apply IHd).
Qed.
Lemma after_skip c l n t : is_digit c = false -> after (String c l) (dec n ++ t) = after (String c l) t.
Proof.
  intros H. unfold dec, DecimalString.NilZero.string_of_uint. destruct (N.to_uint (Z.to_N n)) eqn:E; try (rewrite <- E; apply after_skip_uint; exact H).
  cbn [append after String.prefix]. destruct (ascii_dec c "0") as [->|_]; [discriminate H|reflexivity].
Qed.
Lemma after_char c l x t : String.prefix (String c l) (String x t) = false -> after (String c l) (String x t) = after (String c l) t.
Proof. intros H. cbn [after]. rewrite H. reflexivity. Qed.
Lemma number_is n (t : string) : match t with String c _ => is_digit c | EmptyString => false end = false ->
  leading_digits (dec n ++ t) = dec n.
Proof.
  intros H. rewrite dec_digits. destruct t as [|c t]; [apply str_app_nil|]. cbn [leading_digits]. unfold is_digit in H. rewrite H. apply str_app_nil.
Qed.
Ltac find_label :=
  unfold number_after;
  repeat first [ rewrite after_skip by reflexivity
               | rewrite after_char by reflexivity ];
  match goal with |- option_map leading_digits (after ?l ?t) = Some ?d =>
    let E := fresh in assert (E : exists r, after l t = Some r /\ leading_digits r = d);
      [eexists; split; [exact (after_here l _)|apply number_is; reflexivity]|destruct E as (? & -> & E); cbn [option_map]; rewrite E; reflexivity] end.

(** ** C90: whoever looks for a statistic by its name finds its value *)
Theorem C90_every_statistic_is_shown : forall s,
  let t := display_usize s in
  number_after "allocations: " t = Some (dec (allocations_count s)) /\
  number_after "deallocations: " t = Some (dec (deallocations_count s)) /\
  number_after "zeroed_allocations: " t = Some (dec (zeroed_allocations_count s)) /\
  number_after "reallocations: " t = Some (dec (reallocations_count s)) /\
  number_after "allocated: " t = Some (dec (allocated_bytes s)) /\
  number_after "deallocated: " t = Some (dec (deallocated_bytes s)) /\
  number_after "zeroed: " t = Some (dec (zeroed_allocated_bytes s)) /\
  number_after "originals: " t = Some (dec (reallocated_originals_bytes s)) /\
  number_after "news: " t = Some (dec (reallocated_news_bytes s)) /\
  number_after "current_used_memory: " t = Some (dec (current_used s)) /\
  number_after "min_used_memory: " t = Some (dec (min_used s)) /\
  number_after "max_used_memory: " t = Some (dec (max_used s)) /\
  debug_usize s = t /\ display_atomic s = t /\ debug_atomic s = t.
Proof.
  intros s t. subst t. unfold debug_usize, display_atomic, debug_atomic, display_atomic, display_usize, statistics_fmt, statistics_format.
  cbn [render append allocations_count deallocations_count zeroed_allocations_count reallocations_count allocated_bytes deallocated_bytes zeroed_allocated_bytes reallocated_originals_bytes reallocated_news_bytes current_used min_used max_used].
  repeat match goal with |- _ /\ _ => split end; try reflexivity; find_label.
Qed.
Print Assumptions C90_every_statistic_is_shown.

Definition fields_of (s : stats) : list Z :=
  [ allocations_count s; deallocations_count s; zeroed_allocations_count s; reallocations_count s;
    allocated_bytes s; deallocated_bytes s; zeroed_allocated_bytes s; reallocated_originals_bytes s; reallocated_news_bytes s;
    current_used s; min_used s; max_used s ].
(** Statistics with the same text are the same. *)
Theorem C90_text_unambiguous : forall s s',
  Forall (fun n => 0 <= n)%Z (fields_of s) -> Forall (fun n => 0 <= n)%Z (fields_of s') ->
  display_usize s = display_usize s' -> s = s'.
Proof.
  intros s s' P P' E. pose proof (C90_every_statistic_is_shown s) as A. pose proof (C90_every_statistic_is_shown s') as B. cbv zeta in A, B.
  rewrite E in A. clear E.
  assert (D : forall t l n n', number_after l t = Some (dec n) -> number_after l t = Some (dec n') -> (0 <= n -> 0 <= n' -> n = n')%Z).
  { intros t l n n' X Y. rewrite X in Y. apply (f_equal (fun o => match o with Some z => z | None => EmptyString end)) in Y. intros. apply dec_inj; assumption. }
  unfold fields_of in *.
  repeat match goal with H : Forall _ (_ :: _) |- _ => inversion_clear H end.
  destruct A as (A1 & A2 & A3 & A4 & A5 & A6 & A7 & A8 & A9 & A10 & A11 & A12 & _).
  destruct B as (B1 & B2 & B3 & B4 & B5 & B6 & B7 & B8 & B9 & B10 & B11 & B12 & _).
  pose proof (D _ _ _ _ A1 B1 ltac:(assumption) ltac:(assumption)) as E1. pose proof (D _ _ _ _ A2 B2 ltac:(assumption) ltac:(assumption)) as E2.
  pose proof (D _ _ _ _ A3 B3 ltac:(assumption) ltac:(assumption)) as E3. pose proof (D _ _ _ _ A4 B4 ltac:(assumption) ltac:(assumption)) as E4.
  pose proof (D _ _ _ _ A5 B5 ltac:(assumption) ltac:(assumption)) as E5. pose proof (D _ _ _ _ A6 B6 ltac:(assumption) ltac:(assumption)) as E6.
  pose proof (D _ _ _ _ A7 B7 ltac:(assumption) ltac:(assumption)) as E7. pose proof (D _ _ _ _ A8 B8 ltac:(assumption) ltac:(assumption)) as E8.
  pose proof (D _ _ _ _ A9 B9 ltac:(assumption) ltac:(assumption)) as E9. pose proof (D _ _ _ _ A10 B10 ltac:(assumption) ltac:(assumption)) as E10.
  pose proof (D _ _ _ _ A11 B11 ltac:(assumption) ltac:(assumption)) as E11. pose proof (D _ _ _ _ A12 B12 ltac:(assumption) ltac:(assumption)) as E12.
  destruct s, s'. cbn in E1, E2, E3, E4, E5, E6, E7, E8, E9, E10, E11, E12. subst. reflexivity.
Qed.
Print Assumptions C90_text_unambiguous.

Example C90_example :
  display_usize (Stats 3 1 0 2 40 8 0 16 32 48 0 64) =
  "{counts: {allocations: 3, deallocations: 1, zeroed_allocations: 0, reallocations: 2}, bytes: {allocated: 40, deallocated: 8, zeroed: 0, reallocated: {originals: 16, news: 32}}, current_used_memory: 48, min_used_memory: 0, max_used_memory: 64}" /\
  number_after "reallocations: " (display_usize (Stats 3 1 0 2 40 8 0 16 32 48 0 64)) = Some "2".
Proof. split; reflexivity. Qed.
