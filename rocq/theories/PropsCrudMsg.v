(** * C89: what the panic messages of test_crud_algorithms say. *)
From Coq Require Import ZArith String Ascii List Bool Lia Sorted Permutation.
From Verif Require Import Machine Complexity Report Analysis IterPass Crud CrudSpec CrudRetry PropsCrud CrudLawsSpec PropsCrudLaws CrudLawsDemo Bridge4 CrudMsg TextProofs.
Import ListNotations.
Open Scope Z_scope.

(** ** Specification *)
(** how many of [errs] were failures of operation [op] with complexity [c] *)
Definition occurrences (op : operation) (c : complexity) (errs : list crud_error) : Z :=
  Z.of_nat (length (filter (fun e => operation_eqb (ce_operation e) op && if complexity_eq_dec (ce_complexity e) c then true else false) errs)).
(** the words for operations and complexities: the names of the variants *)
Definition operation_words : list (operation * string) := [(Create, "Create"); (Read, "Read"); (Update, "Update"); (Delete, "Delete")]%string.
Definition complexity_words : list (complexity * string) :=
  [(BetterThanO1, "BetterThanO1"); (O1, "O1"); (BetweenO1AndOLogN, "BetweenO1AndOLogN"); (OLogN, "OLogN"); (BetweenOLogNAndON, "BetweenOLogNAndON"); (ON, "ON"); (BetweenONAndONLogN, "BetweenONAndONLogN"); (ONLogN, "ONLogN"); (BetweenONLogNAndON2, "BetweenONLogNAndON2"); (ON2, "ON2"); (BetweenON2AndON3, "BetweenON2AndON3"); (ON3, "ON3"); (BetweenON3AndON4, "BetweenON3AndON4"); (ON4, "ON4"); (BetweenON4AndOkN, "BetweenON4AndOkN"); (OkN, "OkN"); (WorseThanExponential, "WorseThanExponential")]%string.
Definition operation_word (op : operation) : string :=
  match find (fun x => operation_eqb (fst x) op) operation_words with Some x => snd x | None => "?"%string end.
Definition complexity_word (c : complexity) : string :=
  match find (fun x => if complexity_eq_dec (fst x) c then true else false) complexity_words with Some x => snd x | None => "?"%string end.
(** one line of the summary *)
Record summary_line := SummaryLine { sl_op : operation; sl_complexity : complexity; sl_times : Z }.
Definition summary_key (x : summary_line) : string := (operation_word (sl_op x) ++ " with " ++ complexity_word (sl_complexity x))%string.
Definition summary_text (x : summary_line) : string :=
  (" - " ++ operation_word (sl_op x) ++ " with " ++ complexity_word (sl_complexity x) ++ " (" ++
   dec (sl_times x) ++ (if (sl_times x =? 1)%Z then " time)" else " times)") ++ newline)%string.
(** the summary of [errs]: every kind of failure that happened, once, with the number of
    times it happened, in descending alphabetical order *)
Definition summarises (errs : list crud_error) (ls : list summary_line) : Prop :=
  (forall op c n, In (SummaryLine op c n) ls <-> n = occurrences op c errs /\ 0 < n) /\
  StronglySorted (fun x y => String.compare (summary_key y) (summary_key x) = Lt) ls /\
  fold_right Z.add 0 (map sl_times ls) = Z.of_nat (length errs).
(** the text of an assertion failure *)
Definition assertion_text (op : operation) (w : what) (max observed : complexity) : string :=
  ("CRUD complexity analysis assertion failed: '" ++ operation_word op ++ "' algorithm was expected to match a maximum " ++
   (match w with Time => "TIME" | Space => "SPACE" end) ++ " complexity of '" ++ complexity_word max ++ "', but '" ++ complexity_word observed ++ "' was measured")%string.

(** the model's names are these words *)
Lemma operation_word_name op : operation_word op = operation_name op.
Proof. destruct op; reflexivity. Qed.
Lemma complexity_word_name c : complexity_word c = debug_name c.
Proof. destruct c; reflexivity. Qed.

(** ** The order of strings *)
Lemma scmp_refl s : String.compare s s = Eq.
Proof. induction s as [|a s IH]; cbn; [reflexivity|]. unfold Ascii.compare. rewrite N.compare_refl. exact IH. Qed.
Lemma acmp_eq a b : Ascii.compare a b = Eq -> a = b.
Proof. apply Ascii.compare_eq_iff. Qed.
Lemma scmp_trans a : forall b c, String.compare a b = Lt -> String.compare b c = Lt -> String.compare a c = Lt.
Proof.
  induction a as [|x a IH]; intros [|y b] [|z c] A B; cbn in *; try discriminate; auto.
  destruct (Ascii.compare x y) eqn:E1; try discriminate; destruct (Ascii.compare y z) eqn:E2; try discriminate.
  - apply acmp_eq in E1, E2. subst. unfold Ascii.compare. rewrite N.compare_refl. eauto.
  - apply acmp_eq in E1. subst. rewrite E2. reflexivity.
  - apply acmp_eq in E2. subst. rewrite E1. reflexivity.
  - unfold Ascii.compare in *. apply N.compare_lt_iff in E1, E2.
    rewrite (proj2 (N.compare_lt_iff _ _) (N.lt_trans _ _ _ E1 E2)). reflexivity.
Qed.
Lemma scmp_gt a b : String.compare a b = Gt -> String.compare b a = Lt.
Proof. intros H. rewrite String.compare_antisym, H. reflexivity. Qed.

(** ** The map of counts *)
Definition ascending (m : counts) : Prop := StronglySorted (fun x y => String.compare (fst x) (fst y) = Lt) m.
Definition total (m : counts) : Z := fold_right Z.add 0 (map snd m).
Definition keyed (k : string) (errs : list crud_error) : Z :=
  Z.of_nat (length (filter (fun e => String.eqb (error_key e) k) errs)).

Lemma bump_spec b key m : ascending m -> (forall k n, In (k, n) m -> 0 < n) -> total m + 1 < two32 ->
  exists m', bump b key m = Val m' /\ ascending m' /\ total m' = total m + 1 /\
    (forall k n, In (k, n) m' <->
       (k <> key /\ In (k, n) m) \/ (k = key /\ ((exists n0, In (k, n0) m /\ n = n0 + 1) \/ ((forall n0, ~ In (k, n0) m) /\ n = 1)))).
Proof.
  induction m as [|[k0 n0] m IH]; intros A P T; cbn [bump].
  - exists [(key, 1)]. split; [reflexivity|]. split; [repeat constructor|]. split; [reflexivity|].
    intros k n. cbn [In]. split.
    + intros [E|[]]. injection E as <- <-. right. split; [reflexivity|]. right. split; [intros ? []|reflexivity].
    + intros [[_ []]|[-> [(? & [] & _)|[_ ->]]]]. left. reflexivity.
  - inversion A as [|? ? A1 A2]; subst. rewrite Forall_forall in A2.
    assert (P0 : 0 < n0) by (apply (P k0); left; reflexivity).
    assert (Pm : 0 <= total m).
    { assert (PP : forall k n, In (k, n) m -> 0 < n) by (intros k n H; apply (P k); right; exact H).
      clear - PP. induction m as [|[k n] m IH]; cbn; [lia|]. assert (0 < n) by (apply (PP k); left; reflexivity).
      assert (0 <= total m) by (apply IH; intros ? ? H'; eapply PP; right; exact H'). unfold total in *. lia. }
    assert (TT : total ((k0, n0) :: m) = n0 + total m) by reflexivity. rewrite TT in T.
    destruct (String.compare key k0) eqn:E.
    + apply String.compare_eq_iff in E. subst k0.
      unfold u32_add. rewrite (checked_in b two32 (n0 + 1)) by lia. cbn [bind].
      eexists. split; [reflexivity|]. split.
      { constructor; [exact A1|]. rewrite Forall_forall. exact A2. }
      split; [unfold total; cbn [map fold_right snd]; lia|].
      intros k n. cbn [In]. split.
      * intros [X|X].
        -- injection X as <- <-. right. split; [reflexivity|]. left. exists n0. auto.
        -- left. specialize (A2 _ X). cbn in A2. split; [|auto]. intros ->. rewrite scmp_refl in A2. discriminate.
      * intros [[N [X|X]]|[-> [(n1 & [X|X] & ->)|[X ->]]]].
        -- congruence.
        -- auto.
        -- injection X as <-. auto.
        -- specialize (A2 _ X). cbn in A2. rewrite scmp_refl in A2. discriminate.
        -- exfalso. apply (X n0). auto.
    + eexists. split; [reflexivity|]. split.
      { constructor; [exact A|]. constructor; [exact E|]. rewrite Forall_forall. intros x X. specialize (A2 x X). cbn in *. eapply scmp_trans; eauto. }
      split; [unfold total; cbn [map fold_right snd]; lia|].
      assert (NK : forall n, ~ In (key, n) ((k0, n0) :: m)).
      { intros n [X|X]; [injection X as -> _; rewrite scmp_refl in E; discriminate|].
        specialize (A2 _ X). cbn in A2. pose proof (scmp_trans _ _ _ E A2) as Q. rewrite scmp_refl in Q. discriminate. }
      intros k n. cbn [In]. split.
      * intros [X|X]; [injection X as <- <-; right; split; [reflexivity|]; right; split; [exact NK|reflexivity]|].
        left. split; [|exact X]. intros ->. exact (NK _ X).
      * intros [[N X]|[-> [(n1 & X & ->)|[X ->]]]]; [auto|exfalso; exact (NK _ X)|auto].
    + destruct (IH A1) as (m' & -> & B1 & B2 & B3).
      { intros k n X. apply (P k). right. exact X. }
      { lia. }
      cbn [bind]. eexists. split; [reflexivity|].
      assert (NE : k0 <> key) by (intros ->; rewrite scmp_refl in E; discriminate).
      split.
      { constructor; [exact B1|]. rewrite Forall_forall. intros [k n] X. apply B3 in X. cbn.
        destruct X as [[_ X]|[-> [(n1 & X & ->)|[_ ->]]]]; [exact (A2 _ X)|exact (A2 _ X)|apply scmp_gt; exact E]. }
      split; [unfold total in *; cbn [map fold_right snd] in *; lia|].
      intros k n. cbn [In]. rewrite B3. split.
      * intros [X|[[N X]|[-> [(n1 & X & ->)|[X ->]]]]].
        -- injection X as <- <-. left. auto.
        -- left. auto.
        -- right. split; [reflexivity|]. left. exists n1. auto.
        -- right. split; [reflexivity|]. right. split; [|reflexivity]. intros n1 [Y|Y]; [congruence|exact (X _ Y)].
      * intros [[N [X|X]]|[-> [(n1 & [X|X] & ->)|[X ->]]]].
        -- auto.
        -- right. left. auto.
        -- congruence.
        -- right. right. split; [reflexivity|]. left. exists n1. auto.
        -- right. right. split; [reflexivity|]. right. split; [|reflexivity]. intros n1 Y. apply (X n1). auto.
Qed.

Lemma counts_spec b errs : Z.of_nat (length errs) < two32 ->
  exists m, unique_failed_operations_count b errs = Val m /\ ascending m /\ total m = Z.of_nat (length errs) /\
    forall k n, In (k, n) m <-> n = keyed k errs /\ 0 < n.
Proof.
  induction errs as [|e errs IH]; intros L.
  - exists []. split; [reflexivity|]. split; [constructor|]. split; [reflexivity|]. intros k n. cbn. split; [intros []|]. unfold keyed. cbn. lia.
  - cbn [length] in L. destruct IH as (m & E & A & T & S); [lia|].
    destruct (bump_spec b (error_key e) m A) as (m' & E' & A' & T' & S').
    { intros k n X. apply S in X. tauto. }
    { lia. }
    exists m'. split; [unfold unique_failed_operations_count in *; cbn [fold_right]; rewrite E; exact E'|].
    split; [exact A'|]. split; [rewrite T'; cbn [length]; lia|].
    intros k n. rewrite S'. unfold keyed. cbn [filter].
    destruct (String.eqb_spec (error_key e) k) as [Ek|Nk].
    + cbn [length]. fold (keyed k errs). split.
      * intros [[N _]|[_ [(n0 & X & ->)|[X ->]]]]; [congruence| |].
        -- apply S in X. destruct X as [-> X]. unfold keyed. lia.
        -- assert (Z0 : keyed k errs <= 0).
           { destruct (Z.leb_spec (keyed k errs) 0); [assumption|]. exfalso. apply (X (keyed k errs)). apply S. auto. }
           unfold keyed in *. lia.
      * intros [-> _]. right. split; [congruence|].
        destruct (Z.eqb_spec (keyed k errs) 0) as [Z0|Z0].
        -- right. split; [|unfold keyed in *; lia]. intros n0 X. apply S in X. lia.
        -- left. exists (keyed k errs). split; [apply S; split; [reflexivity|unfold keyed in *; lia]|unfold keyed; lia].
    + fold (keyed k errs). rewrite S. split; [intros [[_ X]|[X _]]; [exact X|congruence]|]. intros X. left. split; [congruence|exact X].
Qed.

(** ** From keys to operations and complexities *)
Lemma op_name_free op : free_of " " (operation_name op) = true.
Proof. destruct op; reflexivity. Qed.
Lemma op_name_inj a b : operation_name a = operation_name b -> a = b.
Proof. destruct a, b; intros H; try reflexivity; discriminate. Qed.
Lemma debug_name_inj a b : debug_name a = debug_name b -> a = b.
Proof. destruct a, b; intros H; try reflexivity; discriminate. Qed.
Lemma debug_name_free c : free_of "(" (debug_name c) = true /\ free_of "'" (debug_name c) = true /\ free_of " " (debug_name c) = true.
Proof. destruct c; repeat split. Qed.
Lemma summary_key_inj x y : summary_key x = summary_key y -> sl_op x = sl_op y /\ sl_complexity x = sl_complexity y.
Proof.
  unfold summary_key. rewrite ?operation_word_name, ?complexity_word_name. intros H. change (" with " ++ ?d)%string with (String " " ("with " ++ d)) in H.
  apply (split_char " ") in H; [|apply op_name_free|apply op_name_free]. destruct H as [H1 H2].
  apply str_app_cancel in H2. split; [apply op_name_inj|apply debug_name_inj]; assumption.
Qed.
Lemma occurrences_keyed op c errs : occurrences op c errs = keyed (operation_name op ++ " with " ++ debug_name c)%string errs.
Proof.
  unfold occurrences, keyed. f_equal. f_equal. apply filter_ext. intros e.
  destruct (String.eqb_spec (error_key e) (operation_name op ++ " with " ++ debug_name c)) as [E|E].
  - assert (E' : summary_key (SummaryLine (ce_operation e) (ce_complexity e) 0) = summary_key (SummaryLine op c 0))
      by (unfold summary_key; cbn [sl_op sl_complexity]; rewrite !operation_word_name, !complexity_word_name; exact E). clear E. rename E' into E.
    apply summary_key_inj in E. cbn in E. destruct E as [-> ->].
    destruct (complexity_eq_dec c c); [|contradiction]. destruct op; reflexivity.
  - destruct (operation_eqb (ce_operation e) op) eqn:Q; [|reflexivity]. cbn.
    destruct (complexity_eq_dec (ce_complexity e) c) as [C|C]; [|reflexivity]. exfalso. apply E. unfold error_key.
    rewrite C. destruct (ce_operation e), op; try discriminate Q; reflexivity.
Qed.
(** every key of the map is that of some error *)
Lemma keyed_origin k errs : 0 < keyed k errs -> exists op c, k = (operation_name op ++ " with " ++ debug_name c)%string.
Proof.
  unfold keyed. intros H. destruct (filter _ errs) as [|e l] eqn:E; [cbn in H; lia|].
  assert (I : In e (filter (fun e => String.eqb (error_key e) k) errs)) by (rewrite E; left; reflexivity).
  apply filter_In in I. destruct I as [_ I]. apply String.eqb_eq in I. exists (ce_operation e), (ce_complexity e). symmetry. exact I.
Qed.
(** the entries of the map are lines *)
Lemma lines_of_counts m errs : (forall k n, In (k, n) m -> n = keyed k errs /\ 0 < n) ->
  exists ls, map (fun x => (summary_key x, sl_times x)) ls = m.
Proof.
  induction m as [|[k n] m IH]; intros H; [exists []; reflexivity|].
  destruct IH as [ls E]; [intros; apply H; right; assumption|].
  destruct (H k n (or_introl eq_refl)) as [-> P]. destruct (keyed_origin _ _ P) as (op & c & K).
  exists (SummaryLine op c (keyed k errs) :: ls). cbn [map]. rewrite E. unfold summary_key. cbn [sl_op sl_complexity sl_times]. rewrite ?operation_word_name, ?complexity_word_name. rewrite <- K. reflexivity.
Qed.
Lemma count_line_text x : count_line (summary_key x, sl_times x) = summary_text x.
Proof.
  unfold count_line, summary_text, summary_key. rewrite ?operation_word_name, ?complexity_word_name. cbn [fst snd]. rewrite <- !str_app_assoc.
  destruct (sl_times x =? 1); cbn [append]; reflexivity.
Qed.
Lemma previous_errors_text ls : previous_errors (map (fun x => (summary_key x, sl_times x)) ls) = String.concat "" (map summary_text (rev ls)).
Proof.
  assert (C : forall a x, String.concat "" (a ++ [x]) = (String.concat "" a ++ x)%string).
  { induction a as [|y a IH]; intros x; [reflexivity|]. cbn [app]. destruct a as [|z a]; [reflexivity|].
    change (String.concat "" (y :: ((z :: a) ++ [x])))%string with (y ++ "" ++ String.concat "" ((z :: a) ++ [x]))%string.
    rewrite IH. change (String.concat "" (y :: z :: a))%string with (y ++ "" ++ String.concat "" (z :: a))%string. cbn [append]. rewrite str_app_assoc. reflexivity. }
  induction ls as [|x ls IH]; [reflexivity|]. cbn [map rev]. rewrite map_app. cbn [map]. rewrite C. rewrite <- IH.
  cbn [previous_errors fold_right]. rewrite count_line_text. reflexivity.
Qed.
Lemma ssorted_rev {A} (R : A -> A -> Prop) l : StronglySorted R l -> StronglySorted (fun x y => R y x) (rev l).
Proof.
  induction 1 as [|x l H IH F]; [constructor|]. cbn [rev].
  assert (G : forall l', StronglySorted (fun x y => R y x) l' -> Forall (R x) l' -> StronglySorted (fun x y => R y x) (l' ++ [x])).
  { induction 1 as [|y l' S IH2 F2]; intros F'; cbn [app]; [repeat constructor|]. inversion F'; subst. constructor; [auto|].
    apply Forall_app. auto. }
  apply G; [exact IH|]. apply Forall_rev. exact F.
Qed.
Lemma sum_rev l : fold_right Z.add 0 (rev l) = fold_right Z.add 0 l.
Proof.
  assert (G : forall a x, fold_right Z.add 0 (a ++ [x]) = fold_right Z.add 0 a + x) by (induction a as [|y a IH]; intros; cbn; [lia|rewrite IH; lia]).
  induction l as [|x l IH]; [reflexivity|]. cbn [rev fold_right]. rewrite G, IH. lia.
Qed.
Lemma summary_of b errs : Z.of_nat (length errs) < two32 ->
  exists m ls, unique_failed_operations_count b errs = Val m /\ previous_errors m = String.concat "" (map summary_text ls) /\ summarises errs ls.
Proof.
  intros L. destruct (counts_spec b errs L) as (m & E & A & T & S).
  destruct (lines_of_counts m errs) as [ls M]; [intros; apply S; assumption|].
  exists m, (rev ls). split; [exact E|]. split; [rewrite <- M; apply previous_errors_text|].
  split; [|split].
  - intros op c n. rewrite <- in_rev. rewrite occurrences_keyed, <- operation_word_name, <- complexity_word_name, <- S, <- M, in_map_iff. split.
    + intros I. eexists. split; [|exact I]. reflexivity.
    + intros ([op' c' n'] & Q & I). cbn [sl_times] in Q. injection Q as Q Qn.
      change (summary_key (SummaryLine op' c' n') = summary_key (SummaryLine op c n)) in Q. apply summary_key_inj in Q. cbn in Q. destruct Q as [-> ->].
      rewrite <- Qn. exact I.
  - apply ssorted_rev. unfold ascending in A. rewrite <- M in A. clear - A.
    induction ls as [|x ls IH]; [constructor|]. cbn [map] in A. inversion A as [|? ? A1 A2]; subst. constructor; [auto|].
    rewrite Forall_map in A2. exact A2.
  - rewrite map_rev, sum_rev. rewrite <- T. unfold total. rewrite <- M, map_map. reflexivity.
Qed.

(** ** C89 *)
(** When a test gives up, it made [max] attempts that all failed on time, and its message
    names the number of attempts, the last failure, and a summary of all the earlier ones. *)
Theorem C89_give_up_message : forall S b t l (u : user S) cfg max s tr s' e c,
  0 < max < two32 ->
  exec b u (test_crud_algorithms b t l cfg max) s tr s' (Val (GaveUp e c)) ->
  session b t l u cfg 0 s (map failed (c ++ [e])) tr s' /\
  exists ls,
    test_message b max (GaveUp e c) = Some (Val (
      "After " ++ dec max ++ " attempts, gave up retrying: " ++
      assertion_text (ce_operation e) Time (ce_max e) (ce_complexity e) ++ "." ++ newline ++
      "Previous attempts failed at:" ++ newline ++ String.concat "" (map summary_text ls))%string) /\
    summarises c ls /\ fold_right Z.add 0 (map sl_times ls) = max - 1.
Proof.
  intros S b t l u cfg max s tr s' e c Hm E. apply C40_retry_policy in E; [|exact Hm].
  destruct E as (SE & F & L). split; [exact SE|]. rewrite app_length in L. cbn [length] in L.
  destruct (summary_of b c) as (m & ls & E1 & E2 & E3); [lia|]. exists ls. split; [|split; [exact E3|]].
  - unfold test_message, give_up_message. rewrite E1. cbn [bind]. rewrite E2.
    unfold error_display, failed_assertion_msg, assertion_text, what_name. rewrite ?operation_word_name, ?complexity_word_name.
    apply Forall_app in F. destruct F as [_ F]. inversion F as [|? ? T _]; subst. unfold on_time in T. rewrite T.
    do 2 f_equal.
  - destruct E3 as (_ & _ & ->). lia.
Qed.
Print Assumptions C89_give_up_message.

(** A space mismatch names the attempt, counted from 1, at which it happened. *)
Theorem C89_space_message : forall S b t l (u : user S) cfg max s tr s' a e,
  0 < max < two32 ->
  exec b u (test_crud_algorithms b t l cfg max) s tr s' (Val (SpaceMismatch a e)) ->
  exists errs,
    session b t l u cfg 0 s (map failed (errs ++ [e])) tr s' /\ Forall on_time errs /\ on_space e /\
    test_message b max (SpaceMismatch a e) = Some (Val (
      "At attempt #" ++ dec (Z.of_nat (length errs) + 1) ++ ", SPACE complexity mismatch: " ++
      assertion_text (ce_operation e) Space (ce_max e) (ce_complexity e) ++ newline)%string).
Proof.
  intros S b t l u cfg max s tr s' a e Hm E. apply C40_retry_policy in E; [|exact Hm].
  destruct E as (errs & SE & F & O & -> & L). exists errs. split; [exact SE|]. split; [exact F|]. split; [exact O|].
  unfold test_message, space_message. unfold u32_add. rewrite (checked_in b two32 (Z.of_nat (length errs) + 1)) by lia. cbn [bind].
  unfold error_display, failed_assertion_msg, assertion_text, what_name. rewrite ?operation_word_name, ?complexity_word_name. unfold on_space in O. rewrite O. reflexivity.
Qed.
Print Assumptions C89_space_message.

(** ** The message can be read back *)
Lemma newline_free_dec n : free_of "010" (dec n) = true.
Proof. apply dec_free. reflexivity. Qed.
Lemma summary_text_inj x y r r' : 0 <= sl_times x -> 0 <= sl_times y ->
  (summary_text x ++ r = summary_text y ++ r')%string -> x = y /\ r = r'.
Proof.
  destruct x as [o c n], y as [o' c' n']. cbn [sl_times]. intros P P' H. unfold summary_text in H. rewrite ?operation_word_name, ?complexity_word_name in H. cbn [sl_op sl_complexity sl_times] in H.
  rewrite <- !str_app_assoc in H. apply str_app_cancel in H.
  change (" with " ++ ?d)%string with (String " " ("with " ++ d)) in H.
  apply (split_char " ") in H; [|apply op_name_free|apply op_name_free]. destruct H as [H1 H].
  apply str_app_cancel in H. change (" (" ++ ?d)%string with (String " " ("(" ++ d)) in H.
  apply (split_char " ") in H; [|apply debug_name_free|apply debug_name_free]. destruct H as [H2 H].
  apply str_app_cancel in H.
  assert (T : exists z z', (dec n ++ String " " z = dec n' ++ String " " z')%string).
  { destruct (n =? 1), (n' =? 1); cbn [append] in H; do 2 eexists; exact H. }
  destruct T as (z & z' & T). apply (split_char " ") in T; [|apply dec_free; reflexivity|apply dec_free; reflexivity].
  destruct T as [T _]. apply dec_inj in T; auto. subst n'.
  apply op_name_inj in H1. apply debug_name_inj in H2. subst. split; [reflexivity|].
  apply str_app_cancel in H. do 2 apply str_app_cancel in H. exact H.
Qed.
Lemma concat_cons x l : String.concat "" (x :: l) = (x ++ String.concat "" l)%string.
Proof. destruct l; cbn [String.concat]; [symmetry; apply str_app_nil|reflexivity]. Qed.
Lemma summary_texts_inj ls : forall ls', Forall (fun x => 0 <= sl_times x) ls -> Forall (fun x => 0 <= sl_times x) ls' ->
  String.concat "" (map summary_text ls) = String.concat "" (map summary_text ls') -> ls = ls'.
Proof.
  induction ls as [|x ls IH]; intros [|y ls'] P P' H; [reflexivity| | |].
  - cbn [map] in H. rewrite concat_cons in H. cbn in H. discriminate.
  - cbn [map] in H. rewrite concat_cons in H. cbn in H. discriminate.
  - cbn [map] in H. rewrite !concat_cons in H. inversion P; inversion P'; subst.
    apply summary_text_inj in H; auto. destruct H as [-> H]. f_equal. auto.
Qed.
Definition same_failure (e e' : crud_error) : Prop :=
  ce_operation e = ce_operation e' /\ ce_analysis e = ce_analysis e' /\ ce_max e = ce_max e' /\ ce_complexity e = ce_complexity e'.
Lemma assertion_inj e e' r r' : (error_display e ++ r = error_display e' ++ r')%string -> same_failure e e' /\ r = r'.
Proof.
  unfold error_display, failed_assertion_msg, same_failure. intros H.
  rewrite <- !str_app_assoc in H. do 2 apply str_app_cancel in H.
  change ("' algorithm was expected to match a maximum " ++ ?d)%string with (String "'" (" algorithm was expected to match a maximum " ++ d)) in H.
  apply (split_char "'") in H; [|destruct (ce_operation e); reflexivity|destruct (ce_operation e'); reflexivity]. destruct H as [H1 H].
  apply str_app_cancel in H. change (" complexity of '" ++ ?d)%string with (String " " ("complexity of '" ++ d)) in H.
  apply (split_char " ") in H; [|destruct (ce_analysis e); reflexivity|destruct (ce_analysis e'); reflexivity]. destruct H as [H2 H].
  apply str_app_cancel in H. change ("', but '" ++ ?d)%string with (String "'" (", but '" ++ d)) in H.
  apply (split_char "'") in H; [|apply debug_name_free|apply debug_name_free]. destruct H as [H3 H].
  apply str_app_cancel in H. change ("' was measured" ++ ?d)%string with (String "'" (" was measured" ++ d)) in H.
  apply (split_char "'") in H; [|apply debug_name_free|apply debug_name_free]. destruct H as [H4 H].
  apply str_app_cancel in H. apply op_name_inj in H1. apply debug_name_inj in H3, H4.
  repeat split; auto. destruct (ce_analysis e), (ce_analysis e'); try reflexivity; discriminate.
Qed.
(** Two give-up messages are the same text only if they report the same number of attempts,
    the same last failure, and the same number of earlier failures of every kind. *)
Theorem C89_message_unambiguous : forall b b' max max' e e' c c' text,
  0 <= max -> 0 <= max' -> Z.of_nat (length c) < two32 -> Z.of_nat (length c') < two32 ->
  test_message b max (GaveUp e c) = Some (Val text) -> test_message b' max' (GaveUp e' c') = Some (Val text) ->
  max = max' /\ same_failure e e' /\ forall op cx, occurrences op cx c = occurrences op cx c'.
Proof.
  intros b b' max max' e e' c c' text M M' L L' E E'.
  destruct (summary_of b c L) as (m & ls & A1 & A2 & A3). destruct (summary_of b' c' L') as (m' & ls' & B1 & B2 & B3).
  unfold test_message, give_up_message in *. rewrite A1 in E. rewrite B1 in E'. cbn [bind] in *. rewrite A2 in E. rewrite B2 in E'.
  assert (EQ := eq_trans E (eq_sym E')). apply (f_equal (fun o => match o with Some (Val x) => x | _ => ""%string end)) in EQ. clear E E'.
  apply str_app_cancel in EQ. change (" attempts, gave up retrying: " ++ ?d)%string with (String " " ("attempts, gave up retrying: " ++ d)) in EQ.
  apply (split_char " ") in EQ; [|apply dec_free; reflexivity|apply dec_free; reflexivity]. destruct EQ as [Q1 EQ]. apply dec_inj in Q1; auto.
  apply str_app_cancel in EQ. apply assertion_inj in EQ. destruct EQ as [Q2 EQ]. do 4 apply str_app_cancel in EQ.
  assert (P : forall c ls, summarises c ls -> Forall (fun x => 0 <= sl_times x) ls).
  { intros c0 ls0 (X & _). apply Forall_forall. intros [o cx n] I. apply X in I. cbn. lia. }
  apply summary_texts_inj in EQ; [|eapply P; eassumption|eapply P; eassumption]. subst ls'.
  split; [exact Q1|]. split; [exact Q2|]. intros op cx.
  destruct A3 as (A3 & _), B3 as (B3 & _).
  assert (NN : 0 <= occurrences op cx c /\ 0 <= occurrences op cx c') by (unfold occurrences; lia).
  destruct (Z.eqb_spec (occurrences op cx c) 0) as [Z0|Z0]; destruct (Z.eqb_spec (occurrences op cx c') 0) as [Z1|Z1]; [lia| | |].
  - assert (I : In (SummaryLine op cx (occurrences op cx c')) ls) by (apply B3; split; [reflexivity|lia]). apply A3 in I. lia.
  - assert (I : In (SummaryLine op cx (occurrences op cx c)) ls) by (apply A3; split; [reflexivity|lia]). apply B3 in I. lia.
  - assert (I : In (SummaryLine op cx (occurrences op cx c)) ls) by (apply A3; split; [reflexivity|lia]). apply B3 in I. lia.
Qed.
Print Assumptions C89_message_unambiguous.

(** the container of C79_example allowed only O(1) reads: three attempts fail, and this is the text *)
Example C89_example : forall b, exists tr s' e c,
  exec b demo_user (test_crud_algorithms b Tol25 good_libm (vec_cfg O1 O1) 3) tt tr s' (Val (GaveUp e c)) /\
  test_message b 3 (GaveUp e c) = Some (Val (
    "After 3 attempts, gave up retrying: CRUD complexity analysis assertion failed: 'Read' algorithm was expected to match a maximum TIME complexity of 'O1', but 'ON' was measured." ++ newline ++
    "Previous attempts failed at:" ++ newline ++
    " - Read with ON (2 times)" ++ newline)%string).
Proof.
  intros b. destruct (C79_example b O1 O1) as (tr & s' & o & E & _ & _ & _ & H & _).
  destruct (H eq_refl eq_refl) as (e1 & e2 & e3 & -> & F). exists tr, s', e3, [e1; e2]. split; [exact E|].
  inversion F as [|? ? (A1 & A2 & A3 & A4) F1]; subst. inversion F1 as [|? ? (B1 & B2 & B3 & B4) F2]; subst. inversion F2 as [|? ? (C1 & C2 & C3 & C4) _]; subst.
  cbn [test_message]. unfold give_up_message, unique_failed_operations_count, error_display, failed_assertion_msg. cbn [fold_right]. unfold error_key.
  rewrite A1, A3, B1, B3, C1, C2, C3, C4. destruct b; reflexivity.
Qed.
(** several kinds of failures: descending alphabetical order, the last error not among them *)
Example C89_example_mixed : forall r,
  let e op c := CrudError op Time c O1 r in
  test_message Debug 6 (GaveUp (e Delete ON) [e Create ON; e Read OLogN; e Create ON; e Update ON2; e Create WorseThanExponential]) = Some (Val (
    "After 6 attempts, gave up retrying: CRUD complexity analysis assertion failed: 'Delete' algorithm was expected to match a maximum TIME complexity of 'O1', but 'ON' was measured." ++ newline ++
    "Previous attempts failed at:" ++ newline ++
    " - Update with ON2 (1 time)" ++ newline ++
    " - Read with OLogN (1 time)" ++ newline ++
    " - Create with WorseThanExponential (1 time)" ++ newline ++
    " - Create with ON (2 times)" ++ newline)%string).
Proof. reflexivity. Qed.
