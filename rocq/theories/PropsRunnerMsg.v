(** * C96, C97: what the panic messages of test_algorithm and of the async builder say. *)
From Coq Require Import ZArith String Ascii List Bool Lia.
From Verif Require Import Machine Complexity Analysis AnalysisF64d Report ReportProofs Crud CrudSpec Free Standard StandardSpec PropsStandard Builder BuilderSpec BuilderProofs PropsBuilder CrudMsg TextProofs PropsCrudMsg RunnerMsg Demo.
Import ListNotations.
Open Scope Z_scope.

(** ** Specification *)
(** the texts of the two kinds of mismatches *)
Definition space_text (name : string) (limit measured : complexity) : string :=
  (newline ++ " ** Aborted due to SPACE complexity mismatch on '" ++ name ++ "' operation: maximum: " ++ complexity_word limit ++
   ", measured: " ++ complexity_word measured ++ newline ++ newline)%string.
Definition time_text (name : string) (limit measured : complexity) : string :=
  (newline ++ " ** TIME complexity mismatch on '" ++ name ++ "' operation: maximum: " ++ complexity_word limit ++
   ", measured: " ++ complexity_word measured ++ " -- a reattempt may be performed..." ++ newline ++ newline)%string.
Definition mismatch_text (name : string) (w : what) (limit measured : complexity) : string :=
  match w with Space => space_text name limit measured | Time => time_text name limit measured end.
(** ... and of the two panics that follow retries: [n] is the number of retries asked for, [ts] the texts of the earlier mismatches *)
Definition given_up_text (loggable : list string -> string) (n : Z) (last : string) (ts : list string) : string :=
  ("Given up with '" ++ last ++ "' after " ++ dec n ++ " attempts. Previous transient errors: " ++ loggable ts)%string.
Definition stopped_text (loggable : list string -> string) (n : Z) (last : string) (ts : list string) : string :=
  ("Stopped after retrying for " ++ dec n ++ " attempts due to the fatal outcome '" ++ last ++ "'. Previous transient errors: " ++ loggable ts)%string.

(** [classes]: the time and space classes measured in each run of the closures [calls] *)
Definition measured_classes b t l cfg (calls : list scall) (classes : list (complexity * complexity)) : Prop :=
  exists runs : list (pass_result * (pass_result * Z) * (pass_result * Z)),
    calls = flat_map (fun r => [CReset (Some (fst (fst r))); CPass1 (Some (snd (fst r))); CPass2 (Some (snd r))]) runs /\
    Forall2 (fun r c =>
      let m1 := fst (snd (fst r)) in let m2 := fst (snd r) in
      fst c = analyse_time_complexity t l (st_n1 cfg) (st_n2 cfg) (pr_time m1) (pr_time m2) /\
      analyse_space_complexity b t l (st_n1 cfg) (st_n2 cfg) (pr_space m1) (pr_space m2) = Val (snd c)) runs classes.
Definition space_fails (cfg : std_cfg) (c : complexity * complexity) : Prop := clt (st_max_space cfg) (snd c).
Definition only_time_fails (cfg : std_cfg) (c : complexity * complexity) : Prop := cle (snd c) (st_max_space cfg) /\ clt (st_max_time cfg) (fst c).
Definition complies (cfg : std_cfg) (c : complexity * complexity) : Prop := cle (snd c) (st_max_space cfg) /\ cle (fst c) (st_max_time cfg).

(** ** Proofs *)
Lemma mismatch_msg_text name w e o : mismatch_msg name w e o = mismatch_text name w e o.
Proof. unfold mismatch_text, mismatch_msg, space_text, time_text. rewrite !complexity_word_name. reflexivity. Qed.

Lemma tries_classes {S} b t l cfg (w : world sans S) p s fs v tr s' :
  tries (fun _ : unit => analyse_algorithm b t l cfg) w p s fs v tr s' -> p = analyse_algorithm b t l cfg ->
  exists earlier last, measured_classes b t l cfg (scalls tr) (earlier ++ [last]) /\
    Forall (only_time_fails cfg) earlier /\ length earlier = length fs /\
    map snd fs = map (fun c => StdError Time (st_max_time cfg) (fst c)) earlier /\
    ( (space_fails cfg last /\ v = RFatal tt (StdError Space (st_max_space cfg) (snd last)))
      \/ (only_time_fails cfg last /\ v = RTransient tt (StdError Time (st_max_time cfg) (fst last)))
      \/ (complies cfg last /\ exists r, v = ROk r)).
Proof.
  assert (ONE : forall s tr s' v, fexec w (analyse_algorithm b t l cfg) s tr s' (Val v) -> exists c,
     measured_classes b t l cfg (scalls tr) [c] /\
     ( (space_fails cfg c /\ v = RFatal tt (StdError Space (st_max_space cfg) (snd c)))
      \/ (only_time_fails cfg c /\ v = RTransient tt (StdError Time (st_max_time cfg) (fst c)))
      \/ (complies cfg c /\ exists r, v = ROk r))).
  { clear. intros s tr s' v E. destruct (C45_each_run _ _ _ _ _ _ _ _ _ _ E) as [(v' & m0 & m1 & r1 & m2 & r2 & V & C & (tc & sc & HT & HS & D))|([q Y] & _)]; [|discriminate].
    apply val_inj in V. subst v'. exists (tc, sc). split.
    - exists [(m0, (m1, r1), (m2, r2))]. split; [exact C|]. constructor; [|constructor]. cbn. auto.
    - unfold space_fails, only_time_fails, complies. cbn [fst snd]. destruct D as [(D1 & D2)|[(D1 & D2 & D3)|(D1 & D2 & D3)]]; eauto 10. }
  induction 1 as [p s tr s' v E|p s tr s1 i e fs v tr' s' E T IH]; intros ->.
  - destruct (ONE _ _ _ _ E) as (c & M & D). exists [], c. repeat split; auto.
  - destruct (ONE _ _ _ _ E) as (c & (runs & M1 & M2) & D). destruct (IH eq_refl) as (earlier & last & (runs' & N1 & N2) & FA & L & MS & D').
    destruct D as [(_ & D)|[(D1 & D)|(_ & r & D)]]; [discriminate| |discriminate]. injection D as _ ->.
    exists (c :: earlier), last. split.
    + exists (runs ++ runs'). split; [rewrite scalls_app, flat_map_app, M1, N1; reflexivity|]. cbn [app]. change (c :: earlier ++ [last]) with ([c] ++ earlier ++ [last]). apply Forall2_app; assumption.
    + split; [constructor; assumption|]. split; [cbn; lia|]. split; [cbn [map snd]; rewrite MS; reflexivity|exact D'].
Qed.

(** ** C96: test_algorithm panics with nothing else than these texts, and they tell what happened:
    which classes were measured in which run, in order, against the limits that were given. *)
Theorem C96_messages : forall S loggable b t l cfg (w : world sans S) max s tr s' msg,
  0 <= max < two32 ->
  fexec w (test_algorithm_text loggable b t l cfg max) s tr s' (Val msg) ->
  exists earlier last,
    measured_classes b t l cfg (scalls tr) (earlier ++ [last]) /\
    Forall (only_time_fails cfg) earlier /\ Z.of_nat (length earlier) <= max /\
    let earlier_texts := map (fun c => time_text (st_name cfg) (st_max_time cfg) (fst c)) earlier in
    ( (complies cfg last /\ msg = None)
    \/ (space_fails cfg last /\ earlier = [] /\ msg = Some (space_text (st_name cfg) (st_max_space cfg) (snd last)))
    \/ (space_fails cfg last /\ earlier <> [] /\
        msg = Some (stopped_text loggable max (space_text (st_name cfg) (st_max_space cfg) (snd last)) earlier_texts))
    \/ (only_time_fails cfg last /\ Z.of_nat (length earlier) = max /\
        msg = Some (given_up_text loggable max (time_text (st_name cfg) (st_max_time cfg) (fst last)) earlier_texts))).
Proof.
  intros S loggable b t l cfg w max s tr s' msg Hm E. unfold test_algorithm_text in E. apply fexec_bind in E.
  destruct E as [(x & tr1 & s1 & tr2 & E1 & (-> & -> & E2) & ->)|(p & _ & Y)]; [|discriminate]. rewrite app_nil_r. apply val_inj in E2. subst msg.
  apply retry_spec in E1.
  assert (TX : forall earlier, map (std_msg (st_name cfg)) (map (fun c : complexity * complexity => StdError Time (st_max_time cfg) (fst c)) earlier) = map (fun c => time_text (st_name cfg) (st_max_time cfg) (fst c)) earlier).
  { intros earlier. rewrite map_map. apply map_ext. intros c. unfold std_msg. cbn [se_what se_max se_observed]. apply mismatch_msg_text. }
  destruct x as [r|f|es r|es f|es f].
  - destruct (tries_classes _ _ _ _ _ _ _ _ _ _ _ E1 eq_refl) as (earlier & last & M & FA & L & MS & D). exists earlier, last. split; [exact M|]. split; [exact FA|].
    cbn [length] in L. split; [rewrite L; cbn; lia|]. left. destruct D as [(_ & D)|[(_ & D)|(D & _)]]; [discriminate|discriminate|]. split; [exact D|reflexivity].
  - destruct E1 as [i E1]. destruct (tries_classes _ _ _ _ _ _ _ _ _ _ _ E1 eq_refl) as (earlier & last & M & FA & L & MS & D). exists earlier, last. split; [exact M|]. split; [exact FA|].
    cbn [length] in L. split; [rewrite L; cbn; lia|]. right. left. destruct D as [(D1 & D)|[(_ & D)|(_ & r & D)]]; [|discriminate|discriminate]. injection D as _ ->.
    split; [exact D1|]. split; [destruct earlier; [reflexivity|discriminate]|]. cbn [failure_msg]. unfold std_msg. cbn [se_what se_max se_observed]. rewrite mismatch_msg_text. reflexivity.
  - destruct E1 as (fs & E1 & -> & L1). destruct (tries_classes _ _ _ _ _ _ _ _ _ _ _ E1 eq_refl) as (earlier & last & M & FA & L & MS & D). exists earlier, last. split; [exact M|]. split; [exact FA|].
    split; [lia|]. left. destruct D as [(_ & D)|[(_ & D)|(D & _)]]; [discriminate|discriminate|]. split; [exact D|reflexivity].
  - destruct E1 as (fs & i & E1 & -> & L1). destruct (tries_classes _ _ _ _ _ _ _ _ _ _ _ E1 eq_refl) as (earlier & last & M & FA & L & MS & D). exists earlier, last. split; [exact M|]. split; [exact FA|].
    split; [lia|]. right. right. right. destruct D as [(_ & D)|[(D1 & D)|(_ & r & D)]]; [discriminate| |discriminate]. injection D as _ ->.
    split; [exact D1|]. split; [lia|]. cbn [failure_msg]. rewrite MS, TX. unfold std_msg. cbn [se_what se_max se_observed]. rewrite mismatch_msg_text. reflexivity.
  - destruct E1 as (fs & i & E1 & -> & L1). destruct (tries_classes _ _ _ _ _ _ _ _ _ _ _ E1 eq_refl) as (earlier & last & M & FA & L & MS & D). exists earlier, last. split; [exact M|]. split; [exact FA|].
    split; [lia|]. right. right. left. destruct D as [(D1 & D)|[(_ & D)|(_ & r & D)]]; [|discriminate|discriminate]. injection D as _ ->.
    split; [exact D1|]. split; [intros ->; cbn in L; lia|]. cbn [failure_msg]. rewrite MS, TX. unfold std_msg. cbn [se_what se_max se_observed]. rewrite mismatch_msg_text. reflexivity.
Qed.
Print Assumptions C96_messages.

(** The text is given iff the test does not pass (C45 says when it does). *)
Theorem C96_text_iff_panic : forall S loggable b t l cfg (w : world sans S) max s tr s',
  (fexec w (test_algorithm_text loggable b t l cfg max) s tr s' (Val None) <-> fexec w (test_algorithm b t l cfg max) s tr s' (Val StdPassed)) /\
  ((exists text, fexec w (test_algorithm_text loggable b t l cfg max) s tr s' (Val (Some text))) <->
   (exists es e, fexec w (test_algorithm b t l cfg max) s tr s' (Val (StdPanicked es e)))).
Proof.
  intros S loggable b t l cfg w max s tr s'. unfold test_algorithm_text, test_algorithm.
  set (m := retry_with_delays _ _ _).
  assert (K : forall A B (f : resolved Z std_error -> A) (g : resolved Z std_error -> B) a, fexec w (fbind m (fun r => FRet (f r))) s tr s' (Val a) ->
     exists r, f r = a /\ fexec w (fbind m (fun r => FRet (g r))) s tr s' (Val (g r))).
  { intros A B f g a E. apply fexec_bind in E. destruct E as [(x & tr1 & s1 & tr2 & E1 & (-> & -> & E2) & ->)|(p & _ & Y)]; [|discriminate]. apply val_inj in E2. subst a.
    exists x. split; [reflexivity|]. eapply fexec_bind_intro; [exact E1|]. cbn. auto. }
  split; split.
  - intros E. eapply K in E. destruct E as (r & R & E). destruct r; try discriminate; exact E.
  - intros E. eapply K in E. destruct E as (r & R & E). destruct r; try discriminate; exact E.
  - intros [text E]. eapply K in E. destruct E as (r & R & E). destruct r; try discriminate; do 2 eexists; exact E.
  - intros (es & e & E). eapply K in E. destruct E as (r & R & E). destruct r; try discriminate; eexists; exact E.
Qed.
Print Assumptions C96_text_iff_panic.

(** *** the texts can be read back, if test names contain no apostrophe *)
Lemma quote_free_debug c : free_of "'" (debug_name c) = true. Proof. apply debug_name_free. Qed.
Lemma comma_free_debug c : free_of "," (debug_name c) = true. Proof. destruct c; reflexivity. Qed.
Lemma newline_free_debug c : free_of "010" (debug_name c) = true. Proof. destruct c; reflexivity. Qed.
Lemma space_free_debug c : free_of " " (debug_name c) = true. Proof. apply debug_name_free. Qed.
Lemma mismatch_inj name name' w w' e e' o o' r r' : free_of "'" name = true -> free_of "'" name' = true ->
  (mismatch_text name w e o ++ r = mismatch_text name' w' e' o' ++ r')%string -> name = name' /\ w = w' /\ e = e' /\ o = o' /\ r = r'.
Proof.
  intros F F' H. unfold mismatch_text, space_text, time_text in H. rewrite !complexity_word_name in H.
  destruct w, w'; [| | |]; rewrite <- !str_app_assoc in H; apply str_app_cancel in H; [|cbn [append] in H; discriminate|cbn [append] in H; discriminate|].
  - apply str_app_cancel in H. change ("' operation: maximum: " ++ ?d)%string with (String "'" (" operation: maximum: " ++ d)) in H.
    apply (split_char "'") in H; [|exact F|exact F']. destruct H as [H1 H]. apply str_app_cancel in H.
    change (", measured: " ++ ?d)%string with (String "," (" measured: " ++ d)) in H.
    apply (split_char ",") in H; [|apply comma_free_debug|apply comma_free_debug]. destruct H as [H2 H]. apply str_app_cancel in H.
    change (" -- a reattempt may be performed..." ++ ?d)%string with (String " " ("-- a reattempt may be performed..." ++ d)) in H.
    apply (split_char " ") in H; [|apply space_free_debug|apply space_free_debug]. destruct H as [H3 H].
    do 3 apply str_app_cancel in H. apply debug_name_inj in H2, H3. auto.
  - apply str_app_cancel in H. change ("' operation: maximum: " ++ ?d)%string with (String "'" (" operation: maximum: " ++ d)) in H.
    apply (split_char "'") in H; [|exact F|exact F']. destruct H as [H1 H]. apply str_app_cancel in H.
    change (", measured: " ++ ?d)%string with (String "," (" measured: " ++ d)) in H.
    apply (split_char ",") in H; [|apply comma_free_debug|apply comma_free_debug]. destruct H as [H2 H]. apply str_app_cancel in H.
    change (newline ++ ?d)%string with (String "010" d) in H.
    apply (split_char "010") in H; [|apply newline_free_debug|apply newline_free_debug]. destruct H as [H3 H].
    change (String "010" r) with (newline ++ r)%string in H. change (String "010" r') with (newline ++ r')%string in H. apply str_app_cancel in H.
    apply debug_name_inj in H2, H3. auto.
Qed.
(** what a panic message says: after no retry, given up, or stopped *)
Inductive told := ToldAtOnce | ToldGivenUp (n : Z) (earlier : list string) | ToldStopped (n : Z) (earlier : list string).
Definition message loggable (k : told) (mismatch : string) : string :=
  match k with
  | ToldAtOnce => mismatch
  | ToldGivenUp n ts => given_up_text loggable n mismatch ts
  | ToldStopped n ts => stopped_text loggable n mismatch ts
  end.
Definition told_ok (k : told) : Prop := match k with ToldAtOnce => True | ToldGivenUp n _ | ToldStopped n _ => 0 <= n end.
Theorem C96_unambiguous : forall loggable loggable' k k' name name' w w' e e' o o',
  free_of "'" name = true -> free_of "'" name' = true -> told_ok k -> told_ok k' ->
  message loggable k (mismatch_text name w e o) = message loggable' k' (mismatch_text name' w' e' o') ->
  name = name' /\ w = w' /\ e = e' /\ o = o' /\
  match k, k' with
  | ToldAtOnce, ToldAtOnce => True
  | ToldGivenUp n ts, ToldGivenUp n' ts' => n = n' /\ loggable ts = loggable' ts'
  | ToldStopped n ts, ToldStopped n' ts' => n = n' /\ loggable ts = loggable' ts'
  | _, _ => False
  end.
Proof.
  intros loggable loggable' k k' name name' w w' e e' o o' F F' K K' H.
  assert (HEAD : forall name w e o, exists d, mismatch_text name w e o = String "010" d) by (intros ? [] ? ?; eexists; reflexivity).
  destruct k as [|n ts|n ts], k' as [|n' ts'|n' ts']; cbn [message] in H; unfold given_up_text, stopped_text in H.
  - rewrite <- (str_app_nil (mismatch_text name w e o)), <- (str_app_nil (mismatch_text name' w' e' o')) in H.
    apply mismatch_inj in H; [|exact F|exact F']. tauto.
  - destruct (HEAD name w e o) as [d D]. rewrite D in H. discriminate.
  - destruct (HEAD name w e o) as [d D]. rewrite D in H. discriminate.
  - destruct (HEAD name' w' e' o') as [d D]. rewrite D in H. discriminate.
  - apply str_app_cancel in H. apply mismatch_inj in H; [|exact F|exact F']. destruct H as (H1 & H2 & H3 & H4 & H).
    apply str_app_cancel in H. change (" attempts. Previous transient errors: " ++ ?d)%string with (String " " ("attempts. Previous transient errors: " ++ d)) in H.
    apply (split_char " ") in H; [|apply dec_free; reflexivity|apply dec_free; reflexivity]. destruct H as [H5 H]. apply dec_inj in H5; [|exact K|exact K'].
    apply str_app_cancel in H. tauto.
  - discriminate.
  - destruct (HEAD name' w' e' o') as [d D]. rewrite D in H. discriminate.
  - discriminate.
  - apply str_app_cancel in H. change (" attempts due to the fatal outcome '" ++ ?d)%string with (String " " ("attempts due to the fatal outcome '" ++ d)) in H.
    apply (split_char " ") in H; [|apply dec_free; reflexivity|apply dec_free; reflexivity]. destruct H as [H5 H]. apply dec_inj in H5; [|exact K|exact K'].
    apply str_app_cancel in H. apply mismatch_inj in H; [|exact F|exact F']. destruct H as (H1 & H2 & H3 & H4 & H). apply str_app_cancel in H. tauto.
Qed.
Print Assumptions C96_unambiguous.

(** *** Example: the first run fails on time (three times slower on twice the set), the second on space; 5 retries were allowed *)
Definition c96_answer (s : Z) (q : squery) : Z * option (sans q) :=
  match q as q' return Z * option (sans q') with
  | SReset => (s + 1, Some (PassResult 1000000000 (SpacePass 0 0 1000000 0)))
  | SPass1 => (s, Some (PassResult 1000000000 (SpacePass 0 1000000 1000000 0), 1))
  | SPass2 => (s, Some (PassResult (if s =? 1 then 3000000000 else 1000000000) (if s =? 1 then SpacePass 0 1000000 1000000 0 else SpacePass 0 3000000 3000000 0), 2))
  | SOut _ => (s, Some tt)
  end.
Definition c96_run (max : Z) := frun c96_answer (test_algorithm_text (String.concat ", ") Debug Tol25 demo_libm (StdCfg "sort" 1000 2000 O1 O1) max) 0.
(** one retry of five was made; the message says five *)
Example C96_example :
  match c96_run 5 with
  | (tr, s', Val (Some text)) => s' = 2 /\ text =
      ("Stopped after retrying for 5 attempts due to the fatal outcome '" ++ space_text "sort" O1 ON2 ++
       "'. Previous transient errors: " ++ time_text "sort" O1 ON2)%string
  | _ => False
  end.
Proof. vm_compute. split; reflexivity. Qed.
(** no retry allowed, one run made; the message says "after 0 attempts" *)
Example C96_example_given_up :
  match c96_run 0 with
  | (tr, s', Val (Some text)) => s' = 1 /\ text =
      ("Given up with '" ++ time_text "sort" O1 ON2 ++ "' after 0 attempts. Previous transient errors: ")%string
  | _ => False
  end.
Proof. vm_compute. split; reflexivity. Qed.

(** ** C97: the same for the async builder's test_algorithm: [attempts] (C49) says which
    functions were run on which data and what was measured; [measured] are the time classes
    measured by the attempts that were retried. *)
Lemma attempts_errors {F D X} bd t l (b : builder F X) prev es (v : retry_result (builder F X * D) (builder F X * D) b_error) calls :
  attempts bd t l b prev es v calls ->
  (exists measured, es = map (fun c => BError (b_name b) Time (match b_time b with Some x => x | None => O1 end) c) measured /\
     forall c, In c measured -> exists limit, b_time b = Some limit /\ clt limit c) /\
  (forall i e, v = RTransient i e -> exists limit c, b_time b = Some limit /\ clt limit c /\ e = BError (b_name b) Time limit c) /\
  (forall i e, v = RFatal i e -> exists limit c, b_space b = Some limit /\ clt limit c /\ e = BError (b_name b) Space limit c).
Proof.
  assert (TR : forall m1 m2 (last : D) v, b_verdict bd t l b m1 m2 last v ->
    (forall i e, v = RTransient i e -> exists limit c, b_time b = Some limit /\ clt limit c /\ e = BError (b_name b) Time limit c) /\
    (forall i e, v = RFatal i e -> exists limit c, b_space b = Some limit /\ clt limit c /\ e = BError (b_name b) Space limit c)).
  { intros m1 m2 last v0 (tc & sc & _ & _ & [(x & H1 & H2 & ->)|[(_ & x & H1 & H2 & ->)|(_ & _ & ->)]]); split; intros i e Y; try discriminate; injection Y as _ <-; eauto. }
  induction 1 as [prev calls m1 m2 d v A V|prev calls m1 m2 d e0 es v calls' A V _ IH].
  - split; [exists []; split; [reflexivity|intros c []]|]. apply (TR _ _ _ _ V).
  - destruct IH as ((ms & -> & HM) & I2). split; [|exact I2]. destruct (proj1 (TR _ _ _ _ V) _ _ eq_refl) as (limit & c & H1 & H2 & ->).
    exists (c :: ms). rewrite H1. split; [reflexivity|]. intros c' [<-|I]; [eauto|]. rewrite <- H1. apply HM, I.
Qed.
Theorem C97_messages : forall F D X S loggable bd t l (b : builder F X) (w : world (@bans F D X) S) s tr s' msg,
  let max := match b_max_reattempts b with Some n => n | None => 0 end in
  0 <= max < two32 ->
  fexec w (test_algorithm_async_text loggable bd t l b) s tr s' (Val msg) ->
  exists measured d,
    let limit := match b_time b with Some x => x | None => O1 end in
    let es := map (BError (b_name b) Time limit) measured in
    let texts := map (time_text (b_name b) limit) measured in
    Z.of_nat (length measured) <= max /\
    (forall c, In c measured -> b_time b = Some limit /\ clt limit c) /\
    ( (attempts bd t l b None es (ROk (b, d)) (bcalls tr) /\ msg = None)
    \/ (exists e c, attempts bd t l b None es (RFatal (b, d) (BError (b_name b) Space e c)) (bcalls tr) /\ b_space b = Some e /\ clt e c /\
        msg = Some (match measured with [] => space_text (b_name b) e c | _ => stopped_text loggable max (space_text (b_name b) e c) texts end))
    \/ (exists c, attempts bd t l b None es (RTransient (b, d) (BError (b_name b) Time limit c)) (bcalls tr) /\ b_time b = Some limit /\ clt limit c /\
        Z.of_nat (length measured) = max /\
        msg = Some (given_up_text loggable max (time_text (b_name b) limit c) texts))).
Proof.
  intros F D X S loggable bd t l b w s tr s' msg max Hm E. unfold test_algorithm_async_text in E. change (unwrap_or (b_max_reattempts b) 0) with max in E.
  apply fexec_bind in E. destruct E as [(x & tr1 & s1 & tr2 & E1 & (-> & -> & E2) & ->)|(p & _ & Y)]; [|discriminate]. rewrite app_nil_r. apply val_inj in E2. subst msg.
  assert (FIN : forall p s fs v tr s', tries (reattempt bd t l) w p s fs v tr s' -> p = raw_analyse bd t l b None ->
     attempts bd t l b None (map snd fs) v (bcalls tr)).
  { intros p s0 fs v tr0 s0' T ->. eapply tries_attempts; [exact T|]. left. reflexivity. }
  assert (LASTI : forall prev es v calls, attempts bd t l b prev es v calls -> forall i, (v = ROk i \/ exists e, v = RFatal i e \/ v = RTransient i e) -> exists d : D, i = (b, d)).
  { intros prev es v calls A. induction A as [prev calls m1 m2 d v A V|prev calls m1 m2 d e0 es v calls' A V _ IH]; intros i HI; [|apply IH, HI].
    destruct HI as [->|(e0 & [-> | ->])]; [apply verdict_ok in V|apply verdict_fatal in V|apply verdict_transient in V]; eauto. }
  set (limit := match b_time b with Some x => x | None => O1 end).
  assert (TX : forall ms, map b_msg (map (fun c => BError (b_name b) Time limit c) ms) = map (time_text (b_name b) limit) ms).
  { intros ms. rewrite map_map. apply map_ext. intros c. unfold b_msg. cbn [be_name be_what be_max be_observed]. apply mismatch_msg_text. }
  assert (LIM : forall ms, (forall c, In c ms -> exists limit, b_time b = Some limit /\ clt limit c) -> forall c, In c ms -> b_time b = Some limit /\ clt limit c).
  { intros ms H c I. destruct (H c I) as (lim & HX & CX). unfold limit. rewrite HX. auto. }
  apply retry_spec in E1. destruct x as [r|f|es r|es f|es f].
  - pose proof (FIN _ _ _ _ _ _ E1 eq_refl) as A. destruct (LASTI _ _ _ _ A r (or_introl eq_refl)) as [d ->]. exists [], d. cbv zeta.
    split; [cbn; lia|]. split; [intros c []|]. left. auto.
  - destruct E1 as [i T]. pose proof (FIN _ _ _ _ _ _ T eq_refl) as A. destruct (LASTI _ _ _ _ A i ltac:(eauto)) as [d ->].
    destruct (attempts_errors _ _ _ _ _ _ _ _ A) as (_ & _ & H). destruct (H _ _ eq_refl) as (e & c & H1 & H2 & ->). exists [], d. cbv zeta.
    split; [cbn; lia|]. split; [intros ? []|]. right. left. exists e, c. split; [exact A|]. split; [exact H1|]. split; [exact H2|].
    cbn [failure_msg]. unfold b_msg. cbn [be_name be_what be_max be_observed]. rewrite mismatch_msg_text. reflexivity.
  - destruct E1 as (fs & T & _ & L). pose proof (FIN _ _ _ _ _ _ T eq_refl) as A. destruct (LASTI _ _ _ _ A r (or_introl eq_refl)) as [d ->].
    destruct (attempts_errors _ _ _ _ _ _ _ _ A) as ((ms & HE & HM) & _). exists ms, d. cbv zeta.
    assert (LE : length ms = length fs) by (rewrite <- (map_length snd fs), HE, map_length; reflexivity).
    split; [lia|]. split; [apply LIM, HM|]. left. split; [|reflexivity]. rewrite HE in A. exact A.
  - destruct E1 as (fs & i & T & -> & L). pose proof (FIN _ _ _ _ _ _ T eq_refl) as A. destruct (LASTI _ _ _ _ A i ltac:(eauto)) as [d ->].
    destruct (attempts_errors _ _ _ _ _ _ _ _ A) as ((ms & HE & HM) & H & _). destruct (H _ _ eq_refl) as (e & c & H1 & H2 & ->). exists ms, d. cbv zeta.
    assert (LE : length ms = length fs) by (rewrite <- (map_length snd fs), HE, map_length; reflexivity).
    assert (EL : limit = e) by (unfold limit; rewrite H1; reflexivity). fold limit in HE.
    split; [lia|]. split; [apply LIM, HM|]. right. right. exists c. rewrite HE in A. fold limit. rewrite EL in *. split; [exact A|]. split; [exact H1|]. split; [exact H2|]. split; [lia|].
    cbn [failure_msg]. rewrite HE, TX. unfold b_msg. cbn [be_name be_what be_max be_observed]. rewrite mismatch_msg_text. reflexivity.
  - destruct E1 as (fs & i & T & -> & L). pose proof (FIN _ _ _ _ _ _ T eq_refl) as A. destruct (LASTI _ _ _ _ A i ltac:(eauto)) as [d ->].
    destruct (attempts_errors _ _ _ _ _ _ _ _ A) as ((ms & HE & HM) & _ & H). destruct (H _ _ eq_refl) as (e & c & H1 & H2 & ->). exists ms, d. cbv zeta.
    assert (LE : length ms = length fs) by (rewrite <- (map_length snd fs), HE, map_length; reflexivity).
    split; [lia|]. split; [apply LIM, HM|]. right. left. exists e, c. fold limit in HE. fold limit. rewrite HE in A. split; [exact A|]. split; [exact H1|]. split; [exact H2|].
    cbn [failure_msg]. rewrite HE, TX. unfold b_msg. cbn [be_name be_what be_max be_observed]. rewrite mismatch_msg_text.
    destruct ms; [cbn [length] in LE; lia|reflexivity].
Qed.
Print Assumptions C97_messages.
Theorem C97_text_iff_panic : forall F D X S loggable bd t l (b : builder F X) (w : world (@bans F D X) S) s tr s',
  (fexec w (test_algorithm_async_text loggable bd t l b) s tr s' (Val None) <-> fexec w (test_algorithm_async bd t l b) s tr s' (Val BPassed)) /\
  ((exists text, fexec w (test_algorithm_async_text loggable bd t l b) s tr s' (Val (Some text))) <->
   (exists es e, fexec w (test_algorithm_async bd t l b) s tr s' (Val (BPanicked es e)))).
Proof.
  intros F D X S loggable bd t l b w s tr s'. unfold test_algorithm_async_text, test_algorithm_async. cbv zeta.
  set (m := retry_with_delays _ _ _).
  assert (K : forall A B (f : resolved (builder F X * D) b_error -> A) (g : resolved (builder F X * D) b_error -> B) a, fexec w (fbind m (fun r => FRet (f r))) s tr s' (Val a) ->
     exists r, f r = a /\ fexec w (fbind m (fun r => FRet (g r))) s tr s' (Val (g r))).
  { intros A B f g a E. apply fexec_bind in E. destruct E as [(x & tr1 & s1 & tr2 & E1 & (-> & -> & E2) & ->)|(p & _ & Y)]; [|discriminate]. apply val_inj in E2. subst a.
    exists x. split; [reflexivity|]. eapply fexec_bind_intro; [exact E1|]. cbn. auto. }
  split; split.
  - intros E. eapply K in E. destruct E as (r & R & E). destruct r; try discriminate; exact E.
  - intros E. eapply K in E. destruct E as (r & R & E). destruct r; try discriminate; exact E.
  - intros [text E]. eapply K in E. destruct E as (r & R & E). destruct r; try discriminate; do 2 eexists; exact E.
  - intros (es & e & E). eapply K in E. destruct E as (r & R & E). destruct r; try discriminate; eexists; exact E.
Qed.
Print Assumptions C97_text_iff_panic.
(** two attempts were made *)
Example C97_example :
  match demo_run (test_algorithm_async_text (String.concat ", ") Debug Tol25 demo_libm demo_builder) with
  | (tr, s', Val (Some text)) => text =
      ("Given up with '" ++ time_text "demo" O1 ON ++ "' after 1 attempts. Previous transient errors: " ++ time_text "demo" O1 ON)%string
  | _ => False
  end.
Proof. vm_compute. reflexivity. Qed.
