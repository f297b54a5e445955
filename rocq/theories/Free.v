(** * Programs that ask the user's closures questions, and keen_retry's retry loop.

    A program asks queries [q : Q] and continues with an answer of type [Ans q]; a
    closure may also panic.  Used for the two single-threaded runners
    (standard.rs, regular_async_builder.rs) and the custom measurers. *)
From Coq Require Import List ZArith Lia.
From Verif Require Import Machine.
Import ListNotations.

Section Free.
Context {Q : Type} (Ans : Q -> Type).

(** vocabulary of programs (no code of /repo) *)
Inductive fprog (A : Type) : Type :=
| FRet (a : A)
| FStop (p : panic)
| FAsk (q : Q) (k : Ans q -> fprog A).
Arguments FRet {A}. Arguments FStop {A}. Arguments FAsk {A}.

(** vocabulary of programs (no code of /repo) *)
Fixpoint fbind {A B} (m : fprog A) (k : A -> fprog B) : fprog B :=
  match m with
  | FRet a => k a
  | FStop p => FStop p
  | FAsk q c => FAsk q (fun a => fbind (c a) k)
  end.
(** vocabulary of programs (no code of /repo) *)
Definition ask (q : Q) : fprog (Ans q) := FAsk q FRet.
(** vocabulary of programs (no code of /repo) *)
Definition flift {A} (m : res A) : fprog A :=
  match m with Val a => FRet a | Panic p => FStop p | Spin => FStop PBugLoop end.

(** ghost (no code of /repo); what happened: queries and their answers ([None]: the closure panicked) *)
Record fevent := FEv { ev_query : Q; ev_answer : option (Ans ev_query) }.

(** The world: closures with shared state [S], and what is measured around their
    calls.  [w s q s' a]: in state [s], query [q] may answer [a] and leave [s']. *)
(** vocabulary of programs (no code of /repo) *)
Definition world (S : Type) := S -> forall q, S -> option (Ans q) -> Prop.

(** vocabulary of programs (no code of /repo) *)
Fixpoint fexec {S A} (w : world S) (m : fprog A) (s : S) (tr : list fevent) (s' : S) (o : res A) : Prop :=
  match m with
  | FRet a => tr = [] /\ s' = s /\ o = Val a
  | FStop p => tr = [] /\ s' = s /\ o = Panic p
  | FAsk q k =>
      (exists a s1 tr', w s q s1 (Some a) /\ fexec w (k a) s1 tr' s' o /\ tr = FEv q (Some a) :: tr')
      \/ (w s q s' None /\ tr = [FEv q None] /\ o = Panic PClosure)
  end.

(** ** keen_retry (external crate; assumed to work as it documents):
    [first.retry_with(op).with_delays(delays)] with [n] delays.  The sleeping is not modelled. *)
(** keen_retry (no code of /repo) *)
Inductive retry_result (I O E : Type) :=
| ROk (o : O)
| RTransient (i : I) (e : E)
| RFatal (i : I) (e : E).
(** keen_retry (no code of /repo) *)
Inductive resolved (O E : Type) :=
| ResOk (o : O)
| ResFatal (e : E)
| ResRecovered (retry_errors : list E) (o : O)
| ResGivenUp (retry_errors : list E) (fatal_error : E)
| ResUnrecoverable (retry_errors : list E) (fatal_error : E).
Arguments ROk {I O E}. Arguments RTransient {I O E}. Arguments RFatal {I O E}.
Arguments ResOk {O E}. Arguments ResFatal {O E}. Arguments ResRecovered {O E}. Arguments ResGivenUp {O E}. Arguments ResUnrecoverable {O E}.

Section Retry.
Context {I O E : Type} (op : I -> fprog (retry_result I O E)).
(** keen_retry (no code of /repo) *)
Fixpoint retry_loop (n : nat) (i : I) (errs : list E) (e : E) : fprog (resolved O E) :=
  match n with
  | 0%nat => FRet (ResGivenUp errs e)
  | Datatypes.S n => fbind (op i) (fun r =>
      match r with
      | ROk o => FRet (ResRecovered (errs ++ [e]) o)
      | RFatal _ f => FRet (ResUnrecoverable (errs ++ [e]) f)
      | RTransient i' e' => retry_loop n i' (errs ++ [e]) e'
      end)
  end.
(** keen_retry (no code of /repo); called at standard.rs:32-54 and regular_async_builder.rs:61-80 *)
Definition retry_with_delays (first : fprog (retry_result I O E)) (n : nat) : fprog (resolved O E) :=
  fbind first (fun r =>
    match r with
    | ROk o => FRet (ResOk o)
    | RFatal _ f => FRet (ResFatal f)
    | RTransient i e => retry_loop n i [] e
    end).

(** ** Specification: successive runs.  [tries p s fs r tr s']: [p] was run, then
    for every transient failure [(i, e)] in [fs], in order, [op i]; the last run
    ended with [r]. *)
Inductive tries {S} (w : world S) : fprog (retry_result I O E) -> S -> list (I * E) -> retry_result I O E -> list fevent -> S -> Prop :=
| tries_last p s tr s' r : fexec w p s tr s' (Val r) -> tries w p s [] r tr s'
| tries_again p s tr s1 i e fs r tr' s' :
    fexec w p s tr s1 (Val (RTransient i e)) -> tries w (op i) s1 fs r tr' s' ->
    tries w p s ((i, e) :: fs) r (tr ++ tr') s'.
End Retry.
End Free.
Arguments FRet {Q Ans A}. Arguments FStop {Q Ans A}. Arguments FAsk {Q Ans A}.
Arguments ROk {I O E}. Arguments RTransient {I O E}. Arguments RFatal {I O E}.
Arguments ResOk {O E}. Arguments ResFatal {O E}. Arguments ResRecovered {O E}. Arguments ResGivenUp {O E}. Arguments ResUnrecoverable {O E}.
Arguments FEv {Q Ans}. Arguments ev_query {Q Ans}. Arguments ev_answer {Q Ans}.
Arguments ask {Q Ans}. Arguments flift {Q Ans A}. Arguments fbind {Q Ans A B}.
Arguments fexec {Q Ans S A}. Arguments tries {Q Ans I O E} op {S}.
Arguments retry_loop {Q Ans I O E}. Arguments retry_with_delays {Q Ans I O E}.

Section Lemmas.
Context {Q : Type} {Ans : Q -> Type} {S : Type} (w : world Ans S).
Lemma fexec_ret {A} (a : A) s : fexec w (FRet a) s [] s (Val a).
Proof. cbn. auto. Qed.
Lemma fexec_bind {A B} (m : fprog Ans A) (k : A -> fprog Ans B) : forall s tr s' o,
  fexec w (fbind m k) s tr s' o ->
  (exists x tr1 s1 tr2, fexec w m s tr1 s1 (Val x) /\ fexec w (k x) s1 tr2 s' o /\ tr = tr1 ++ tr2) \/
  (exists p, fexec w m s tr s' (Panic p) /\ o = Panic p).
Proof.
  induction m as [a|p|q c IH]; intros s tr s' o E; cbn [fbind] in E.
  - left. exists a, [], s, tr. repeat split; exact E.
  - right. destruct E as (-> & -> & ->). exists p. repeat split.
  - destruct E as [(a & s1 & tr' & W & X & ->)|(W & -> & ->)].
    + destruct (IH a _ _ _ _ X) as [(x & tr1 & s3 & tr2 & E1 & E2 & ->)|(p & E1 & ->)].
      * left. exists x, (FEv q (Some a) :: tr1), s3, tr2. repeat split; [left; eauto 8|exact E2].
      * right. exists p. split; [left; eauto 8|reflexivity].
    + right. exists PClosure. split; [right; auto|reflexivity].
Qed.
Lemma fexec_bind_intro {A B} (m : fprog Ans A) (k : A -> fprog Ans B) : forall s tr1 s1 x tr2 s' o,
  fexec w m s tr1 s1 (Val x) -> fexec w (k x) s1 tr2 s' o -> fexec w (fbind m k) s (tr1 ++ tr2) s' o.
Proof.
  induction m as [a|p|q c IH]; intros s tr1 s1 x tr2 s' o E1 E2; cbn [fbind].
  - destruct E1 as (-> & -> & E1). injection E1 as ->. exact E2.
  - destruct E1 as (_ & _ & E1). discriminate.
  - destruct E1 as [(a & s2 & tr' & W & X & ->)|(_ & _ & E1)]; [|discriminate].
    cbn [app fexec]. left. exists a, s2, (tr' ++ tr2). split; [exact W|]. split; [eapply IH; eassumption|reflexivity].
Qed.
Lemma fexec_no_spin {A} (m : fprog Ans A) : forall s tr s' o, fexec w m s tr s' o -> o <> Spin.
Proof.
  induction m as [a|p|q c IH]; intros s tr s' o E; [destruct E as (_ & _ & ->); discriminate|destruct E as (_ & _ & ->); discriminate|].
  destruct E as [(a & s2 & tr' & W & X & ->)|(_ & _ & ->)]; [eapply IH; exact X|discriminate].
Qed.
Lemma flift_exec {A B} (m : res A) (k : A -> fprog Ans B) s tr s' o : fexec w (fbind (flift m) k) s tr s' o ->
  (exists a, m = Val a /\ fexec w (k a) s tr s' o) \/ ((forall a, m <> Val a) /\ tr = [] /\ s' = s /\ exists p, o = Panic p).
Proof.
  intros E. destruct m as [a|p|]; cbn [flift fbind] in E; [left; eauto| |]; right; destruct E as (-> & -> & ->); repeat split; eauto; discriminate.
Qed.

Section Retry.
Context {I O E : Type} (op : I -> fprog Ans (retry_result I O E)).
(** specification (no code of /repo) *)
Definition loop_post (n : nat) (i : I) (errs : list E) (e : E) s tr s' (out : resolved O E) : Prop :=
  match out with
  | ResOk _ | ResFatal _ => False
  | ResRecovered es o => exists fs, tries op w (op i) s fs (ROk o) tr s' /\ es = errs ++ e :: map snd fs /\ (length fs < n)%nat
  | ResUnrecoverable es f => exists fs i', tries op w (op i) s fs (RFatal i' f) tr s' /\ es = errs ++ e :: map snd fs /\ (length fs < n)%nat
  | ResGivenUp es f =>
      (n = 0%nat /\ es = errs /\ f = e /\ tr = [] /\ s' = s) \/
      (exists fs i', tries op w (op i) s fs (RTransient i' f) tr s' /\ es = errs ++ e :: map snd fs /\ Datatypes.S (length fs) = n)
  end.
Lemma retry_loop_spec n : forall i errs e s tr s' out,
  fexec w (retry_loop op n i errs e) s tr s' (Val out) -> loop_post n i errs e s tr s' out.
Proof.
  induction n as [|n IH]; intros i errs e s tr s' out X; cbn [retry_loop] in X.
  - destruct X as (-> & -> & X). injection X as ->. cbn. left. auto.
  - apply fexec_bind in X. destruct X as [(r & tr1 & s1 & tr2 & E1 & E2 & ->)|(p & _ & H)]; [|discriminate].
    destruct r as [o|i' e'|i' f].
    + destruct E2 as (-> & -> & E2). injection E2 as ->. rewrite app_nil_r. cbn. exists []. split; [constructor; exact E1|]. split; [reflexivity|cbn; lia].
    + apply IH in E2. destruct out as [o|f|es o|es f|es f]; cbn in E2 |- *; try contradiction.
      * destruct E2 as (fs & T & -> & L). exists ((i', e') :: fs). split; [econstructor; eassumption|]. split; [cbn; rewrite <- app_assoc; reflexivity|cbn; lia].
      * right. destruct E2 as [(-> & -> & -> & -> & ->)|(fs & i'' & T & -> & L)].
        -- exists [], i'. rewrite app_nil_r. split; [constructor; exact E1|]. split; reflexivity.
        -- exists ((i', e') :: fs), i''. split; [econstructor; eassumption|]. split; [cbn; rewrite <- app_assoc; reflexivity|cbn; lia].
      * destruct E2 as (fs & i'' & T & -> & L). exists ((i', e') :: fs), i''. split; [econstructor; eassumption|]. split; [cbn; rewrite <- app_assoc; reflexivity|cbn; lia].
    + destruct E2 as (-> & -> & E2). injection E2 as ->. rewrite app_nil_r. cbn. exists [], i'. split; [constructor; exact E1|]. split; [reflexivity|cbn; lia].
Qed.
Theorem retry_spec first n s tr s' out :
  fexec w (retry_with_delays op first n) s tr s' (Val out) ->
  match out with
  | ResOk o => tries op w first s [] (ROk o) tr s'
  | ResFatal f => exists i, tries op w first s [] (RFatal i f) tr s'
  | ResRecovered es o => exists fs, tries op w first s fs (ROk o) tr s' /\ es = map snd fs /\ (0 < length fs <= n)%nat
  | ResGivenUp es f => exists fs i, tries op w first s fs (RTransient i f) tr s' /\ es = map snd fs /\ length fs = n
  | ResUnrecoverable es f => exists fs i, tries op w first s fs (RFatal i f) tr s' /\ es = map snd fs /\ (0 < length fs <= n)%nat
  end.
Proof.
  intros X. unfold retry_with_delays in X. apply fexec_bind in X. destruct X as [(r & tr1 & s1 & tr2 & E1 & E2 & ->)|(p & _ & H)]; [|discriminate].
  destruct r as [o|i e|i f].
  - destruct E2 as (-> & -> & E2). injection E2 as ->. rewrite app_nil_r. constructor. exact E1.
  - apply retry_loop_spec in E2. destruct out as [o|f|es o|es f|es f]; cbn in E2; try contradiction.
    + destruct E2 as (fs & T & -> & L). exists ((i, e) :: fs). split; [econstructor; eassumption|]. split; [reflexivity|cbn; lia].
    + destruct E2 as [(-> & -> & -> & -> & ->)|(fs & i'' & T & -> & L)].
      * exists [], i. rewrite app_nil_r. split; [constructor; exact E1|]. split; reflexivity.
      * exists ((i, e) :: fs), i''. split; [econstructor; eassumption|]. split; [reflexivity|cbn; lia].
    + destruct E2 as (fs & i'' & T & -> & L). exists ((i, e) :: fs), i''. split; [econstructor; eassumption|]. split; [reflexivity|cbn; lia].
  - destruct E2 as (-> & -> & E2). injection E2 as ->. rewrite app_nil_r. exists i. constructor. exact E1.
Qed.
(** the loop panics only where a run panics *)
Lemma retry_loop_panic n : forall i errs e s tr s' p, fexec w (retry_loop op n i errs e) s tr s' (Panic p) ->
  exists i' s0 tr0 q, fexec w (op i') s0 tr0 s' (Panic q) /\ exists tr1, tr = tr1 ++ tr0.
Proof.
  induction n as [|n IH]; intros i errs e s tr s' p X; cbn [retry_loop] in X; [destruct X as (_ & _ & X); discriminate|].
  apply fexec_bind in X. destruct X as [(r & tr1 & s1 & tr2 & E1 & E2 & ->)|(q & E1 & H)].
  - destruct r as [o|i' e'|i' f]; [destruct E2 as (_ & _ & E2); discriminate| |destruct E2 as (_ & _ & E2); discriminate]. apply IH in E2. destruct E2 as (i2 & s0 & tr0 & q & E2 & tr3 & ->).
    exists i2, s0, tr0, q. split; [exact E2|]. exists (tr1 ++ tr3). rewrite app_assoc. reflexivity.
  - exists i, s, tr, q. split; [exact E1|]. exists []. reflexivity.
Qed.
Lemma retry_panic first n s tr s' p : fexec w (retry_with_delays op first n) s tr s' (Panic p) ->
  (exists q, fexec w first s tr s' (Panic q)) \/
  exists i' s0 tr0 q, fexec w (op i') s0 tr0 s' (Panic q) /\ exists tr1, tr = tr1 ++ tr0.
Proof.
  intros X. unfold retry_with_delays in X. apply fexec_bind in X. destruct X as [(r & tr1 & s1 & tr2 & E1 & E2 & ->)|(q & E1 & H)].
  - destruct r as [o|i e|i f]; [destruct E2 as (_ & _ & E2); discriminate| |destruct E2 as (_ & _ & E2); discriminate]. right. apply retry_loop_panic in E2. destruct E2 as (i2 & s0 & tr0 & q & E2 & tr3 & ->).
    exists i2, s0, tr0, q. split; [exact E2|]. exists (tr1 ++ tr3). rewrite app_assoc. reflexivity.
  - left. eauto.
Qed.
End Retry.

(** specification (no code of /repo); an execution exists if the world always has an answer *)
Definition answers : Prop := forall s q, exists s' a, w s q s' a.
Lemma fexec_exists {A} (m : fprog Ans A) : answers -> forall s, exists tr s' o, fexec w m s tr s' o.
Proof.
  intros AN. induction m as [a|p|q c IH]; intros s; [exists [], s, (Val a); cbn; auto|exists [], s, (Panic p); cbn; auto|].
  destruct (AN s q) as (s1 & [a|] & W).
  - destruct (IH a s1) as (tr & s' & o & E). exists (FEv q (Some a) :: tr), s', o. left. eauto 8.
  - exists [FEv q None], s1, (Panic PClosure). right. auto.
Qed.
End Lemmas.
