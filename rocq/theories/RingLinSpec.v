(** * Linearizability of the ring buffer: the specification.

    A history is what an observer of the callers sees: calls and returns.  It is
    linearizable when every call can be given one instant between its call and
    its return at which the whole call takes place, alone, on the list-based
    specification of RingSpec.v (Herlihy and Wing's condition, stated with the
    instants as explicit steps).  Calls that have not returned may or may not
    have had their instant. *)
From Coq Require Import List ZArith Arith.
From Verif Require Import Machine Ring RingSpec.
Import ListNotations.
Open Scope nat_scope.

(** ** Histories *)
Inductive hev (A : Type) :=
| HCall (t : nat) (op : rop A)      (* thread t calls a method *)
| HRet (t : nat) (out : rout A).    (* thread t's call returns this *)
Arguments HCall {A} t op.
Arguments HRet {A} t out.

Section Lin.
Context {A : Type}.

(** the calls and answers of the concurrent model, in the vocabulary of the sequential one *)
Definition call_of (op : cop A) : rop A :=
  match op with
  | CEnqueue x => Enqueue x
  | CDequeue c => Dequeue c
  | CPeekAll c => PeekAll c
  | CConsumer => NewConsumer
  end.
Definition answer_of (e : event A) : rout A :=
  match e with
  | EvEnqueued _ _ => REnqueued
  | EvConsumer c _ => RConsumer c
  | EvNothing _ => RNothing
  | EvElement _ _ content => RElement content
  | EvOverflow _ _ => ROverflow
  | EvPeeked _ _ _ _ contents => RElements contents
  | EvPeekOverflow _ _ _ => ROverflow
  end.
(** the history of a schedule *)
Fixpoint history (b : build) (s : cstate A) (sched : list (action A)) : list (hev A) :=
  match sched with
  | [] => []
  | a :: rest =>
      match cstep b s a with
      | None => []
      | Some s' =>
          match a with
          | Start t op => [HCall t (call_of op)]
          | Step t _ => map (fun e => HRet t (answer_of e)) (skipn (length (c_events s)) (c_events s'))
          end ++ history b s' rest
      end
  end.

(** ** Linearizability *)
Inductive status :=
| Out                                                    (* no call under way *)
| Pending (op : rop A)                                   (* called, has not taken place yet *)
| Done (before : sstate A) (op : rop A) (out : rout A).  (* took place in state [before]; will return [out] *)

Definition enqueue_pending (st : status) : bool :=
  match st with Pending (Enqueue _) => true | _ => false end.

(** [explained sz early n h s sts]: instants can be chosen in history [h] of [n]
    threads so that the specification is now in state [s], the threads in [sts].
    With [early] a dequeue may, instead of the element it took, return an
    overflow error if by the time it returns more than [sz] elements from its
    own on have been enqueued or are being enqueued. *)
Inductive explained (sz : nat) (early : bool) (n : nat) : list (hev A) -> sstate A -> list status -> Prop :=
| ex_start : explained sz early n [] sinit (repeat Out n)
| ex_call h s sts t op : explained sz early n h s sts -> nth_error sts t = Some Out ->
    explained sz early n (h ++ [HCall t op]) s (upd t (Pending op) sts)
| ex_instant h s sts t op s' out : explained sz early n h s sts -> nth_error sts t = Some (Pending op) ->
    sstep sz s op = (s', out) ->
    explained sz early n h s' (upd t (Done s op out) sts)
| ex_return h s sts t before op out : explained sz early n h s sts -> nth_error sts t = Some (Done before op out) ->
    explained sz early n (h ++ [HRet t out]) s (upd t Out sts)
| ex_early h s sts t before c x k : early = true ->
    explained sz early n h s sts -> nth_error sts t = Some (Done before (Dequeue c) (RElement x)) ->
    nth_error (s_heads before) c = Some k ->
    k + sz < length (s_hist s) + length (filter enqueue_pending sts) ->
    explained sz early n (h ++ [HRet t ROverflow]) s (upd t Out sts).

Definition linearizable (sz n : nat) (h : list (hev A)) : Prop :=
  exists s sts, explained sz false n h s sts.
Definition linearizable_but_for_early_overflows (sz n : nat) (h : list (hev A)) : Prop :=
  exists s sts, explained sz true n h s sts.

(** ** Which histories *)
(** thread [t] is inside a call of [op] at the end of [h] *)
Definition in_progress (h : list (hev A)) (t : nat) (op : rop A) : Prop :=
  exists h1 h2, h = h1 ++ HCall t op :: h2 /\ forall out, ~ In (HRet t out) h2.
(** calls that must not overlap a peek_all on consumer [c] *)
Definition disturbs (c : nat) (op : rop A) : Prop :=
  match op with Enqueue _ => True | Dequeue c' => c' = c | _ => False end.
(** at no moment is a disturbing call under way together with a peek_all *)
Definition peeks_undisturbed (h : list (hev A)) : Prop :=
  forall h1 h2, h = h1 ++ h2 -> forall t c t' op',
  in_progress h1 t (PeekAll c) -> in_progress h1 t' op' -> ~ disturbs c op'.
End Lin.
Arguments status A : clear implicits.
