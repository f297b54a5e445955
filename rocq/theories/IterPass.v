(** * One pass of an iterator algorithm, possibly on several threads.
    Models /repo/src/runners/common.rs:72-178 [run_iterator_pass]. *)
From Coq Require Import List ZArith Lia Bool.
From Verif Require Import Machine.
Import ListNotations.
Open Scope Z_scope.

(** types.rs:41-48 [BigOIteratorAlgorithmType] *)
Inductive algorithm_type := ConstantSet | SetResizing.

(** common.rs:75: [Range<u32>]: [r_start .. r_end] *)
Record range := Range { r_start : Z; r_end : Z }.

(** common.rs:92, 96, 103, 107; [for e in a..b] (Rust's half-open range; empty when [b <= a]) *)
Definition ascending (a b : Z) : list Z := zseq a (Z.to_nat (b - a)).

(** common.rs:89-112: the arguments a thread passes to the closure, in order.
    Both arms of the [match] are written out, as in the source. *)
Definition thread_calls (ty : algorithm_type) (r : range) : list Z :=
  match ty with
  | ConstantSet =>
      if r_end r <? r_start r then rev (ascending (r_end r) (r_start r))
      else ascending (r_start r) (r_end r)
  | SetResizing =>
      if r_end r <? r_start r then rev (ascending (r_end r) (r_start r))
      else ascending (r_start r) (r_end r)
  end.

(** bookkeeping (no code of /repo). Evaluate a list of fallible computations from left to right *)
Fixpoint res_list {A} (l : list (res A)) : res (list A) :=
  match l with
  | [] => Val []
  | m :: rest => x <- m ;; xs <- res_list rest ;; Val (x :: xs)
  end.

(** common.rs:129-130: the range of thread [n]:
    [i32_range.start+chunk_size*n .. i32_range.start+chunk_size*(n+1)], cast to u32. *)
Definition chunk (b : build) (i32_start chunk_size n : Z) : res range :=
  x <- i32_mul b chunk_size n ;;
  s <- i32_add b i32_start x ;;
  n1 <- i32_add b n 1 ;;
  y <- i32_mul b chunk_size n1 ;;
  e <- i32_add b i32_start y ;;
  Val (Range (i32_as_u32 s) (i32_as_u32 e)).

(** common.rs:124-131: [i32_range = range.end as i32 .. range.start as i32],
    [chunk_size = (i32_range.end-i32_range.start)/threads as i32], and the loop
    [for n in 0..threads as i32] that spawns the threads.
    Simplified: all chunks are computed before the first thread runs; lemma
    [chunks_panic] in IterPassProofs.v shows a chunk computation never panics once
    the first thread has been spawned, so nothing is lost. *)
Definition chunks (b : build) (r : range) (threads : Z) : res (list range) :=
  let i32_start := u32_as_i32 (r_end r) in
  let i32_end := u32_as_i32 (r_start r) in
  diff <- i32_sub b i32_end i32_start ;;
  chunk_size <- i32_div diff (u32_as_i32 threads) ;;
  res_list (map (chunk b i32_start chunk_size) (ascending 0 (u32_as_i32 threads))).

(** ** Execution: one call of the closure per step, threads interleaved arbitrarily.

    The closure may have state (it is [Fn + Sync], so interior mutability is
    allowed) and may panic.  Simplified: a call is one step; what a closure does
    in parallel with another call is up to the closure and not modelled. *)
Section Exec.
Context {S : Type}.
(** the user's closure: state, argument -> new state, returned u32 or a panic *)
Variable closure : S -> Z -> S * option Z.

Inductive thread :=
| Running (todo : list Z) (thread_r : Z)      (* common.rs:84-112 *)
| Dead.                                       (* the closure panicked in this thread *)

(** common.rs:84-145: the closure's state and the threads *)
Record pass_state := PassState {
  p_env : S;
  p_threads : list thread;
  p_log : list (nat * Z)          (* (thread, argument) of every call, in order *)
}.

(** common.rs:84,129-131: every thread starts with [thread_r = range.end]. *)
Definition spawn (ty : algorithm_type) (c : range) : thread := Running (thread_calls ty c) (r_end c).
(** common.rs:126-131: all threads are spawned *)
Definition pass_init (ty : algorithm_type) (env : S) (cs : list range) : pass_state :=
  PassState env (map (spawn ty) cs) [].

(** common.rs:93,97,104,108: [thread_r ^= iterator_algorithm(e)] in thread [t]. *)
Definition pass_step (t : nat) (s : pass_state) : option pass_state :=
  match nth_error (p_threads s) t with
  | Some (Running (e :: todo) acc) =>
      let (env, v) := closure (p_env s) e in
      let th := match v with Some v => Running todo (Z.lxor acc v) | None => Dead end in
      Some (PassState env (upd t th (p_threads s)) (p_log s ++ [(t, e)]))
  | _ => None
  end.

(** scheduler (no code of /repo) *)
Fixpoint pass_run (s : pass_state) (sched : list nat) : option pass_state :=
  match sched with
  | [] => Some s
  | t :: rest => match pass_step t s with Some s' => pass_run s' rest | None => None end
  end.

(** vocabulary (no code of /repo) *)
Definition finished (th : thread) : Prop := match th with Running (_ :: _) _ => False | _ => True end.
(** vocabulary (no code of /repo) *)
Definition all_finished (s : pass_state) : Prop := Forall finished (p_threads s).

(** common.rs:134-145: [r = range.start+1], then join every thread in order and
    xor its result; a thread that panicked makes the pass panic. *)
Fixpoint join (ths : list thread) (r : Z) : res Z :=
  match ths with
  | [] => Val r
  | Running _ acc :: rest => join rest (Z.lxor r acc)
  | Dead :: _ => Panic PClosure
  end.
(** common.rs:134-145 *)
Definition finish (b : build) (r : range) (s : pass_state) : res Z :=
  x <- u32_add b (r_start r) 1 ;; join (p_threads s) x.

(** A complete pass: the calls it makes, the closure's final state and what it
    returns (the u32).  [schedule] picks the interleaving. *)
(** common.rs:72-178 *)
Inductive iterator_pass (b : build) (ty : algorithm_type) (r : range) (threads : Z) (env : S)
  : list (nat * Z) -> S -> res Z -> Prop :=
| pass_done cs sched s :
    chunks b r threads = Val cs ->
    pass_run (pass_init ty env cs) sched = Some s ->
    all_finished s ->
    iterator_pass b ty r threads env (p_log s) (p_env s) (finish b r s)
| pass_no_chunks p :
    chunks b r threads = Panic p ->
    iterator_pass b ty r threads env [] env (Panic p).
End Exec.
Arguments pass_state : clear implicits.
