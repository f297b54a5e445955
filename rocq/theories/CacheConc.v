(** * The per-unit caches used by several threads.
    Models /repo/src/utils/measurements/presentable_measurements.rs:116-145 and 149-179 (twice the same code,
    with different tables [mk]) on the memory of the [static mut] cache:
    - the cache is [None] or a map from units to the heap buffers of the [Vec]s (growing the map moves the
      [Vec]s, not their buffers);
    - a measurement keeps a slice, that is the address of a buffer (l.142, 177);
    - a call makes three steps: [get_or_insert_with] looks at the cache (1), and, if it saw [None], assigns
      [Some(HashMap::new())] to it (2); the assignment drops what the cache holds at that moment; then
      [entry(..).or_insert_with(..)] (3).
    Simplified: each step is atomic and memory is sequentially consistent. The code uses no synchronisation, so
    overlapping calls are data races (undefined behaviour) anyway; what the model says about them is
    only used to refute. *)
From Coq Require Import List ZArith String Lia.
From Verif Require Import Machine Floats Present.
Import ListNotations.

Section Cache.
(** presentable_measurements.rs:130-139, 163-174: the table of a unit *)
Variable mk : string -> table.

(** address of a buffer *)
Notation addr := nat.
(** presentable_measurements.rs:10-14: [value] and [auto_scale] *)
Record slice_measurement := Measured { sm_value : f64; sm_table : addr }.
(** where a thread is in its call: after step 1 *)
Inductive progress :=
| Outside                        (* in no call *)
| SawNone (v : f64) (u : string) (* l.127, 160: the cache was [None]: going to assign *)
| Ready (v : f64) (u : string).  (* l.128, 161: at [entry] *)
(** presentable_measurements.rs:118, 151: the static, the heap ([None]: freed) and the threads *)
Record cache_state := CacheState {
  cs_map : option (list (string * addr));
  cs_heap : list (option table);
  cs_threads : list progress }.
(** presentable_measurements.rs:118, 151 *)
Definition cache_init (threads : nat) : cache_state := CacheState None [] (repeat Outside threads).

(** std HashMap (no code of /repo) *)
Fixpoint find_unit (u : string) (m : list (string * addr)) : option addr :=
  match m with
  | [] => None
  | (u', a) :: m => if String.eqb u u' then Some a else find_unit u m
  end.
(** bookkeeping (no code of /repo): assignment to a thread's progress *)
Definition set_progress (t : nat) (p : progress) (s : cache_state) : cache_state :=
  CacheState (cs_map s) (cs_heap s) (upd t p (cs_threads s)).
(** dropping a map frees the buffers of its [Vec]s (std; presentable_measurements.rs:127, 160) *)
Definition free_all (m : list (string * addr)) (h : list (option table)) : list (option table) :=
  fold_left (fun h ua => upd (snd ua) None h) m h.

(** ghost (no code of /repo): what a step does, visible from outside *)
Inductive cache_event :=
| CBegin (t : nat) (v : f64) (u : string)                    (* a call begins *)
| CAssign (t : nat)                                          (* the cache is assigned *)
| CEnd (t : nat) (v : f64) (u : string) (m : slice_measurement).  (* a call returns [m] *)

(** presentable_measurements.rs:127-142, 160-177 *)
Inductive cache_step : cache_state -> cache_event -> cache_state -> Prop :=
(* get_or_insert_with: [if let None = self] *)
| cst_begin s t v u : nth_error (cs_threads s) t = Some Outside ->
    cache_step s (CBegin t v u) (set_progress t (match cs_map s with None => SawNone v u | Some _ => Ready v u end) s)
(* [*self = Some(f())] *)
| cst_assign s t v u : nth_error (cs_threads s) t = Some (SawNone v u) ->
    cache_step s (CAssign t)
      (CacheState (Some []) (free_all (match cs_map s with Some m => m | None => [] end) (cs_heap s)) (upd t (Ready v u) (cs_threads s)))
(* entry(custom_unit), occupied *)
| cst_hit s t v u m a : nth_error (cs_threads s) t = Some (Ready v u) -> cs_map s = Some m -> find_unit u m = Some a ->
    cache_step s (CEnd t v u (Measured v a)) (set_progress t Outside s)
(* entry(custom_unit), vacant: a new Vec *)
| cst_miss s t v u m : nth_error (cs_threads s) t = Some (Ready v u) -> cs_map s = Some m -> find_unit u m = None ->
    cache_step s (CEnd t v u (Measured v (length (cs_heap s))))
      (CacheState (Some ((u, length (cs_heap s)) :: m)) (cs_heap s ++ [Some (mk u)]) (upd t Outside (cs_threads s))).

(** executions of any number of threads (no code of /repo) *)
Inductive cache_run : cache_state -> list cache_event -> cache_state -> Prop :=
| crun_nil s : cache_run s [] s
| crun_step s e s1 es s2 : cache_step s e s1 -> cache_run s1 es s2 -> cache_run s (e :: es) s2.

(** presentable_measurements.rs:24-41: [Display] reads through the slice; [None]: the buffer has been freed *)
Definition display_slice (s : cache_state) (m : slice_measurement) : option (res text) :=
  match nth_error (cs_heap s) (sm_table m) with
  | Some (Some t) => Some (display_table t (sm_value m))
  | _ => None
  end.
End Cache.
