(** * The duration reported by an iterator pass.
    Models /repo/src/runners/common.rs:135-147: the running average of the threads'
    durations, in f64 seconds, and its conversion back to a [Duration]. *)
From Coq Require Import ZArith List.
From Flocq Require Import IEEE754.BinarySingleNaN.
From Verif Require Import Machine Floats Analysis Report.
Import ListNotations.
Open Scope Z_scope.

(** common.rs:143: [elapsed_seconds_average += thread_elapsed_seconds as f64 / threads as f64] *)
Definition add_thread (threads : Z) (average : f64) (d : duration) : f64 :=
  f64_add average (f64_div (as_secs_f64 d) (f64_of_int threads)).
(** common.rs:135-145; [threads] is the u32 parameter *)
Definition elapsed_seconds_average (threads : Z) (durations : list duration) : f64 :=
  fold_left (add_thread threads) durations (f64_of_int 0).
(** common.rs:147 *)
Definition pass_time (threads : Z) (durations : list duration) : res duration :=
  from_secs_f64 (elapsed_seconds_average threads durations).
