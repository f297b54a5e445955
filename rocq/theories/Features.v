(** * Conditional compilation: which constants a set of Cargo features defines.
    Models /repo/src/features.rs:7-38 and /repo/Cargo.toml [features]. *)
From Coq Require Import List String Bool.
From Verif Require Import Machine Analysis.
Import ListNotations.
Open Scope string_scope.

(** conditional compilation (no code of /repo). Rust's [cfg(..)] predicates *)
Inductive cfg :=
| Feature (name : string)
| CNot (c : cfg)
| CAny (l : list cfg).

(** /repo/Cargo.toml:15-36 (features.rs:7-38 refers to them by name) *)
Definition features := list string.
(** conditional compilation (no code of /repo) *)
Fixpoint enabled (fs : features) (c : cfg) : bool :=
  match c with
  | Feature n => existsb (String.eqb n) fs
  | CNot c => negb (enabled fs c)
  | CAny l => existsb (enabled fs) l
  end.

(** features.rs:46-66 *)
Inductive sink := SinkStdout | SinkStderr | SinkNull.
(** features.rs:27-38: the allocator behind [ALLOC] is installed as #[global_allocator] or not *)
Inductive alloc_kind := Global | Detached.

(** features.rs:7-13 *)
Definition percent_tolerance : list (cfg * tolerance) :=
  [ (CAny [Feature "tolerance_10_percent"; CNot (CAny [Feature "tolerance_25_percent"])], Tol10);
    (Feature "tolerance_25_percent", Tol25) ].
(** features.rs:15-25 *)
Definition output : list (cfg * sink) :=
  [ (Feature "report_stdout", SinkStdout);
    (Feature "report_stderr", SinkStderr);
    (CNot (CAny [Feature "report_stdout"; Feature "report_stderr"]), SinkNull) ].
(** features.rs:27-38 *)
Definition alloc_static : list (cfg * alloc_kind) :=
  [ (CNot (Feature "no_allocator_metrics"), Global);
    (Feature "no_allocator_metrics", Detached) ].

(** the definitions left after conditional compilation; a name with no or several
    definitions does not compile *)
(** conditional compilation (no code of /repo) *)
Definition active {A} (fs : features) (items : list (cfg * A)) : list A :=
  map snd (filter (fun d => enabled fs (fst d)) items).
(** features.rs:7-38 *)
Definition compiles (fs : features) : Prop :=
  length (active fs percent_tolerance) = 1%nat /\
  length (active fs output) = 1%nat /\
  length (active fs alloc_static) = 1%nat.

(** /repo/Cargo.toml:16-20 (features.rs). Cargo.toml: default = ["report_stdout", "tolerance_10_percent", "async"] *)
Definition default_features : features := ["report_stdout"; "tolerance_10_percent"; "async"].
