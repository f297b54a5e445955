(** * The text of a measurement.
    Models /repo/src/utils/measurements/presentable_measurements.rs:24-41: the string
    [PresentableMeasurement]'s [Display] writes. *)
From Coq Require Import ZArith String.
From Verif Require Import Machine Floats Analysis Report Present Format.
Open Scope string_scope.

(** presentable_measurements.rs:32-37: the [write!]s *)
Definition text_string (t : text) : string :=
  match t with
  | TFixed k v suffix => fixed k v ++ suffix
  | TExp k v suffix => exponential k v ++ suffix
  | TDuration d => duration_debug d
  end.
(** presentable_measurements.rs:24-41 [to_string]; [None] would be a dangling table *)
Definition to_string (c : caches) (p : presentable) : option (res string) :=
  match display c p with
  | Some r => Some (x <- r ;; Val (text_string x))
  | None => None
  end.
