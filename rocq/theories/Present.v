(** * Auto-scaled measurements.
    Models /repo/src/utils/measurements/presentable_measurements.rs:9-179.

    Here a text is kept as the number it renders, how, and its suffix;
    PresentText.v turns it into the string.  The two [static mut] caches are one state threaded through the calls
    (the code requires a single thread, presentable_measurements.rs:123-124); a measurement refers to its
    cached table, as the [&'static] slice does, and looks it up when displayed. *)
From Coq Require Import ZArith String List Bool.
From Flocq Require Import Core.Core IEEE754.BinarySingleNaN.
From Verif Require Import Machine Floats Analysis Report.
Import ListNotations.
Open Scope Z_scope.

(** presentable_measurements.rs:12-13: (threshold, scale, unit, format) *)
Record scale_row := ScaleRow { sr_threshold : f64; sr_rate : f64; sr_suffix : string; sr_format : string }.
(** presentable_measurements.rs:13 *)
Definition table := list scale_row.

(** presentable_measurements.rs:32-37: the rendered text *)
Inductive text :=
| TFixed (decimals : nat) (v : f64) (suffix : string)   (* {:.n}{} *)
| TExp (decimals : nat) (v : f64) (suffix : string)     (* {:.ne}{} *)
| TDuration (d : duration).                             (* {:?} of a Duration *)

(** presentable_measurements.rs:31-39: the match on the format *)
Definition render (format : string) (v : f64) (suffix : string) : res text :=
  if String.eqb format ":.0" then Val (TFixed 0 v suffix)
  else if String.eqb format ":.1" then Val (TFixed 1 v suffix)
  else if String.eqb format ":.2" then Val (TFixed 2 v suffix)
  else if String.eqb format ":.3" then Val (TFixed 3 v suffix)
  else if String.eqb format ":.3e" then Val (TExp 3 v suffix)
  else if String.eqb format ":D" then d <- from_secs_f64 v ;; Val (TDuration d)
  else Panic PFormat.

(** presentable_measurements.rs:29 *)
Definition missing_suffix : string := "<missing_unit_suffix_please_fix>"%string.
(** presentable_measurements.rs:24-41 [Display::fmt] *)
Definition display_table (auto_scale : table) (value : f64) : res text :=
  match find (fun r => f64_leb (sr_threshold r) value) auto_scale with
  | None => render ":.2" value missing_suffix
  | Some r => render (sr_format r) (f64_div value (sr_rate r)) (sr_suffix r)
  end.

(** presentable_measurements.rs:47, 66, 96: the literal 0.0 *)
Definition zero64 : f64 := f64_of_int 0.
(** float literals (no code of /repo) *)
Definition lit (n : Z) : f64 := f64_of_int n.
(** presentable_measurements.rs:94, 166 *)
Definition per_minute : f64 := f64_div (lit 1) (lit 60).     (* 1.0/60.0 *)
(** presentable_measurements.rs:95, 167 *)
Definition per_hour : f64 := f64_div (lit 1) (lit 3600).     (* 1.0/3600.0 *)

(** presentable_measurements.rs:46-48 *)
Definition duration_table : table := [ScaleRow zero64 (lit 1) "" ":D"].

(** presentable_measurements.rs:69-74, 99-104: the [map] that builds the rows of both byte tables *)
Definition byte_row (x : f64 * string * string) : scale_row :=
  let '(threshold, suffix, format) := x in
  ScaleRow threshold (if negb (Beqb threshold zero64) then threshold else lit 1) suffix format.
(** presentable_measurements.rs:59-76 *)
Definition bytes_table : table := map byte_row
  [ (lit (Z.shiftl 1 40), "TiB", ":.2");
    (lit (Z.shiftl 1 30), "GiB", ":.2");
    (lit (Z.shiftl 1 20), "MiB", ":.2");
    (lit (Z.shiftl 1 10), "KiB", ":.2");
    (lit 1, "b", ":.0");
    (zero64, "b", ":.0") ]%string.
(** presentable_measurements.rs:87-106 *)
Definition byte_rate_table : table := map byte_row
  [ (lit (Z.shiftl 1 40), "TiB/s", ":.2");
    (lit (Z.shiftl 1 30), "GiB/s", ":.2");
    (lit (Z.shiftl 1 20), "MiB/s", ":.2");
    (lit (Z.shiftl 1 10), "KiB/s", ":.2");
    (lit 1, "b/s", ":.2");
    (per_minute, "b/min", ":.2");
    (per_hour, "b/hr", ":.2");
    (zero64, "b/s", ":.0") ]%string.
(** presentable_measurements.rs:130-137 *)
Definition unit_table (custom_unit : string) : table :=
  map (fun x : f64 * string * string => let '(threshold, suffix, format) := x in ScaleRow threshold (lit 1) suffix format)
  [ (lit 100000, custom_unit, ":.3e");
    (lit 1, custom_unit, ":.2");
    (zero64, custom_unit, ":.0") ]%string.
(** presentable_measurements.rs:163-172 *)
Definition unit_rate_table (custom_unit : string) : table :=
  [ ScaleRow (lit 100000) (lit 1) (custom_unit ++ "/s") ":.3e";
    ScaleRow (lit 1) (lit 1) (custom_unit ++ "/s") ":.2";
    ScaleRow per_minute per_minute (custom_unit ++ "/min") ":.2";
    ScaleRow per_hour per_hour (custom_unit ++ "/hr") ":.2";
    ScaleRow zero64 (lit 1) (custom_unit ++ "/s") ":.0" ]%string.

(** ** The caches (presentable_measurements.rs:118 and 151): [Option<HashMap<&str, Vec<..>>>] *)
(** std HashMap (no code of /repo) *)
Definition hash_map := list (string * table).
(** std HashMap (no code of /repo) *)
Fixpoint lookup (k : string) (m : hash_map) : option table :=
  match m with
  | [] => None
  | (k', v) :: m => if String.eqb k k' then Some v else lookup k m
  end.
(** presentable_measurements.rs:127, 160; [get_or_insert_with(HashMap::new).entry(k).or_insert_with(|| mk)] *)
Definition get_or_insert (c : option hash_map) : hash_map := match c with Some m => m | None => [] end.
(** presentable_measurements.rs:128-129, 161-162 *)
Definition or_insert (k : string) (mk : table) (m : hash_map) : hash_map :=
  match lookup k m with Some _ => m | None => (k, mk) :: m end.

(** presentable_measurements.rs:118, 151 *)
Record caches := Caches { ca_unit : option hash_map; ca_unit_rate : option hash_map }.
(** presentable_measurements.rs:118, 151: initially [None] *)
Definition no_caches : caches := Caches None None.

(** presentable_measurements.rs:13: a measurement: presentable_measurements.rs:10-14; [auto_scale] is a constant table or a slice of a cached one *)
Inductive table_ref := Static (t : table) | CachedUnit (u : string) | CachedUnitRate (u : string).
(** presentable_measurements.rs:10-14 *)
Record presentable := Presentable { pm_value : f64; pm_scale : table_ref }.
(** presentable_measurements.rs:15-22 *)
Definition presentable_default : presentable := Presentable zero64 (Static []).

(** presentable_measurements.rs:45-54 *)
Definition duration_measurement (d : duration) : presentable := Presentable (as_secs_f64 d) (Static duration_table).
(** presentable_measurements.rs:58-82 *)
Definition bytes_measurement (v : f64) : presentable := Presentable v (Static bytes_table).
(** presentable_measurements.rs:86-112 *)
Definition bytes_per_second_measurement (v : f64) : presentable := Presentable v (Static byte_rate_table).
(** presentable_measurements.rs:116-145 *)
Definition custom_unit_measurement (c : caches) (v : f64) (u : string) : presentable * caches :=
  (Presentable v (CachedUnit u),
   Caches (Some (or_insert u (unit_table u) (get_or_insert (ca_unit c)))) (ca_unit_rate c)).
(** presentable_measurements.rs:149-179 *)
Definition custom_unit_per_second_measurement (c : caches) (v : f64) (u : string) : presentable * caches :=
  (Presentable v (CachedUnitRate u),
   Caches (ca_unit c) (Some (or_insert u (unit_rate_table u) (get_or_insert (ca_unit_rate c))))).

(** presentable_measurements.rs:26, 52, 80, 110, 142, 177; the slice behind a measurement; [None] would be a dangling reference *)
Definition deref (c : caches) (r : table_ref) : option table :=
  match r with
  | Static t => Some t
  | CachedUnit u => match ca_unit c with Some m => lookup u m | None => None end
  | CachedUnitRate u => match ca_unit_rate c with Some m => lookup u m | None => None end
  end.
(** presentable_measurements.rs:24-41 *)
Definition display (c : caches) (p : presentable) : option (res text) :=
  match deref c (pm_scale p) with
  | Some t => Some (display_table t (pm_value p))
  | None => None
  end.
