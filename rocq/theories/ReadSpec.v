(** * How a person reads the numbers of a report (specification; no code of /repo). *)
From Coq Require Import ZArith Reals String Ascii List Bool.
Import ListNotations.
Open Scope Z_scope.

Definition is_digit (c : ascii) : bool := (Nat.leb 48 (nat_of_ascii c) && Nat.leb (nat_of_ascii c) 57)%bool.
Definition digit_value (c : ascii) : Z := Z.of_nat (nat_of_ascii c) - 48.

(** "0"-"9" only; [acc] is the number read so far *)
Fixpoint read_digits (acc : Z) (s : string) : option Z :=
  match s with
  | EmptyString => Some acc
  | String c s => if is_digit c then read_digits (10 * acc + digit_value c) s else None
  end.
(** "1234" is 1234 *)
Definition read_int (s : string) : option Z := if String.eqb s "" then None else read_digits 0 s.

(** the longest beginning of [s] whose characters satisfy [p], and the rest *)
Fixpoint span (p : ascii -> bool) (s : string) : string * string :=
  match s with
  | EmptyString => (EmptyString, EmptyString)
  | String c s' => if p c then let (a, b) := span p s' in (String c a, b) else (EmptyString, s)
  end.

(** "12.34" is 1234 / 10^2 -- also the number of decimals it shows, 2; "12" is 12 / 10^0 *)
Definition read_decimal (s : string) : option (Z * nat) :=
  match span is_digit s with
  | (a, EmptyString) => match read_int a with Some x => Some (x, O) | None => None end
  | (a, String c b) =>
      if Ascii.eqb c "." then
        match read_int a, read_int b with
        | Some x, Some y => Some (x * 10 ^ Z.of_nat (String.length b) + y, String.length b)
        | _, _ => None
        end
      else None
  end.
Definition quantity (x : Z * nat) : R := (IZR (fst x) / 10 ^ snd x)%R.

(** "12.34KiB": a number, then a unit *)
Definition numeric (c : ascii) : bool := is_digit c || Ascii.eqb c ".".
Definition read_amount (s : string) : option (R * string) :=
  let (num, unit) := span numeric s in
  match read_decimal num with Some x => Some (quantity x, unit) | None => None end.
(** the number of decimals shown *)
Definition shown_decimals (s : string) : option nat :=
  match read_decimal (fst (span numeric s)) with Some x => Some (snd x) | None => None end.

(** "1.234e5" is 1.234 * 10^5 *)
Definition read_scientific (s : string) : option R :=
  match span numeric s with
  | (m, String c x) =>
      if Ascii.eqb c "e" then
        match read_decimal m, read_int x with
        | Some q, Some e => Some (quantity q * powerRZ 10 e)%R
        | _, _ => None
        end
      else None
  | _ => None
  end.

(** ** Units *)
(** bytes in a unit of memory *)
Definition bytes_of (unit : string) : option R :=
  if String.eqb unit "b" then Some 1%R
  else if String.eqb unit "KiB" then Some 1024%R
  else if String.eqb unit "MiB" then Some 1048576%R
  else if String.eqb unit "GiB" then Some 1073741824%R
  else if String.eqb unit "TiB" then Some 1099511627776%R
  else None.
(** nanoseconds in a unit of time *)
Definition nanoseconds_of (unit : string) : option R :=
  if String.eqb unit "ns" then Some 1%R
  else if String.eqb unit "µs" then Some 1000%R
  else if String.eqb unit "ms" then Some 1000000%R
  else if String.eqb unit "s" then Some 1000000000%R
  else None.
(** seconds in the units of time of a rate *)
Definition per_seconds (unit : string) : option R :=
  if String.eqb unit "s" then Some 1%R
  else if String.eqb unit "min" then Some 60%R
  else if String.eqb unit "hr" then Some 3600%R
  else None.

(** "12.34KiB" in bytes; "1.5ms" in nanoseconds *)
Definition read_with (units : string -> option R) (s : string) : option R :=
  match read_amount s with
  | Some (x, u) => match units u with Some k => Some (x * k)%R | None => None end
  | None => None
  end.
Definition read_bytes : string -> option R := read_with bytes_of.
Definition read_duration : string -> option R := read_with nanoseconds_of.
(** "12.34KiB/s" in bytes per second; "12.34b/min" too *)
Definition rate_units (u : string) : option R :=
  match span (fun c => negb (Ascii.eqb c "/")) u with
  | (a, String _ b) => match bytes_of a, per_seconds b with Some x, Some y => Some (x / y)%R | _, _ => None end
  | _ => None
  end.
Definition read_byte_rate : string -> option R := read_with rate_units.

(** ** Lines, words, cells *)
Fixpoint split_on (c : ascii) (s : string) : list string :=
  match s with
  | EmptyString => [EmptyString]
  | String a s => if Ascii.eqb a c then EmptyString :: split_on c s
                  else match split_on c s with x :: l => String a x :: l | [] => [String a EmptyString] end
  end.
Definition lines : string -> list string := split_on "010".
Definition words (s : string) : list string := filter (fun x => negb (String.eqb x "")) (split_on " " s).
(** "+4.88KiB": a sign ("+", "-" or none) and an amount in bytes *)
Definition read_memory (s : string) : option (string * R) :=
  let (sign, amount) := match s with
                        | String c s' => if Ascii.eqb c "+" then ("+"%string, s') else if Ascii.eqb c "-" then ("-"%string, s') else (""%string, s)
                        | EmptyString => (""%string, s)
                        end in
  match read_bytes amount with Some x => Some (sign, x) | None => None end.
