(** * The texts of the two panics of test_crud_algorithms.
    Models /repo/src/runners/crud.rs:84-117, 191-195, 362-378 (the strings only; which panic
    happens with which errors is [test_end] in Crud.v).  A Rust string is its bytes: all the
    texts here are ASCII. *)
From Coq Require Import ZArith String Ascii List Bool DecimalString.
From Verif Require Import Machine Complexity Report Crud.
Import ListNotations.
Open Scope Z_scope.

(** [{:?}] of a complexity: types.rs:12 [#[derive(Debug)]] prints the variant's name *)
Definition debug_name (c : complexity) : string :=
  match c with
  | BetterThanO1 => "BetterThanO1"
  | O1 => "O1"
  | BetweenO1AndOLogN => "BetweenO1AndOLogN"
  | OLogN => "OLogN"
  | BetweenOLogNAndON => "BetweenOLogNAndON"
  | ON => "ON"
  | BetweenONAndONLogN => "BetweenONAndONLogN"
  | ONLogN => "ONLogN"
  | BetweenONLogNAndON2 => "BetweenONLogNAndON2"
  | ON2 => "ON2"
  | BetweenON2AndON3 => "BetweenON2AndON3"
  | ON3 => "ON3"
  | BetweenON3AndON4 => "BetweenON3AndON4"
  | ON4 => "ON4"
  | BetweenON4AndOkN => "BetweenON4AndOkN"
  | OkN => "OkN"
  | WorseThanExponential => "WorseThanExponential"
  end%string.
(** crud.rs:368,377: the word in [failed_assertion_msg] *)
Definition what_name (w : what) : string := match w with Time => "TIME" | Space => "SPACE" end%string.

(** crud.rs:368,377 [failed_assertion_msg] *)
Definition failed_assertion_msg (e : crud_error) : string :=
  ("'" ++ operation_name (ce_operation e) ++ "' algorithm was expected to match a maximum " ++ what_name (ce_analysis e) ++
   " complexity of '" ++ debug_name (ce_max e) ++ "', but '" ++ debug_name (ce_complexity e) ++ "' was measured")%string.
(** crud.rs:191-195 *)
Definition error_display (e : crud_error) : string :=
  ("CRUD complexity analysis assertion failed: " ++ failed_assertion_msg e)%string.

(** crud.rs:93 *)
Definition error_key (e : crud_error) : string :=
  (operation_name (ce_operation e) ++ " with " ++ debug_name (ce_complexity e))%string.

(** crud.rs:92: a [BTreeMap<String, u32>] as its entries in ascending (bytewise) key order *)
Definition counts := list (string * Z).
(** crud.rs:94-100: [get_mut] then [+= 1], or [insert(key, 1)] *)
Fixpoint bump (b : build) (key : string) (m : counts) : res counts :=
  match m with
  | [] => Val [(key, 1)]
  | (k, n) :: m' =>
      match String.compare key k with
      | Lt => Val ((key, 1) :: m)
      | Eq => x <- u32_add b n 1 ;; Val ((k, x) :: m')
      | Gt => r <- bump b key m' ;; Val ((k, n) :: r)
      end
  end.
(** crud.rs:91-102: [collected_errors.iter().rfold(..)] visits the last error first *)
Definition unique_failed_operations_count (b : build) (collected : list crud_error) : res counts :=
  fold_right (fun e acc => m <- acc ;; bump b (error_key e) m) (Val []) collected.

(** crud.rs:107 *)
Definition count_line (x : string * Z) : string :=
  (" - " ++ fst x ++ " (" ++ dec (snd x) ++ " time" ++ (if (snd x =? 1)%Z then "" else "s") ++ ")" ++ newline)%string.
(** crud.rs:103-109: [rfold] again: the map's last key comes first *)
Definition previous_errors (m : counts) : string :=
  fold_right (fun x acc => (acc ++ count_line x)%string) EmptyString m.

(** crud.rs:110-112; the [\n\] line continuations swallow the indentation *)
Definition give_up_message (b : build) (max_retry_attempts : Z) (e : crud_error) (collected : list crud_error) : res string :=
  m <- unique_failed_operations_count b collected ;;
  Val ("After " ++ dec max_retry_attempts ++ " attempts, gave up retrying: " ++ error_display e ++ "." ++ newline ++
       "Previous attempts failed at:" ++ newline ++ previous_errors m)%string.
(** crud.rs:116 *)
Definition space_message (b : build) (attempt : Z) (e : crud_error) : res string :=
  a <- u32_add b attempt 1 ;;
  Val ("At attempt #" ++ dec a ++ ", SPACE complexity mismatch: " ++ error_display e ++ newline)%string.

(** crud.rs:110-116: the message test_crud_algorithms panics with, if it panics itself *)
Definition test_message (b : build) (max_retry_attempts : Z) (e : test_end) : option (res string) :=
  match e with
  | Passed => None
  | GaveUp e c => Some (give_up_message b max_retry_attempts e c)
  | SpaceMismatch a e => Some (space_message b a e)
  end.
