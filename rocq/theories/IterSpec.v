(** * What a pass over a range is specified to do: vocabulary for C29-C33, C60.
    Nothing here mentions chunks, casts or signed arithmetic. *)
From Coq Require Import List ZArith Lia Bool.
From Verif Require Import Machine IterPass.
Import ListNotations.
Open Scope Z_scope.

(** a <= b: the iterations a user asks for with [a..b]; descending ranges [b..a] ask for the same *)
Definition lowest (r : range) : Z := Z.min (r_start r) (r_end r).
Definition highest (r : range) : Z := Z.max (r_start r) (r_end r).
Definition len (r : range) : Z := highest r - lowest r.
(** lowest, lowest+1, ..., highest-1 *)
Definition indices (r : range) : list Z := zseq (lowest r) (Z.to_nat (len r)).
(** [k] consecutive indices from [a] *)
Definition block (a k : Z) : list Z := zseq a (Z.to_nat k).

Definition calls (log : list (nat * Z)) : list Z := map snd log.
Definition calls_of (t : nat) (log : list (nat * Z)) : list Z :=
  map snd (filter (fun c => Nat.eqb (fst c) t) log).

(** a range of u32s, a usable number of threads *)
Definition u32_range (r : range) : Prop := 0 <= r_start r < two32 /\ 0 <= r_end r < two32.
(** Ranges on which i32 arithmetic is harmless: in a debug build those that stay
    on one side of 2^31 (in particular all ranges below 2^31); in a release build
    all those of fewer than 2^31 elements. *)
Definition one_side (r : range) : Prop := r_start r < two31 <-> r_end r < two31.
Definition fits (b : build) (r : range) : Prop :=
  u32_range r /\ r_start r < two32 - 1 /\
  match b with Debug => one_side r | Release => len r < two31 end.

(** a closure that always returns *)
Definition total {S} (f : S -> Z -> S * option Z) : Prop := forall s x, snd (f s x) <> None.
(** a closure without state that always returns *)
Definition pure {S} (f : Z -> Z) : S -> Z -> S * option Z := fun s x => (s, Some (f x)).
Definition xor_all (l : list Z) : Z := fold_right Z.lxor 0 l.
