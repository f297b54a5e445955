(** * Specification of the allocator metrics: what a history of calls adds up to. *)
From Coq Require Import List ZArith.
From Verif Require Import Machine Analysis Alloc.
Import ListNotations.
Open Scope Z_scope.

Definition sum (l : list Z) : Z := fold_right Z.add 0 l.
Definition total (f : aop -> Z) (ops : list aop) : Z := sum (map f ops).

(** change of the memory in use made by one call *)
Definition delta (op : aop) : Z :=
  match op with
  | OAlloc n _ => n
  | OZeroed n _ => n
  | ODealloc n => - n
  | ORealloc o n _ => n - o
  | OSave | ODelta _ => 0
  end.
(** memory in use after a history *)
Definition used (ops : list aop) : Z := total delta ops.

Definition is_save (op : aop) : Z := match op with OSave => 1 | _ => 0 end.
Definition saves (ops : list aop) : Z := total is_save ops.

(** the nine counters *)
Definition f_allocations (op : aop) := match op with OAlloc _ _ => 1 | _ => 0 end.
Definition f_deallocations (op : aop) := match op with ODealloc _ => 1 | _ => 0 end.
Definition f_zeroed (op : aop) := match op with OZeroed _ _ => 1 | _ => 0 end.
Definition f_reallocations (op : aop) := match op with ORealloc _ _ _ => 1 | _ => 0 end.
Definition f_allocated (op : aop) := match op with OAlloc n _ => n | _ => 0 end.
Definition f_deallocated (op : aop) := match op with ODealloc n => n | _ => 0 end.
Definition f_zeroed_bytes (op : aop) := match op with OZeroed n _ => n | _ => 0 end.
Definition f_realloc_old (op : aop) := match op with ORealloc o _ _ => o | _ => 0 end.
Definition f_realloc_new (op : aop) := match op with ORealloc _ n _ => n | _ => 0 end.

Definition sizes_ok (op : aop) : Prop :=
  match op with
  | OAlloc n _ | OZeroed n _ | ODealloc n => 0 <= n < two64
  | ORealloc o n _ => 0 <= o < two64 /\ 0 <= n < two64
  | _ => True
  end.

(** memory in use at every moment from the end of [pre] to the end of [pre ++ post] *)
Definition levels (pre post : list aop) : list Z :=
  map (fun i => used (pre ++ firstn i post)) (seq 0 (S (length post))).

Definition is_min (m : Z) (l : list Z) : Prop := In m l /\ forall x, In x l -> m <= x.
Definition is_max (m : Z) (l : list Z) : Prop := In m l /\ forall x, In x l -> x <= m.

(** A history the hardware can carry out: real sizes, memory in use always
    between 0 and 2^64, byte totals and numbers of calls below 2^64, fewer than
    2^32 save points. *)
Definition feasible (ops : list aop) : Prop :=
  Forall sizes_ok ops /\
  (forall x, In x (levels [] ops) -> 0 <= x < two64) /\
  Z.of_nat (length ops) < two64 /\
  total f_allocated ops < two64 /\ total f_deallocated ops < two64 /\ total f_zeroed_bytes ops < two64 /\
  total f_realloc_old ops < two64 /\ total f_realloc_new ops < two64 /\
  saves ops < two32.

(** What delta_statistics must answer, [post] being everything after the save point taken at the end of [pre]. *)
Definition exact_delta (pre post : list aop) (s : stats) : Prop :=
  allocations_count s = total f_allocations post /\
  deallocations_count s = total f_deallocations post /\
  zeroed_allocations_count s = total f_zeroed post /\
  reallocations_count s = total f_reallocations post /\
  allocated_bytes s = total f_allocated post /\
  deallocated_bytes s = total f_deallocated post /\
  zeroed_allocated_bytes s = total f_zeroed_bytes post /\
  reallocated_originals_bytes s = total f_realloc_old post /\
  reallocated_news_bytes s = total f_realloc_new post /\
  current_used s = used (pre ++ post) /\
  is_min (min_used s) (levels pre post) /\
  is_max (max_used s) (levels pre post).

(** ** Live blocks, for the relation between current_used and the heap *)
(** A client action: allocate block [id], free it or resize it; [ok] is the
    system allocator's answer. *)
Inductive client :=
| CAlloc (id : nat) (size : Z) (zeroed ok : bool)
| CFree (id : nat)
| CResize (id : nat) (size : Z) (ok : bool).

Definition heap := list (nat * Z).   (* live blocks and their sizes *)
Definition live (h : heap) : Z := sum (map snd h).
Definition lookup (h : heap) (id : nat) : option Z :=
  match find (fun p => Nat.eqb (fst p) id) h with Some (_, n) => Some n | None => None end.
Definition remove (h : heap) (id : nat) : heap := filter (fun p => negb (Nat.eqb (fst p) id)) h.

(** [None]: the action breaks the GlobalAlloc contract (unknown block, reused
    identity).  Otherwise the new heap and the call made to the allocator, with
    the block's own layout, as the contract demands. *)
Definition client_step (h : heap) (c : client) : option (heap * aop) :=
  match c with
  | CAlloc id n z ok =>
      match lookup h id with
      | Some _ => None
      | None => Some (if ok then (id, n) :: h else h, if z then OZeroed n ok else OAlloc n ok)
      end
  | CFree id =>
      match lookup h id with
      | None => None
      | Some n => Some (remove h id, ODealloc n)
      end
  | CResize id n ok =>
      match lookup h id with
      | None => None
      | Some o => Some (if ok then (id, n) :: remove h id else h, ORealloc o n ok)
      end
  end.

Fixpoint client_run (h : heap) (cs : list client) : option (heap * list aop) :=
  match cs with
  | [] => Some (h, [])
  | c :: rest =>
      match client_step h c with
      | None => None
      | Some (h1, op) =>
          match client_run h1 rest with
          | None => None
          | Some (h2, ops) => Some (h2, op :: ops)
          end
      end
  end.

Definition succeeds (c : client) : bool :=
  match c with CAlloc _ _ _ ok => ok | CResize _ _ ok => ok | CFree _ => true end.
Definition size_ok (c : client) : Prop :=
  match c with CAlloc _ n _ _ => 0 <= n < two64 | CResize _ n _ => 0 <= n < two64 | CFree _ => True end.

(** what a failed call leaves in current_used_memory although nothing was allocated *)
Definition failed_delta (op : aop) : Z :=
  match op with
  | OAlloc n false => n
  | OZeroed n false => n
  | ORealloc o n false => n - o
  | _ => 0
  end.

(** ** Calls that are not allocations *)
Definition silent (op : aop) : bool := match op with OSave | ODelta _ => true | _ => false end.
(** the allocations of a history, without its save points and queries *)
Definition quiet (ops : list aop) : list aop := filter (fun op => negb (silent op)) ops.
Definition non_save (op : aop) : Prop := match op with OSave | ODelta _ => False | _ => True end.

(** a measurement of a pass that makes sense *)
Definition well_formed (m : space_pass) : Prop :=
  0 <= min_used_memory m /\ min_used_memory m <= used_memory_before m /\ used_memory_before m <= max_used_memory m /\
  min_used_memory m <= used_memory_after m /\ used_memory_after m <= max_used_memory m /\ max_used_memory m < two64.
