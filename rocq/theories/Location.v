(** * Location: /repo/src/graph/nodes.rs lines 67-160 *)
From Verif Require Import Base.

(** nodes.rs 77-83 [struct Location]; [line], [col] are [usize]. *)
Record location := mkLoc { loc_line : nat; loc_col : nat; loc_file : list bytes }.

(** nodes.rs 95-108 [impl Ord for Location]: include depth (length of the file
    stack), then line, then column; the file names themselves are ignored. *)
Definition loc_cmp (a b : location) : comparison :=
  if List.length (loc_file a) =? List.length (loc_file b) then
    if loc_line a =? loc_line b then loc_col a ?= loc_col b
    else loc_line a ?= loc_line b
  else List.length (loc_file a) ?= List.length (loc_file b).

Definition loc_leb (a b : location) : bool :=
  match loc_cmp a b with Gt => false | _ => true end.

(** [start.sort()] (nodes.rs 128): Rust's [sort] is a stable sort; any stable
    sort gives the same list, so insertion sort stands in for it. *)
Fixpoint loc_insert (x : location) (l : list location) : list location :=
  match l with
  | [] => [x]
  | y :: r => if loc_leb x y then x :: l else y :: loc_insert x r
  end.
Fixpoint loc_sort (l : list location) : list location :=
  match l with
  | [] => []
  | x :: r => loc_insert x (loc_sort r)
  end.

(** [start.drain(1..start.len() - 1)] (nodes.rs 131): keep first and last. *)
Definition ends_of (l : list location) : list location :=
  match l with
  | [] => []
  | [x] => [x]
  | x :: r => [x; last r x]
  end.

(** nodes.rs 125-136 [Location::reconcile] *)
Definition reconcile (start other : list location) : list location :=
  match other with
  | [] => start
  | _ => ends_of (loc_sort (start ++ other))
  end.

(** nodes.rs 138-152 [Location::destructure_inline_locations] *)
Definition destructure_inline_locations (l : list location) : nat * nat * nat :=
  match l with
  | [] => (0, 0, 0)
  | x :: r => (loc_line x, loc_col x, loc_col (last r x))
  end.

(** derived [PartialEq] *)
Fixpoint list_eqb {A} (eqb : A -> A -> bool) (l m : list A) : bool :=
  match l, m with
  | [], [] => true
  | x :: l', y :: m' => eqb x y && list_eqb eqb l' m'
  | _, _ => false
  end.
Definition loc_eqb (a b : location) : bool :=
  (loc_line a =? loc_line b) && (loc_col a =? loc_col b)
  && list_eqb beqb (loc_file a) (loc_file b).
