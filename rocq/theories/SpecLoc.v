(** * Specification of positions: C09, C10 *)
From Verif Require Import Base Location.

(** include depth, line, column *)
Definition depth (a : location) : nat := List.length (loc_file a).
(** [a] does not come after [b] *)
Definition not_after (a b : location) : Prop :=
  depth a < depth b
  \/ depth a = depth b /\ (loc_line a < loc_line b
                           \/ loc_line a = loc_line b /\ loc_col a <= loc_col b).
Definition same_place (a b : location) : Prop :=
  depth a = depth b /\ loc_line a = loc_line b /\ loc_col a = loc_col b.

(** the span of a list of positions: a single position, or the least and the
    greatest one *)
Inductive span_of (l : list location) : list location -> Prop :=
| span_one a : l = [a] -> span_of l [a]
| span_two a b : 2 <= List.length l -> In a l -> In b l ->
    Forall (fun x => not_after a x /\ not_after x b) l -> span_of l [a; b].

(** one chain of files per include depth *)
Definition one_chain (l : list location) : Prop :=
  forall a b, In a l -> In b l -> depth a = depth b -> loc_file a = loc_file b.
