(** * Specification: graphs that grow *)
From Verif Require Import Base Token Scanner Meta Inline Block Asg Parser.

Definition is_heading (b : block) : Prop :=
  match b_head b with HSection _ _ _ => True | _ => False end.
(** the blocks a heading can end up in *)
Definition roomy (h : head) : Prop :=
  match h with HSection _ _ _ | HParent _ _ _ _ | HListItem _ _ | HDListItem _ _ => True | _ => False end.
(** a block with further headings at its end, or at the end of its last part: all that was in
    it is still there *)
Inductive grown : block -> block -> Prop :=
| grown_more h m k new loc loc' : roomy h -> Forall is_heading new ->
    grown (Blk h m k loc) (Blk h m (k ++ new) loc')
| grown_last h m k x x' new loc loc' : roomy h -> grown x x' -> Forall is_heading new ->
    grown (Blk h m (k ++ [x]) loc) (Blk h m (k ++ x' :: new) loc').
(** later blocks: the same ones with others behind them, the last one perhaps grown *)
Inductive later : list block -> list block -> Prop :=
| later_more k new : later k (k ++ new)
| later_last k x x' new : grown x x' -> later (k ++ [x]) (k ++ x' :: new).
(** blocks no heading can go into *)
Definition shut (l : list block) : Prop :=
  forall k x, l = k ++ [x] -> ~ roomy (b_head x).
(** the same parser with two graphs: the same outcome, and the same blocks added *)
Definition same_but (l1 l2 : list block) (r1 r2 : result pstate) : Prop :=
  match r1, r2 with
  | Ok p1, Ok p2 => set_asg new_asg p1 = set_asg new_asg p2
                    /\ exists new, a_blocks (p_asg p1) = l1 ++ new /\ a_blocks (p_asg p2) = l2 ++ new
  | Err e1, Err e2 => e1 = e2
  | Panic, Panic | Hang, Hang | Exit, Exit => True
  | _, _ => False
  end.
(** a block without the texts of its cross references, which come last *)
Definition textless (i : inline) : inline :=
  match i with IRef RXref t _ m loc => IRef RXref t [] m loc | _ => i end.
Definition unref (b : block) : block := map_inlines textless b.
(** the same outcome, and the same blocks after two different beginnings *)
Definition same_text (l1 l2 : list block) (r1 r2 : result asg) : Prop :=
  match r1, r2 with
  | Ok g1, Ok g2 => exists new, map unref (a_blocks g1) = l1 ++ new /\ map unref (a_blocks g2) = l2 ++ new
  | Err e1, Err e2 => e1 = e2
  | Panic, Panic | Hang, Hang | Exit, Exit => True
  | _, _ => False
  end.
(** the parser after blank lines: nothing is open, waiting or defined *)
Definition idle (origin : bytes) (resolve : bool) (p : pstate) : Prop :=
  p_origin p = origin /\ p_last p = TNewLineChar /\ p_header p = None /\ p_attrs p = [] /\ p_bstack p = [] /\ p_istack p = []
  /\ p_files p = [] /\ p_title p = None /\ p_meta p = None /\ p_open_lines p = [] /\ p_open_type p = None /\ p_offset p = 0%Z
  /\ p_in_line p = false /\ p_in_span p = false /\ p_in_cont p = false /\ p_force_new p = true /\ p_preserve_nl p = false
  /\ p_close_parent p = false /\ p_dangling p = None /\ p_resolve p = resolve.
