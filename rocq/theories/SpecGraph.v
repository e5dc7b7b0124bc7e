(** * Vocabulary for statements about the graph *)
From Verif Require Import Base Location Token Meta Inline Block Asg SpecLoc.
Local Open Scope nat_scope.

(** [within b x]: [b] is [x] or a block somewhere inside it *)
Inductive within : block -> block -> Prop :=
| within_self b : within b b
| within_kid b h m k loc c : In c k -> within b c -> within b (Blk h m k loc).

(** a block of the graph *)
Definition block_of (a : asg) (b : block) : Prop := exists x, In x (a_blocks a) /\ within b x.

(** ** The shape of a block: what remains when inlines, metadata and positions are
    left out *)
Inductive shape :=
| KSection (level : nat)
| KList (v : list_variant)
| KListItem (marker : bytes)
| KDList
| KDListItem
| KBreak (v : break_variant)
| KMacro (target : bytes)
| KLeaf (n : leaf_name)
| KParent (n : parent_name) (v : option parent_variant)
| KCell.
Inductive skel := Node (s : shape) (k : list skel).
Definition shape_of (h : head) : shape :=
  match h with
  | HSection _ _ l => KSection l
  | HList v => KList v
  | HListItem mk _ => KListItem mk
  | HDList => KDList
  | HDListItem _ _ => KDListItem
  | HBreak v => KBreak v
  | HMacro t _ => KMacro t
  | HLeaf n _ _ _ => KLeaf n
  | HParent n v _ _ => KParent n v
  | HCell _ => KCell
  end.
Fixpoint skel_of (b : block) : skel :=
  match b with Blk h _ k _ => Node (shape_of h) (map skel_of k) end.
Definition root (s : skel) : shape := match s with Node r _ => r end.

(** how a block grows by another one *)
Definition section_level (s : shape) : option nat :=
  match s with KSection l => Some l | _ => None end.
Definition admits (s n : shape) : Prop :=
  match s with
  | KSection l => match n with KSection l' => l < l' | _ => True end
  | KList _ => exists mk, n = KListItem mk
  | KDList => n = KDListItem
  | KParent _ _ | KListItem _ | KDListItem => True
  | _ => False
  end.
Inductive grows : skel -> skel -> skel -> Prop :=
| grow_section_deeper l k x n x' :
    section_level (root n) <> None -> admits (root x) (root n) -> grows x n x' ->
    grows (Node (KSection l) (k ++ [x])) n (Node (KSection l) (k ++ [x']))
| grow_section l k n :
    (section_level (root n) <> None -> forall k' x, k = k' ++ [x] -> ~ admits (root x) (root n)) ->
    grows (Node (KSection l) k) n (Node (KSection l) (k ++ [n]))
| grow_list s k n :
    (exists v, s = KList v) \/ s = KDList \/ (exists mk, s = KListItem mk) \/ s = KDListItem ->
    grows (Node s k) n (Node s (k ++ [n]))
| grow_parent_list pn pv k x n x' mk v :
    root n = KListItem mk -> root x = KList v -> grows x n x' ->
    grows (Node (KParent pn pv) (k ++ [x])) n (Node (KParent pn pv) (k ++ [x']))
| grow_parent pn pv k n :
    (forall mk, root n <> KListItem mk) -> (pn = PTable -> root n = KCell) ->
    grows (Node (KParent pn pv) k) n (Node (KParent pn pv) (k ++ [n])).

(** ** Everything in a graph *)
Inductive inline_within : inline -> inline -> Prop :=
| iw_self i : inline_within i i
| iw_span i v f l m loc o c : In c l -> inline_within i c -> inline_within i (ISpan v f l m loc o)
| iw_ref i v t l m loc c : In c l -> inline_within i c -> inline_within i (IRef v t l m loc).

(** the inlines a block holds itself *)
Definition own_inlines (b : block) : list inline :=
  match b with
  | Blk (HSection _ t _) _ _ _ => t
  | Blk (HListItem _ p) _ _ _ => p
  | Blk (HDListItem t p) _ _ _ => t ++ p
  | Blk (HMacro _ c) _ _ _ => c
  | Blk (HLeaf _ _ _ l) _ _ _ => l
  | Blk (HParent _ _ _ t) _ _ _ => t
  | Blk (HCell l) _ _ _ => l
  | Blk _ _ _ _ => []
  end.
(** an inline of the graph, at any depth *)
Inductive inline_of (a : asg) (i : inline) : Prop :=
| in_header h t : a_header a = Some h -> In t (hd_title h) -> inline_within i t -> inline_of a i
| in_block b t : block_of a b -> In t (own_inlines b) -> inline_within i t -> inline_of a i.
(** metadata of a block or inline of the graph *)
Inductive metadata_of (a : asg) (m : metadata) : Prop :=
| meta_block b : block_of a b -> b_meta b = Some m -> metadata_of a m
| meta_span v f l loc o : inline_of a (ISpan v f l (Some m) loc o) -> metadata_of a m
| meta_ref v t l loc : inline_of a (IRef v t l (Some m) loc) -> metadata_of a m.
(** a location list of the graph *)
Inductive location_of (a : asg) : list location -> Prop :=
| lo_graph : location_of a (a_loc a)
| lo_header h : a_header a = Some h -> location_of a (hd_loc h)
| lo_block b : block_of a b -> location_of a (b_locs b)
| lo_inline i : inline_of a i -> location_of a (inline_locs i)
| lo_meta m : metadata_of a m -> location_of a (m_loc m).

(** an ordered span: at most two positions, the first not after the second *)
Definition ordered_span (l : list location) : Prop :=
  match l with [] | [_] => True | [x; y] => not_after x y | _ => False end.
