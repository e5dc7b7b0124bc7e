(** * Identifiers in the HTML *)
From Verif Require Import Base Meta Inline Block Asg Html.

(** the identifiers of the tags *)
Definition piece_ids (p : piece) : list bytes :=
  match p with
  | TOpen _ l | TEmpty _ _ l => map snd (filter (fun kv => beqb (fst kv) (bs "id")) l)
  | TClose _ | TText _ => []
  end.
Definition tag_ids (l : list piece) : list bytes := List.concat (map piece_ids l).
(** the identifier of a block *)
Definition block_id (m : option metadata) (i : bytes) : Prop :=
  exists x, m = Some x /\ find (fun p => beqb (fst p) (bs "id")) (m_attrs x) = Some (bs "id", i) /\ i <> [].
(** a block shows an identifier: a section its own, an image its own unless it stands
    directly in an admonition ([bare]), every other block with blocks inside what those show *)
Inductive shows_id : bool -> block -> bytes -> Prop :=
| shows_section : forall bare s t n m k loc i, block_id m i -> shows_id bare (Blk (HSection s t n) m k loc) i
| shows_image : forall t c m k loc i, block_id m i -> shows_id false (Blk (HMacro t c) m k loc) i
| shows_inside : forall bare h m k loc b i, In b k ->
    match h with HLeaf _ _ _ _ | HBreak _ | HMacro _ _ | HCell _ | HParent PTable _ _ _ => False | _ => True end ->
    shows_id match h with HParent PAdmonition _ _ _ => true | _ => false end b i -> shows_id bare (Blk h m k loc) i.
(** some block carries an identifier *)
Inductive carries_id : block -> bytes -> Prop :=
| carries_here : forall h m k loc i, block_id m i -> carries_id (Blk h m k loc) i
| carries_inside : forall h m k loc b i, In b k -> carries_id b i -> carries_id (Blk h m k loc) i.
