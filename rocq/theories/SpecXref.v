(** * Specification: blocks in document order, and their ids and titles *)
From Verif Require Import Base Meta Inline Block Asg.

(** a block and everything inside it, in document order *)
Fixpoint in_order (b : block) : list block :=
  match b with Blk _ _ k _ => b :: List.concat (map in_order k) end.
Definition document (a : asg) : list block := List.concat (map in_order (a_blocks a)).

(** the id of a block: the [id] attribute of its metadata *)
Definition has_id (b : block) (id : bytes) : Prop :=
  exists m, b_meta b = Some m /\ mget (bs "id") (m_attrs m) = Some id.
(** the title of a section, of a delimited block or of a block macro; other blocks have none *)
Definition title_is (b : block) (t : list inline) : Prop :=
  match b_head b with
  | HSection _ t' _ | HParent _ _ _ t' | HMacro _ t' => t = t'
  | _ => t = []
  end.
(** the inlines standing in a block, not those of a description list term or of the caption
    of a block macro *)
Definition stands_in (i : inline) (b : block) : Prop :=
  match b_head b with
  | HSection _ l _ | HParent _ _ _ l | HListItem _ l | HDListItem _ l | HLeaf _ _ _ l | HCell l => In i l
  | HMacro _ _ | HList _ | HDList | HBreak _ => False
  end.
Definition no_xref (l : list inline) : Prop := forall t k m loc, ~ In (IRef RXref t k m loc) l.
