(** * Specification: numbered footnotes *)
From Verif Require Import Base Location Meta Inline Block Asg SpecXref.
Local Open Scope nat_scope.

(** the texts footnotes are taken from: paragraphs and other leaves, list items *)
Definition note_texts (b : block) : list inline :=
  match b_head b with
  | HLeaf _ _ _ l | HListItem _ l | HDListItem _ l => l
  | _ => []
  end.
Definition texts_of (l : list block) : list inline := List.concat (map note_texts l).
Definition is_note (i : inline) : bool := match i with ISpan SFootnote _ _ _ _ _ => true | _ => false end.
Definition notes (l : list inline) : nat := List.length (filter is_note l).

(** [a], somewhere in a link to [target] showing [text] *)
Definition link_to (target text : bytes) (i : inline) : Prop :=
  exists m loc loc' x, i = IRef RXref target [ILit LText x text loc'] m loc.
Definition meta_id (m : option metadata) (id : bytes) : Prop :=
  exists x, m = Some x /\ mget (bs "id") (m_attrs x) = Some id.
Definition def_id (doc : bytes) (n : nat) : bytes := doc ++ bs "_footnotedef_" ++ dec n.
Definition ref_id (doc : bytes) (n : nat) : bytes := doc ++ bs "_footnoteref_" ++ dec n.

(** the [n]-th reference: links to the [n]-th definition, shows [n], can be linked back to *)
Definition reference (doc : bytes) (n : nat) (i : inline) : Prop :=
  exists v f m loc o t l k loc', i = ISpan v f [IRef RXref t l k loc'] m loc o
    /\ link_to (def_id doc n) (dec n) (IRef RXref t l k loc') /\ meta_id k (ref_id doc n).
(** the [n]-th definition: a paragraph of a link back and the contents *)
Definition definition (doc : bytes) (n : nat) (contents : list inline) (d : block) : Prop :=
  exists f dl back m k loc, d = Blk (HLeaf NParagraph f dl (back :: contents)) m k loc
    /\ meta_id m (def_id doc n) /\ link_to (ref_id doc n) (dec n) back.

(** [numbered doc n l l' defs]: [l'] is [l] with its footnotes replaced by references numbered
    from [n + 1], in order, and [defs] are their definitions *)
Inductive numbered (doc : bytes) : nat -> list inline -> list inline -> list block -> Prop :=
| num_nil n : numbered doc n [] [] []
| num_other n i l l' ds : is_note i = false -> numbered doc n l l' ds -> numbered doc n (i :: l) (i :: l') ds
| num_note n f kids m loc o l l' ds i d : reference doc (S n) i -> definition doc (S n) kids d ->
    numbered doc (S n) l l' ds -> numbered doc n (ISpan SFootnote f kids m loc o :: l) (i :: l') (d :: ds).

(** no footnote stands before a block that is no leaf and has footnotes in it *)
Definition first_notes (l : list block) : Prop :=
  forall pre d post, l = pre ++ d :: post -> (forall n f dl x, b_head d <> HLeaf n f dl x) ->
  notes (texts_of (in_order d)) <> 0 -> notes (texts_of pre) = 0.
