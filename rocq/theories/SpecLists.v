(** * Vocabulary for statements about lists *)
From Verif Require Import Base Location Token Meta Inline Block Asg SpecGraph.
Local Open Scope char_scope.
Local Open Scope nat_scope.

(** the markers of the items of a list *)
Definition marks_item (v : list_variant) (marker : bytes) : Prop :=
  match v with
  | LUnordered => marker = bs "*"
  | LOrdered => marker = bs "." \/ exists r, marker = "<" :: r
  end.
(** [belongs h c]: a block with head [c] may stand directly inside one with head [h]:
    list items in lists of their kind, description list items in description lists, and
    other blocks in neither *)
Definition belongs (h c : head) : Prop :=
  match c with
  | HListItem mk _ => exists v, h = HList v /\ marks_item v mk
  | HDListItem _ _ => h = HDList
  | _ => match h with HList _ | HDList => False | _ => True end
  end.
Definition no_item (h : head) : Prop :=
  match h with HListItem _ _ | HDListItem _ _ => False | _ => True end.
(** every block of the graph has its place *)
Definition lists_proper (a : asg) : Prop :=
  Forall (fun b => no_item (b_head b)) (a_blocks a) /\
  forall b, block_of a b -> Forall (fun c => belongs (b_head b) (b_head c)) (b_kids b).

(** the delimiters of parent blocks *)
Definition parent_delimiter (ty : token_type) : bool :=
  match ty with
  | TSidebarBlock | TOpenBlock | TExampleBlock | TTable | TQuoteVerseBlock => true
  | _ => false
  end.
Definition list_marker (ty : token_type) : bool :=
  match ty with
  | TUnorderedListItem | TOrderedListItem | TCodeCalloutListItem => true
  | _ => false
  end.
(** a document with lists but none of the constructs that break them: no block
    continuations, includes and table cells; no description lists together with delimited
    parent blocks; and every list marker comes first or after a newline token *)
Definition plain_lists (l : list token_type) : Prop :=
  ~ In TBlockContinuation l /\ ~ In TInclude l /\ ~ In TTableCell l
  /\ (In TDescriptionListMarker l -> forall ty, In ty l -> parent_delimiter ty = false)
  /\ forall pre ty post, l = pre ++ ty :: post -> list_marker ty = true ->
       pre = [] \/ exists pre', pre = pre' ++ [TNewLineChar].
