(** * Specification: the words of a document *)
From Verif Require Import Base Location Meta Inline Block Asg SpecText SpecDocx.
Local Open Scope nat_scope.

(** the text of an inline without its markup *)
Fixpoint plain (i : inline) : bytes :=
  match i with
  | ILit _ _ v _ => v
  | ISpan _ _ l _ _ _ | IRef _ _ l _ _ => List.concat (map plain l)
  | IBreak _ => []
  end.
Definition plains (l : list inline) : bytes := List.concat (map plain l).

(** all texts of a block and of what is inside it, in document order *)
Definition texts_of_head (h : head) : list bytes :=
  match h with
  | HSection _ l _ | HListItem _ l | HMacro _ l | HLeaf _ _ _ l | HParent _ _ _ l | HCell l => [plains l]
  | HDListItem t l => [plains t; plains l]
  | HList _ | HDList | HBreak _ => []
  end.
Fixpoint texts (b : block) : list bytes :=
  match b with Blk h _ k _ => texts_of_head h ++ List.concat (map texts k) end.
(** the same without the titles of delimited blocks and the terms of description lists *)
Definition counted_of_head (h : head) : list bytes :=
  match h with
  | HSection _ l _ | HListItem _ l | HDListItem _ l | HMacro _ l | HLeaf _ _ _ l | HCell l => [plains l]
  | HList _ | HDList | HBreak _ | HParent _ _ _ _ => []
  end.
Fixpoint counted (b : block) : list bytes :=
  match b with Blk h _ k _ => counted_of_head h ++ List.concat (map counted k) end.

(** the number of words: characters that are no whitespace, at the start or after whitespace *)
Fixpoint word_starts (gap : bool) (l : list bytes) : nat :=
  match l with
  | [] => 0
  | ch :: r => if is_ws ch then word_starts true r else (if gap then 1 else 0) + word_starts false r
  end.
Definition words_in (s : bytes) : nat := word_starts true (chars s).
Definition total (l : list nat) : nat := fold_right Nat.add 0 l.

(** does the text start, end with a character that is no whitespace *)
Definition ink_first (s : bytes) : bool := match chars s with ch :: _ => negb (is_ws ch) | [] => false end.
Definition ink_last (s : bytes) : bool := match rev (chars s) with ch :: _ => negb (is_ws ch) | [] => false end.
(** the number of texts that start in the middle of a word when the texts are run together *)
Fixpoint glued (inside : bool) (l : list bytes) : nat :=
  match l with
  | [] => 0
  | s :: r => (if inside && ink_first s then 1 else 0)
              + glued (match s with [] => inside | _ => ink_last s end) r
  end.
(** every text but the last ends in whitespace (or is empty) *)
Fixpoint separated (l : list bytes) : Prop :=
  match l with
  | [] | [_] => True
  | s :: r => ink_last s = false /\ separated r
  end.
(** no delimited block in it has a title, no item of a description list a term *)
Inductive no_dropped : block -> Prop :=
| nd_block h m k loc :
    match h with HParent _ _ _ l | HDListItem l _ => plains l = [] | _ => True end ->
    Forall no_dropped k -> no_dropped (Blk h m k loc).
