(** * What a section holds, and the text of an article: C62, C63 *)
From Verif Require Import Base Location Token Meta Inline Block Asg SpecDoc SpecArticle.
Local Open Scope char_scope.
Local Open Scope nat_scope.

(** ** C62: a section is followed by sections only, since what follows up to the next heading is in it *)
Definition section (b : block) : Prop := exists i t l m k loc, b = Blk (HSection i t l) m k loc.
Inductive sections_last : list block -> Prop :=
| sections_last_none l : Forall (fun b => ~ section b) l -> sections_last l
| sections_last_some l l' : Forall (fun b => ~ section b) l -> Forall section l' -> sections_last (l ++ l').
Inductive settled : list block -> Prop :=
| settled_intro l : sections_last l -> Forall (fun b => settled (b_kids b)) l -> settled l.

(** ** C63: what an article says, from front to back *)
Definition rich_text (e : env) (r : rich) : bytes :=
  chunk_text e (fst r)
  ++ List.concat (map (fun x => let '(_, inside, after) := x in chunk_text e inside ++ chunk_text e after) (snd r)).
Fixpoint lines_text (e : env) (l : list rich) : bytes :=
  match l with
  | [] => []
  | [a] => rich_text e a
  | a :: r => rich_text e a ++ "010" :: lines_text e r
  end.
Definition leaf_text (e : env) (x : leaf) : bytes :=
  match x with
  | Para l => lines_text e l
  | Items _ l => List.concat (map (lines_text e) l)
  | Verbatim _ body => "010" :: List.concat (map (fun o => body_line o ++ ["010"]) body)
  | CommentLine _ | CommentBlock _ | Setting _ _ | Gap => []
  end.
Fixpoint leaves_text (e : env) (l : list leaf) : bytes * env :=
  match l with
  | [] => ([], e)
  | x :: r => let (s, e') := leaves_text (leaf_env e x) r in (leaf_text e x ++ s, e')
  end.
Definition piece_text (e : env) (p : piece) : bytes * env :=
  match p with
  | Leaf x => (leaf_text e x, leaf_env e x)
  | Heading _ t => (rich_text e t, e)
  | Admonition _ l => (lines_text e l, e)
  | Break _ => ([], e)
  | Box _ l last => let (s, e') := leaves_text e l in (s ++ lines_text e' last, e')
  end.
Fixpoint pieces_text (e : env) (l : list piece) : bytes :=
  match l with
  | [] => []
  | p :: r => let (s, e') := piece_text e p in s ++ pieces_text e' r
  end.
Definition article_text (a : article) : bytes :=
  match ar_title a with Some (t, _) => rich_text no_env t | None => [] end ++ pieces_text (title_env a) (ar_pieces a).
