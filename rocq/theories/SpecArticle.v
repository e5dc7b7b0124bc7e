(** * Articles: headings, paragraphs, lists, admonitions, verbatim and delimited blocks,
    breaks, comments and attribute entries, each followed by a blank line *)
From Verif Require Import Base Location Token Meta Inline Block Asg SpecScan SpecDoc.
Local Open Scope char_scope.
Local Open Scope nat_scope.

(** ** Text: plain text with attribute references, and marked stretches of it *)
(** s{name}s{name}s.. *)
Definition chunk : Type := bytes * list (bytes * bytes).
Definition spell_chunk (c : chunk) : bytes := spell (Words (fst c) (snd c)).
Definition chunk_text (e : env) (c : chunk) : bytes := expand e (fst c) (snd c).
Definition plain_chunk (c : chunk) : Prop :=
  plain (fst c) /\ Forall (fun x => Forall name_char (fst x) /\ plain (snd x)) (snd c).

Inductive mark := Strong | Emphasis | Code | Highlight | Superscript | Subscript.
Definition mark_char (k : mark) : ascii :=
  match k with
  | Strong => "*" | Emphasis => "_" | Code => "`" | Highlight => "#" | Superscript => "^" | Subscript => "~"
  end.
Definition mark_variant (k : mark) : span_variant :=
  match k with
  | Strong => SStrong | Emphasis => SEmphasis | Code => SCode | Highlight => SMark
  | Superscript => SSuperscript | Subscript => SSubscript
  end.
Definition constrained (k : mark) : Prop := match k with Superscript | Subscript => False | _ => True end.

(** a line: text, and then marked stretches, each with the text after it *)
Definition rich : Type := chunk * list (mark * chunk * chunk).
Definition spell_marked (x : mark * chunk * chunk) : bytes :=
  let '(k, inside, after) := x in mark_char k :: spell_chunk inside ++ mark_char k :: spell_chunk after.
Definition spell_rich (r : rich) : bytes := spell_chunk (fst r) ++ List.concat (map spell_marked (snd r)).

Definition word_char (c : ascii) : Prop := is_ascii_alnum c = true.
(** what may stand before and behind a constrained mark (nothing: the end of the line) *)
Definition opens_after (prev : option ascii) : Prop :=
  match prev with None => True | Some c => In c [" "; "("] end.
Definition closes_before (next : option ascii) : Prop :=
  match next with None => True | Some c => In c [" "; "."; ","; ";"; ":"; ")"; "!"; "?"] end.
Definition hugged (s : bytes) : Prop :=
  (exists c r, s = c :: r /\ (word_char c \/ c = "{")) /\ (exists c r, s = r ++ [c] /\ (word_char c \/ c = "}")).
Definition first_of (s : bytes) : option ascii := match s with [] => None | c :: _ => Some c end.
Definition last_of (s : bytes) : option ascii := match s with [] => None | _ => Some (last s "000") end.
Fixpoint marks_fit (prev : option ascii) (l : list (mark * chunk * chunk)) : Prop :=
  match l with
  | [] => True
  | (k, inside, after) :: r =>
      plain_chunk inside /\ spell_chunk inside <> [] /\ plain_chunk after
      /\ (constrained k -> opens_after prev /\ hugged (spell_chunk inside) /\ closes_before (first_of (spell_chunk after)))
      /\ (r <> [] -> spell_chunk after <> [])
      /\ marks_fit (last_of (spell_chunk after)) r
  end.
Definition rich_line (r : rich) : Prop :=
  spell_rich r <> [] /\ plain_chunk (fst r) /\ plain_start (fst (fst r))
  /\ marks_fit (last_of (spell_chunk (fst r))) (snd r).
(** consecutive lines: a marked stretch at the end of a line and one at the start of
    the next do not go together (see [C52_marks_refuted]) *)
Definition ends_marked (r : rich) : Prop :=
  exists l k inside after, snd r = l ++ [(k, inside, after)] /\ spell_chunk after = [].
Definition starts_marked (r : rich) : Prop := spell_chunk (fst r) = [] /\ snd r <> [].
Fixpoint lines_fit (l : list rich) : Prop :=
  match l with
  | [] => True
  | a :: r => rich_line a /\ match r with b :: _ => ~ (ends_marked a /\ starts_marked b) | [] => True end /\ lines_fit r
  end.

(** what it says: stretches of text, a newline between two lines; neighbouring texts
    are one *)
Inductive part := PText (s : bytes) | PMarked (k : mark) (s : bytes).
Definition chunk_part (e : env) (c : chunk) : list part :=
  match spell_chunk c with [] => [] | _ => [PText (chunk_text e c)] end.
Definition rich_parts (e : env) (r : rich) : list part :=
  chunk_part e (fst r)
  ++ List.concat (map (fun x => let '(k, inside, after) := x in PMarked k (chunk_text e inside) :: chunk_part e after) (snd r)).
Fixpoint lines_parts (e : env) (l : list rich) : list part :=
  match l with
  | [] => []
  | a :: r => rich_parts e a ++ match r with [] => [] | _ => PText ["010"] :: lines_parts e r end
  end.
Fixpoint merge (l : list part) : list part :=
  match l with
  | [] => []
  | PText a :: r => match merge r with PText b :: r' => PText (a ++ b) :: r' | r' => PText a :: r' end
  | x :: r => x :: merge r
  end.
Definition part_inline (p : part) : inline :=
  match p with
  | PText s => ILit LText false s []
  | PMarked k s => ISpan (mark_variant k) FConstrained [ILit LText false s []] None [] false
  end.
Definition text_inlines (e : env) (l : list rich) : list inline := map part_inline (merge (lines_parts e l)).

(** ** Blocks *)
Inductive verbatim := Listing | Literal | Pass.
Definition fence (v : verbatim) : bytes := match v with Listing => bs "----" | Literal => bs "...." | Pass => bs "++++" end.
Definition verbatim_name (v : verbatim) : leaf_name := match v with Listing => NListing | Literal => NLiteral | Pass => NPass end.
Inductive box := Example | Sidebar | Open | Quote.
Definition box_fence (b : box) : bytes :=
  match b with Example => bs "====" | Sidebar => bs "****" | Open => bs "--" | Quote => bs "____" end.
Definition box_name (b : box) : parent_name :=
  match b with Example => PExample | Sidebar => PSidebar | Open => POpen | Quote => PQuote end.
Definition label (v : parent_variant) : bytes :=
  match v with
  | VNote => bs "NOTE: " | VTip => bs "TIP: " | VImportant => bs "IMPORTANT: "
  | VCaution => bs "CAUTION: " | VWarning => bs "WARNING: "
  end.

Inductive leaf :=
| Para (l : list rich)
| Items (ordered : bool) (l : list (list rich))
| Verbatim (v : verbatim) (body : list (option rich))   (* nothing: a blank line *)
| CommentLine (s : bytes)
| CommentBlock (body : list (option rich))
| Setting (name value : bytes)                           (* an attribute entry *)
| Gap.                                                   (* one more blank line *)
Inductive piece :=
| Leaf (x : leaf)
| Heading (level : nat) (title : rich)
| Admonition (v : parent_variant) (l : list rich)
| Break (v : break_variant)
| Box (b : box) (l : list leaf) (last : list rich).      (* no blank line after [last] *)

Definition item_mark (ordered : bool) : bytes := if ordered then bs ". " else bs "* ".
Definition after (s : bytes) (l : list bytes) : list bytes := match l with [] => [s] | x :: r => (s ++ x) :: r end.
Definition body_line (o : option rich) : bytes := match o with Some r => spell_rich r | None => [] end.
Definition leaf_lines (x : leaf) : list bytes :=
  match x with
  | Para l => map spell_rich l
  | Items o l => List.concat (map (fun i => after (item_mark o) (map spell_rich i)) l)
  | Verbatim v body => fence v :: map body_line body ++ [fence v]
  | CommentLine s => [bs "//" ++ s]
  | CommentBlock body => bs "////" :: map body_line body ++ [bs "////"]
  | Setting name value => [spell (Entry name value)]
  | Gap => []
  end.
Definition with_blank (l : list bytes) : list bytes := l ++ [[]].
Definition piece_lines (p : piece) : list bytes :=
  match p with
  | Leaf x => with_blank (leaf_lines x)
  | Heading n t => with_blank [repeat "=" (S n) ++ " " :: spell_rich t]
  | Admonition v l => with_blank (after (label v) (map spell_rich l))
  | Break BThematic => with_blank [bs "'''"]
  | Break BPage => with_blank [bs "<<<"]
  | Box b l last =>
      with_blank (box_fence b :: List.concat (map (fun x => with_blank (leaf_lines x)) l)
                  ++ map spell_rich last ++ [box_fence b])
  end.
(** an article: maybe a title and attribute entries under it, and pieces *)
Record article := mkArticle { ar_title : option (rich * list (bytes * bytes)); ar_pieces : list piece }.
Definition title_lines (a : article) : list bytes :=
  match ar_title a with
  | None => []
  | Some (t, l) => with_blank ((bs "= " ++ spell_rich t) :: map (fun x => spell (Entry (fst x) (snd x))) l)
  end.
Definition article_lines (a : article) : list bytes := title_lines a ++ List.concat (map piece_lines (ar_pieces a)).
Definition article_source (a : article) : bytes := List.concat (map (fun l => l ++ ["010"]) (article_lines a)).

Definition lines_ok (l : list rich) : Prop := l <> [] /\ lines_fit l.
Definition body_ok (l : list (option rich)) : Prop := Forall (fun o => forall r, o = Some r -> rich_line r) l.
Definition leaf_ok (x : leaf) : Prop :=
  match x with
  | Para l => lines_ok l
  | Items _ l => l <> [] /\ Forall lines_ok l
  | Verbatim _ body | CommentBlock body => body_ok body
  | CommentLine s => utf8 s /\ ~ In "010" s /\ (forall r, s <> "/" :: r)
                     /\ ~ (exists r, s = bs " tag::" ++ r) /\ ~ (exists r, s = bs " end::" ++ r)
  | Setting name value => simple_line (Entry name value)
  | Gap => True
  end.
Definition piece_ok (p : piece) : Prop :=
  match p with
  | Leaf x => leaf_ok x
  | Heading n t => 1 <= n <= 4 /\ rich_line t
  | Admonition _ l => lines_ok l
  | Break _ => True
  | Box _ l last => Forall leaf_ok l /\ lines_fit last
  end.

(** ** The blocks they stand for, without locations *)
Definition leaf_env (e : env) (x : leaf) : env := match x with Setting name value => set_env e name value | _ => e end.
Definition para_block (e : env) (l : list rich) : block := Blk (HLeaf NParagraph FmParagraph None (text_inlines e l)) None [] [].
Definition leaf_blocks (e : env) (x : leaf) : list block :=
  match x with
  | Para l => [para_block e l]
  | Items o l =>
      [Blk (HList (if o then LOrdered else LUnordered)) None
           (map (fun i => Blk (HListItem (if o then bs "." else bs "*") (text_inlines e i)) None [] []) l) []]
  | Verbatim v body =>
      [Blk (HLeaf (verbatim_name v) FmDelimited (Some (fence v))
              [ILit LText false ("010" :: List.concat (map (fun o => body_line o ++ ["010"]) body)) []]) None [] []]
  | CommentLine _ | CommentBlock _ | Setting _ _ | Gap => []
  end.
Fixpoint leaves_blocks (e : env) (l : list leaf) : list block * env :=
  match l with
  | [] => ([], e)
  | x :: r => let (bl, e') := leaves_blocks (leaf_env e x) r in (leaf_blocks e x ++ bl, e')
  end.
Definition piece_blocks (e : env) (p : piece) : list block * env :=
  match p with
  | Leaf x => (leaf_blocks e x, leaf_env e x)
  | Heading n t => ([Blk (HSection [] (text_inlines e [t]) n) None [] []], e)
  | Admonition v l => ([Blk (HParent PAdmonition (Some v) (label v) []) None [para_block e l] []], e)
  | Break v => ([Blk (HBreak v) None [] []], e)
  | Box b l last =>
      let (kids, e') := leaves_blocks e l in
      ([Blk (HParent (box_name b) None (box_fence b) []) None
            (kids ++ match last with [] => [] | _ => [para_block e' last] end) []], e')
  end.
Fixpoint pieces_blocks (e : env) (l : list piece) : list block :=
  match l with
  | [] => []
  | p :: r => let (bl, e') := piece_blocks e p in bl ++ pieces_blocks e' r
  end.

(** a section holds what follows, up to the next section of its level or above *)
Definition under (level : nat) (b : block) : bool :=
  match b with Blk (HSection _ _ l) _ _ _ => level <? l | _ => true end.
Fixpoint split_while {A} (f : A -> bool) (l : list A) : list A * list A :=
  match l with
  | [] => ([], [])
  | x :: r => if f x then let (a, b) := split_while f r in (x :: a, b) else ([], l)
  end.
Fixpoint nest (l : list block) : list block :=
  match l with
  | [] => []
  | Blk (HSection i t level) m k loc :: r =>
      let (mine, rest) := split_while (under level) (nest r) in
      Blk (HSection i t level) m (k ++ mine) loc :: rest
  | b :: r => b :: nest r
  end.
(** a delimited block or admonition is not directly followed by a subsection (see
    [C52_subsection_refuted]); [level] is the level of the heading before, 0 if none *)
Fixpoint subsections_clear (level : nat) (l : list block) : Prop :=
  match l with
  | [] => True
  | Blk (HSection _ _ n) _ _ _ :: r => subsections_clear n r
  | Blk (HParent _ _ _ _) _ _ _ :: r =>
      match r with Blk (HSection _ _ n) _ _ _ :: _ => n <= level | _ => True end /\ subsections_clear level r
  | _ :: r => subsections_clear level r
  end.

Definition title_env (a : article) : env :=
  match ar_title a with
  | None => no_env
  | Some (_, l) => fold_left (fun e x => set_env e (fst x) (snd x)) l no_env
  end.
Definition article_flat (a : article) : list block := pieces_blocks (title_env a) (ar_pieces a).
(** no attribute references, superscripts and subscripts in the title: they end it
    (see [C52_title_refuted]) *)
Definition title_ok (t : rich) : Prop :=
  rich_line t /\ snd (fst t) = []
  /\ Forall (fun x => let '(k, inside, after) := x in constrained k /\ snd inside = [] /\ snd after = []) (snd t).
Definition article_ok (a : article) : Prop :=
  match ar_title a with
  | None => True
  | Some (t, l) => title_ok t /\ Forall (fun x => simple_line (Entry (fst x) (snd x))) l
  end
  /\ Forall piece_ok (ar_pieces a) /\ subsections_clear 0 (article_flat a).
Definition article_title (a : article) : option (list inline) :=
  option_map (fun x => text_inlines no_env [fst x]) (ar_title a).

(** ** Blocks without their locations *)
Fixpoint bare_inline (i : inline) : inline :=
  match i with
  | ISpan v f l m _ o => ISpan v f (map bare_inline l) m [] o
  | IRef v t l m _ => IRef v t (map bare_inline l) m []
  | ILit n k s _ => ILit n k s []
  | IBreak _ => IBreak []
  end.
Definition bare_head (h : head) : head :=
  let f := map bare_inline in
  match h with
  | HSection i t l => HSection i (f t) l
  | HListItem m p => HListItem m (f p)
  | HDListItem t p => HDListItem (f t) (f p)
  | HMacro t c => HMacro t (f c)
  | HLeaf n fm d l => HLeaf n fm d (f l)
  | HParent n v d t => HParent n v d (f t)
  | HCell l => HCell (f l)
  | HList v => HList v
  | HDList => HDList
  | HBreak v => HBreak v
  end.
Fixpoint bare (b : block) : block :=
  match b with Blk h m k _ => Blk (bare_head h) m (map bare k) [] end.
