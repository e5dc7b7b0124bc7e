(** * The paragraphs of an article in a docx file, from front to back *)
From Verif Require Import Base Location Token Meta Inline Block Asg Docx SpecScan SpecText SpecDoc SpecLevel SpecArticle.
Local Open Scope char_scope.
Local Open Scope nat_scope.

(** the style of a paragraph; that of a numbered list has the number of the list in its name *)
Inductive style := Named (s : bytes) | Numbered (n : nat).
Definition style_name (s : style) (b : bytes) : Prop :=
  match s with
  | Named x => b = x
  | Numbered n => exists d, decimal d (N.of_nat n) /\ b = bs "NumberedListParagraph_" ++ d
  end.
(** style, number of the list for items, page break before it, text *)
Record docx_para := mkDP { dp_style : style; dp_list : option nat; dp_break : bool; dp_parts : list part }.

(** the state: the style in force, whether a page break is due, the number of lists so far *)
Record dstate := mkDS { ds_style : style; ds_break : bool; ds_lists : nat }.
Definition styled (s : string) (st : dstate) : dstate := mkDS (Named (bs s)) (ds_break st) (ds_lists st).
Definition normal : dstate -> dstate := styled "Normal".
Definition put (num : option nat) (parts : list part) (st : dstate) : list docx_para * dstate :=
  ([mkDP (ds_style st) num (ds_break st) parts], mkDS (ds_style st) false (ds_lists st)).
Fixpoint put_all (num : option nat) (l : list (list part)) (st : dstate) : list docx_para * dstate :=
  match l with
  | [] => ([], st)
  | x :: r => let (a, st) := put num x st in let (b, st) := put_all num r st in (a ++ b, st)
  end.
Definition text_parts (e : env) (l : list rich) : list part := merge (lines_parts e l).

(** lists, listings and literal blocks leave their style behind *)
Definition leaf_docx (e : env) (x : leaf) (st : dstate) : list docx_para * dstate :=
  match x with
  | Para l => put None (text_parts e l) st
  | Items ordered l =>
      let n := S (ds_lists st) in
      put_all (Some n) (map (text_parts e) l)
        (mkDS (if ordered then Numbered n else Named (bs "ListParagraph")) (ds_break st) n)
  | Verbatim v body =>
      put None [PText ("010" :: List.concat (map (fun o => body_line o ++ ["010"]) body))]
        (match v with Pass => st | _ => styled "Monospace" st end)
  | CommentLine _ | CommentBlock _ | Setting _ _ | Gap => ([], st)
  end.
Fixpoint leaves_docx (e : env) (l : list leaf) (st : dstate) : list docx_para * dstate * env :=
  match l with
  | [] => ([], st, e)
  | x :: r =>
      let (a, st) := leaf_docx e x st in
      let '(b, st, e) := leaves_docx (leaf_env e x) r st in (a ++ b, st, e)
  end.
Definition admonition_title (v : parent_variant) : bytes :=
  match v with
  | VNote => bs "Note" | VTip => bs "Tip" | VImportant => bs "Important" | VCaution => bs "Caution" | VWarning => bs "Warning"
  end.
Definition box_style (b : box) (st : dstate) : dstate :=
  match b with
  | Example => styled "Example Text" st
  | Sidebar => styled "Sidebar Text" st
  | Quote => styled "Quote" st
  | Open => st
  end.
Definition heading_style (n : nat) : string :=
  match n with 1 => "Heading 1" | 2 => "Heading 2" | 3 => "Heading 3" | _ => "Heading 4" end.
Definition piece_docx (e : env) (p : piece) (st : dstate) : list docx_para * dstate * env :=
  match p with
  | Leaf x => (leaf_docx e x st, leaf_env e x)
  | Heading n t =>
      let (a, st) := put None (text_parts e [t]) (styled (heading_style n) st) in (a, normal st, e)
  | Admonition v l =>
      let (a, st) := put None [PText (admonition_title v)] (styled "Admonition Title" st) in
      let (b, st) := put None (text_parts e l) (styled "Admonition Text" st) in
      (a ++ b, normal st, e)
  | Break BThematic => (put None [PText (bs "#")] (styled "ThematicBreak" st), e)
  | Break BPage => ([], mkDS (ds_style st) true (ds_lists st), e)
  | Box b l last =>
      let '(a, st, e) := leaves_docx e l (box_style b st) in
      let (c, st) := match last with [] => ([], st) | _ => put None (text_parts e last) st end in
      (a ++ c, match b with Open => st | _ => normal st end, e)
  end.
Fixpoint pieces_docx (e : env) (l : list piece) (st : dstate) : list docx_para :=
  match l with
  | [] => []
  | p :: r => let '(a, st, e) := piece_docx e p st in a ++ pieces_docx e r st
  end.
Definition article_docx (a : article) : list docx_para :=
  match ar_title a with
  | Some (t, _) => [mkDP (Named (bs "Title")) None false (text_parts no_env [t])]
  | None => []
  end ++ pieces_docx (title_env a) (ar_pieces a) (mkDS (Named (bs "Normal")) false 0).

(** a paragraph of the docx file: style, list number, page break, one run for each part, its
    lines joined by spaces *)
Definition mark_props (k : mark) : rprops :=
  match k with
  | Strong => mkProps true false false None None
  | Emphasis => mkProps false true false None None
  | Code => mkProps false false true None None
  | Highlight => mkProps false false false (Some (bs "yellow")) None
  | Superscript => mkProps false false false None (Some VSuper)
  | Subscript => mkProps false false false None (Some VSub)
  end.
Definition part_run (p : part) (r : run) : Prop :=
  match p with
  | PText s => exists t, r = RText t (mkProps false false false None None) /\ on_one_line s t
  | PMarked k s => r = RText s (mark_props k)
  end.
Definition shows (d : docx_para) (b : body) : Prop :=
  exists p, b = BPara p /\ style_name (dp_style d) (pa_style p) /\ pa_numbering p = dp_list d
    /\ pa_page_break p = dp_break d /\ Forall2 part_run (dp_parts d) (pa_runs p).

(** ** The style of ordinary paragraphs *)
(** pieces after which the style is Normal again, and pieces that leave it as it is *)
Definition resets (p : piece) : Prop :=
  match p with
  | Heading _ _ | Admonition _ _ => True
  | Box b _ _ => b <> Open
  | _ => False
  end.
Definition leaf_keeps (x : leaf) : Prop :=
  match x with
  | Items _ _ => False
  | Verbatim v _ => v = Pass
  | _ => True
  end.
Definition keeps (p : piece) : Prop :=
  match p with
  | Leaf x => leaf_keeps x
  | Break v => v = BPage
  | Box b l _ => b = Open /\ Forall leaf_keeps l
  | _ => False
  end.
(** the attributes in force after some pieces *)
Definition piece_env (e : env) (p : piece) : env :=
  match p with
  | Leaf x => leaf_env e x
  | Box _ l _ => fold_left leaf_env l e
  | _ => e
  end.
