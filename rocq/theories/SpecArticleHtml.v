(** * The HTML of an article, written from its pieces from front to back *)
From Verif Require Import Base Location Token Meta Inline Block Asg SpecScan SpecDoc SpecArticle.
Local Open Scope char_scope.
Local Open Scope nat_scope.

Definition wrap (open : string) (s : bytes) (close : string) : bytes := bs open ++ s ++ bs close.
Definition mark_html (k : mark) (s : bytes) : bytes :=
  match k with
  | Strong => wrap "<strong>" s "</strong>"
  | Emphasis => wrap "<em>" s "</em>"
  | Code => wrap "<code>" s "</code>"
  | Highlight => wrap "<span>" s "</span>"
  | Superscript => wrap "<sup>" s "</sup>"
  | Subscript => wrap "<sub>" s "</sub>"
  end.
Definition rich_html (e : env) (r : rich) : bytes :=
  chunk_text e (fst r)
  ++ List.concat (map (fun x => let '(k, inside, after) := x in mark_html k (chunk_text e inside) ++ chunk_text e after) (snd r)).
Fixpoint lines_html (e : env) (l : list rich) : bytes :=
  match l with
  | [] => []
  | a :: r => rich_html e a ++ match r with [] => [] | _ => "010" :: lines_html e r end
  end.
Definition paragraph_html (e : env) (l : list rich) : bytes := wrap "<p>" (lines_html e l) "</p>".
Definition verbatim_html (body : list (option rich)) : bytes :=
  "010" :: List.concat (map (fun o => body_line o ++ ["010"]) body).

Definition leaf_html (e : env) (x : leaf) : bytes :=
  match x with
  | Para l => paragraph_html e l
  | Items o l =>
      let items := List.concat (map (fun i => wrap "<li>" (paragraph_html e i) "</li>") l) in
      if o then wrap "<ol>" items "</ol>" else wrap "<ul>" items "</ul>"
  | Verbatim Pass body => verbatim_html body
  | Verbatim _ body => wrap "<pre>" (verbatim_html body) "</pre>"
  | CommentLine _ | CommentBlock _ | Setting _ _ | Gap => []
  end.
(** with the attributes in force after it *)
Fixpoint leaves_html (e : env) (l : list leaf) : bytes * env :=
  match l with
  | [] => ([], e)
  | x :: r => let (s, e') := leaves_html (leaf_env e x) r in (leaf_html e x ++ s, e')
  end.
Definition box_html (b : box) (s : bytes) : bytes :=
  match b with
  | Example | Open => wrap "<div>" s "</div>"
  | Sidebar => wrap "<aside data-type=""sidebar"">" s "</aside>"
  | Quote => wrap "<blockquote>" s "</blockquote>"
  end.
Definition admonition_name (v : parent_variant) : bytes :=
  match v with
  | VNote => bs "note" | VTip => bs "tip" | VImportant => bs "important" | VCaution => bs "caution" | VWarning => bs "warning"
  end.
Definition piece_html (e : env) (p : piece) : bytes * env :=
  match p with
  | Leaf x => (leaf_html e x, leaf_env e x)
  | Heading _ t => (wrap "<h1>" (lines_html e [t]) "</h1>", e)
  | Admonition v l =>
      (bs "<div data-type=""" ++ admonition_name v ++ bs """>" ++ paragraph_html e l ++ bs "</div>", e)
  | Break BThematic => (bs "<hr />", e)
  | Break BPage => (bs "<div style=""page-break-after: always;""></div>", e)
  | Box b l last =>
      let (s, e') := leaves_html e l in
      (box_html b (s ++ match last with [] => [] | _ => paragraph_html e' last end), e')
  end.
(** the sections that are open, innermost first: a heading closes those of its level and
    below and opens one *)
Fixpoint close_to (level : nat) (open : list nat) : bytes * list nat :=
  match open with
  | n :: r => if level <=? n then let (s, l) := close_to level r in (bs "</section>" ++ s, l) else ([], open)
  | [] => ([], [])
  end.
Definition level_digit (n : nat) : bytes := match n with 1 => bs "1" | 2 => bs "2" | 3 => bs "3" | _ => bs "4" end.
Fixpoint pieces_html (e : env) (open : list nat) (l : list piece) : bytes :=
  match l with
  | [] => List.concat (map (fun _ => bs "</section>") open)
  | p :: r =>
      let (s, e') := piece_html e p in
      match p with
      | Heading n _ =>
          let (closed, open') := close_to n open in
          closed ++ bs "<section data-type=""sect" ++ level_digit n ++ bs """>" ++ s ++ pieces_html e' (n :: open') r
      | _ => s ++ pieces_html e' open r
      end
  end.
Definition article_html (a : article) : bytes :=
  bs "<!DOCTYPE html><html lang=""en""><head><meta charset=""UTF-8"">"
  ++ bs "<meta name=""viewport"" content=""width=device-width, initial-scale=1"">"
  ++ wrap "<title>" (match ar_title a with Some (t, _) => lines_html no_env [t] | None => [] end) "</title></head>"
  ++ wrap "<body>" (pieces_html (title_env a) [] (ar_pieces a)) "</body></html>".
