(** * The HTML with all of its white space: C88 *)
From Verif Require SpecPage.
From Verif Require Import Base World Location Token Meta Inline Block Asg SpecScan SpecDoc SpecArticle SpecArticleHtml SpecScript SpecScriptHtml SpecHtmlPage.
Local Open Scope char_scope.
Local Open Scope nat_scope.

(** a new line, indented *)
Definition line (n : nat) : bytes := NL :: repeat SP n.
(** a title or a term: on a line of its own *)
Definition apart (name : string) (l : list inline) : bytes :=
  match l with [] => [] | _ => line 8 ++ within name l ++ line 8 end.

(** ** Tables *)
Definition row_laid (r : list (list inline)) : bytes :=
  tagged "tr" [] (line 8 ++ List.concat (map (fun c => tagged "td" [] (inlines_html c) ++ line 8) r)).
Fixpoint rows_laid (l : list (list (list inline))) : bytes :=
  match l with
  | [] => []
  | [r] => row_laid r
  | r :: more => row_laid r ++ line 8 ++ rows_laid more
  end.
Definition table_laid (w : world) (me : option metadata) (cells : list (list inline)) : bytes :=
  let cols := match columns_read w me with Some c => Z.abs_nat c | None => 0 end in
  tagged "table" []
    (if headed me
     then line 4 ++ tagged "thead" [] (line 8 ++ List.concat (map (fun c => tagged "th" [] (inlines_html c) ++ line 4) (firstn cols cells)))
          ++ line 4 ++ tagged "tbody" [] (line 8 ++ rows_laid (in_rows cols cols (skipn cols cells)) ++ line 4) ++ line 4
     else rows_laid (in_rows cols (Nat.max 2 cols) cells) ++ line 4).

(** ** Blocks *)
Fixpoint block_laid (w : world) (bare : bool) (b : block) : bytes :=
  match b with
  | Blk h me kids _ =>
      let inside := List.concat (map (block_laid w match h with HParent PAdmonition _ _ _ => true | _ => false end) kids) in
      match h with
      | HSection _ t n =>
          tagged "section" (bs " data-type=""sect" ++ SpecPage.numeral n ++ bs """" ++ class_html me ++ filled "id" (noted "id" me))
                 (apart "h1" t ++ attribution me ++ line 4 ++ inside)
      | HLeaf n _ _ l => line 4 ++ leaf_shown n me l
      | HBreak BThematic => line 4 ++ bs "<hr />"
      | HBreak BPage => line 4 ++ bs "<div style=""page-break-after: always;""></div>" ++ line 4
      | HList LOrdered => around_html bare me "ol" [] inside
      | HList LUnordered => around_html bare me "ul" [] inside
      | HListItem _ l => around_html bare me "li" [] (within "p" l ++ inside)
      | HDList => around_html bare me "dl" [] inside
      | HDListItem t l => apart "dt" t ++ around_html bare me "dd" [] (within "p" l ++ inside)
      | HMacro t caption =>
          around_html bare me "figure" (filled "id" (noted "id" me))
            (line 8 ++ bs "<img src=""" ++ t ++ bs """" ++ filled "alt" (noted "positional_1" me) ++ bs "/>"
             ++ match caption with [] => [] | _ => line 8 ++ within "figcaption" caption end ++ line 4)
      | HParent PExample _ _ t => around_html bare me "div" [] (apart "h5" t ++ inside)
      | HParent PSidebar _ _ t => around_html bare me "aside" (bs " data-type=""sidebar""") (apart "h5" t ++ inside)
      | HParent POpen _ _ t => around_html bare me "div" [] (apart "h1" t ++ inside)
      | HParent PQuote _ _ t => around_html bare me "blockquote" [] (apart "h1" t ++ inside)
      | HParent PAdmonition (Some v) _ t =>
          around_html bare me "div" (bs " data-type=""" ++ admonition_name v ++ bs """") (apart "h1" t ++ inside)
      | HParent PFootnotes _ _ t => around_html bare me "UNHANDLED" [] (apart "h1" t ++ inside)
      | HParent PAdmonition None _ _ => []
      | HParent PTable _ _ _ => table_laid w me (map cell_of kids)
      | HCell l => around_html bare me "UNHANDLED" [] (inlines_html l)
      end
  end.
Definition page_laid (title body : bytes) : bytes :=
  bs "

<!DOCTYPE html>
<html lang=""en"">

<head>
    <meta charset=""UTF-8"">
    <meta name=""viewport"" content=""width=device-width, initial-scale=1"">
    <title>" ++ title ++ bs "</title>
</head>

<body>" ++ body ++ bs "
</body>

</html>
".
Definition blocks_laid (w : world) (title : option (list inline)) (l : list block) : bytes :=
  page_laid (match title with Some t => inlines_html t | None => [] end) (List.concat (map (fun b => line 4 ++ block_laid w false b) l)).
Definition graph_laid (w : world) (a : asg) : bytes := blocks_laid w (option_map hd_title (a_header a)) (a_blocks a).

(** ** White space *)
Definition white (c : ascii) : bool := Ascii.eqb c SP || Ascii.eqb c NL.
Definition squeezed (s : bytes) : bytes := filter (fun c => negb (white c)) s.
(** [spread s t]: [t] is [s] with white space before some [<] or after some [>] *)
Inductive spread : bytes -> bytes -> Prop :=
| spread_same s : spread s s
| spread_before g r : forallb white g = true -> spread ("<" :: r) (g ++ "<" :: r)
| spread_after g l : forallb white g = true -> spread (l ++ [">"]) (l ++ ">" :: g)
| spread_app s t s' t' : spread s t -> spread s' t' -> spread (s ++ s') (t ++ t').
(** no block that is text without a tag *)
Fixpoint tags_all (b : block) : bool :=
  match b with
  | Blk (HLeaf NPass _ _ _) _ _ _ => false
  | Blk _ _ kids _ => forallb tags_all kids
  end.
