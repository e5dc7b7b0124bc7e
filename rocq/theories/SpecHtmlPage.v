(** * The HTML of any graph: C86, C87 *)
From Verif Require SpecPage.
From Verif Require Import Base World Location Token Meta Inline Block Asg SpecScan SpecDoc SpecArticle SpecArticleHtml SpecScript SpecScriptHtml.
Local Open Scope char_scope.
Local Open Scope nat_scope.

(** ** Numbers as the template engine reads them *)
Definition natural (s : bytes) : option N :=
  match s with [] => None | _ => if forallb is_digit s then Some (decimal s) else None end.
(** digits after at most one sign, in 64 bits *)
Definition integer (s : bytes) : option Z :=
  let fits z := if ((- 2 ^ 63 <=? z) && (z <? 2 ^ 63))%Z then Some z else None in
  match s with
  | "-" :: r => match natural r with Some n => fits (- Z.of_N n)%Z | None => None end
  | "+" :: r => match natural r with Some n => fits (Z.of_N n) | None => None end
  | _ => match natural s with Some n => fits (Z.of_N n) | None => None end
  end.
(** white space around it does not count; what is no integer may be a fraction if it has a
    dot; anything else is 0 *)
Definition number_read (w : world) (s : bytes) : Z :=
  match integer (trim s) with
  | Some z => z
  | None => if existsb (Ascii.eqb ".") s then match w_float w (trim s) with Some z => z | None => 0%Z end else 0%Z
  end.

(** ** Tables *)
Definition columns_read (w : world) (me : option metadata) : option Z :=
  match me with
  | Some m => option_map (number_read w) (lookup (bs "cols") (m_attrs m))
  | None => None
  end.
(** a table is shown if the columns are told, a header is complete, and there are columns
    unless there is at most one cell *)
Definition table_can (w : world) (me : option metadata) (cells : nat) : bool :=
  match columns_read w me with
  | Some c => (negb (headed me) || (0 <=? c)%Z && (c <=? Z.of_nat cells)%Z) && (negb (c =? 0)%Z || (cells <=? 1))
  | None => false
  end.
(** the sign of the columns does not matter for rows *)
Definition table_page (w : world) (me : option metadata) (cells : list (list inline)) : bytes :=
  let cols := match columns_read w me with Some c => Z.abs_nat c | None => 0 end in
  tagged "table" []
    (if headed me
     then tagged "thead" [] (cells_html "th" (firstn cols cells)) ++ tagged "tbody" [] (rows_html (in_rows cols cols (skipn cols cells)))
     else rows_html (in_rows cols (Nat.max 2 cols) cells)).

(** ** Blocks *)
(** every table met can be shown, and every admonition is of some kind; blocks in leaves,
    breaks, images, cells and tables are not met *)
Fixpoint shown (w : world) (b : block) : bool :=
  match b with
  | Blk h me kids _ =>
      match h with
      | HLeaf _ _ _ _ | HBreak _ | HMacro _ _ | HCell _ => true
      | HParent PTable _ _ _ => table_can w me (List.length kids)
      | HParent PAdmonition None _ _ => false
      | _ => forallb (shown w) kids
      end
  end.
(** blocks that have no tag of their own are called UNHANDLED *)
Fixpoint block_page (w : world) (bare : bool) (b : block) : bytes :=
  match b with
  | Blk h me kids _ =>
      let inside := List.concat (map (block_page w match h with HParent PAdmonition _ _ _ => true | _ => false end) kids) in
      match h with
      | HSection _ t n =>
          tagged "section" (bs " data-type=""sect" ++ SpecPage.numeral n ++ bs """" ++ class_html me ++ filled "id" (noted "id" me))
                 (within "h1" t ++ attribution me ++ inside)
      | HLeaf n _ _ l => leaf_shown n me l
      | HBreak BThematic => bs "<hr />"
      | HBreak BPage => bs "<div style=""page-break-after: always;""></div>"
      | HList LOrdered => around_html bare me "ol" [] inside
      | HList LUnordered => around_html bare me "ul" [] inside
      | HListItem _ l => around_html bare me "li" [] (within "p" l ++ inside)
      | HDList => around_html bare me "dl" [] inside
      | HDListItem t l => within "dt" t ++ around_html bare me "dd" [] (within "p" l ++ inside)
      | HMacro t caption =>
          around_html bare me "figure" (filled "id" (noted "id" me))
            (bs "<img src=""" ++ t ++ bs """" ++ filled "alt" (noted "positional_1" me) ++ bs "/>" ++ within "figcaption" caption)
      | HParent PExample _ _ t => around_html bare me "div" [] (within "h5" t ++ inside)
      | HParent PSidebar _ _ t => around_html bare me "aside" (bs " data-type=""sidebar""") (within "h5" t ++ inside)
      | HParent POpen _ _ t => around_html bare me "div" [] (within "h1" t ++ inside)
      | HParent PQuote _ _ t => around_html bare me "blockquote" [] (within "h1" t ++ inside)
      | HParent PAdmonition (Some v) _ t =>
          around_html bare me "div" (bs " data-type=""" ++ admonition_name v ++ bs """") (within "h1" t ++ inside)
      | HParent PFootnotes _ _ t => around_html bare me "UNHANDLED" [] (within "h1" t ++ inside)
      | HParent PAdmonition None _ _ => []
      | HParent PTable _ _ _ => table_page w me (map cell_of kids)
      | HCell l => around_html bare me "UNHANDLED" [] (inlines_html l)
      end
  end.
Definition blocks_page (w : world) (title : option (list inline)) (l : list block) : bytes :=
  page_around (match title with Some t => inlines_html t | None => [] end) (List.concat (map (block_page w false) l)).
Definition graph_html (w : world) (a : asg) : bytes := blocks_page w (option_map hd_title (a_header a)) (a_blocks a).
