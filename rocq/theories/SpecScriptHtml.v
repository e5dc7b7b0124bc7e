(** * The HTML of a document, written from its blocks and inlines *)
From Verif Require SpecMeta.
From Verif Require Import Base Location Token Meta Inline Block Asg SpecScan SpecDoc SpecArticle SpecArticleHtml SpecScript.
Local Open Scope char_scope.
Local Open Scope nat_scope.

(** one more attribute of a tag, if there is a value *)
Definition filled (name : string) (v : bytes) : bytes :=
  match v with [] => [] | _ => " " :: bs name ++ bs "=""" ++ v ++ bs """" end.
Definition noted (name : string) (me : option metadata) : bytes :=
  match me with Some m => match lookup (bs name) (m_attrs m) with Some v => v | None => [] end | None => [] end.
(** the class is written for roles, even if the only role is empty *)
Definition class_html (me : option metadata) : bytes :=
  match me with
  | Some m => match m_roles m with [] => [] | l => bs " class=""" ++ SpecMeta.spaced l ++ bs """" end
  | None => []
  end.
Definition tagged (name : string) (attrs s : bytes) : bytes :=
  bs "<" ++ bs name ++ attrs ++ bs ">" ++ s ++ bs "</" ++ bs name ++ bs ">".

Definition span_name (v : span_variant) : string :=
  match v with
  | SStrong => "strong" | SEmphasis => "em" | SCode => "code" | SSuperscript => "sup" | SSubscript => "sub"
  | SMark | SFootnote => "span"
  end.
Fixpoint inline_html (i : inline) : bytes :=
  match i with
  | ILit _ _ s _ => s
  | IBreak _ => bs "<br />"
  | ISpan v _ l me _ _ =>
      tagged (span_name v) (class_html me ++ match v with SFootnote => bs " data-type=""footnote""" | _ => [] end)
             (List.concat (map inline_html l))
  | IRef RImage t _ me _ => bs "<img" ++ class_html me ++ bs " src=""" ++ t ++ bs """ />"
  | IRef v t l me _ =>
      let to := match v with RXref => "#" :: t | _ => t end in
      tagged "a" (class_html me ++ bs " href=""" ++ to ++ bs """")
             (match l with [] => to | _ => List.concat (map inline_html l) end)
  end.
Definition inlines_html (l : list inline) : bytes := List.concat (map inline_html l).
(** nothing for nothing *)
Definition within (name : string) (l : list inline) : bytes :=
  match l with [] => [] | _ => tagged name [] (inlines_html l) end.
Definition attribution (me : option metadata) : bytes :=
  match noted "attribution" me with
  | [] => []
  | a => tagged "p" (bs " data-type=""attribution""") (a ++ match noted "citation" me with [] => [] | c => bs ", " ++ c end)
  end.

Definition leaf_shown (n : leaf_name) (me : option metadata) (l : list inline) : bytes :=
  match n with
  | NPass => inlines_html l
  | NParagraph => tagged "p" (class_html me) (inlines_html l)
  | NListing => tagged "pre" (class_html me ++ filled "data-code-language" (noted "language" me)) (inlines_html l)
  | NVerse => tagged "pre" (class_html me ++ bs " data-type=""verse""") (inlines_html l)
  | NLiteral => tagged "pre" (class_html me) (inlines_html l)
  end.
(** what stands around the blocks inside a parent; [bare]: in an admonition, where the tag
    itself is left out *)
Definition around_html (bare : bool) (me : option metadata) (name : string) (attrs s : bytes) : bytes :=
  if bare then s ++ attribution me else tagged name (class_html me ++ attrs) (s ++ attribution me).

(** *** Tables *)
Definition decimal (v : bytes) : N := fold_left (fun n c => (10 * n + (N_of_ascii c - 48))%N) v 0%N.
(** the number of columns: the attribute [cols], if it is a number that an [i64] can hold *)
Definition columns_told (me : option metadata) : option N :=
  match me with
  | Some m => match lookup (bs "cols") (m_attrs m) with
              | Some (c :: r) => if forallb is_digit (c :: r) && (decimal (c :: r) <? 2 ^ 63)%N then Some (decimal (c :: r)) else None
              | _ => None
              end
  | None => None
  end.
Definition headed (me : option metadata) : bool :=
  match me with Some m => existsb (beqb (bs "header")) (m_options m) | None => false end.
(** tables that can be shown: at least one column is told, and the first row is complete if
    it is a header *)
Definition table_fits (me : option metadata) (cells : nat) : bool :=
  match columns_told me with
  | Some n => (1 <=? n)%N && (negb (headed me) || (n <=? N.of_nat cells)%N)
  | None => false
  end.
Definition cell_of (b : block) : list inline := match b with Blk (HCell l | HLeaf _ _ _ l) _ _ _ => l | _ => [] end.
(** cells in rows of [cols], of which the first row takes [left]; there is always a row,
    and it never ends before the first cell *)
Fixpoint in_rows {A} (cols left : nat) (l : list A) : list (list A) :=
  match l with
  | [] => [[]]
  | [c] => [[c]]
  | c :: r => if left <=? 1 then [c] :: in_rows cols cols r
              else match in_rows cols (left - 1) r with [] => [[c]] | x :: y => (c :: x) :: y end
  end.
Definition cells_html (name : string) (l : list (list inline)) : bytes :=
  List.concat (map (fun c => tagged name [] (inlines_html c)) l).
Definition rows_html (l : list (list (list inline))) : bytes :=
  List.concat (map (fun r => tagged "tr" [] (cells_html "td" r)) l).
(** a header is not a row; without a header even the first row of a table of one column
    holds two cells *)
Definition table_html (me : option metadata) (cells : list (list inline)) : bytes :=
  let cols := match columns_told me with Some n => N.to_nat n | None => 0 end in
  tagged "table" []
    (if headed me
     then tagged "thead" [] (cells_html "th" (firstn cols cells)) ++ tagged "tbody" [] (rows_html (in_rows cols cols (skipn cols cells)))
     else rows_html (in_rows cols (Nat.max 2 cols) cells)).
(** all tables of a block, at any depth, can be shown *)
Fixpoint tables_fit (b : block) : bool :=
  match b with
  | Blk h me kids _ =>
      match h with HParent PTable _ _ _ => table_fits me (List.length kids) | _ => true end && forallb tables_fit kids
  end.

(** tables that count their own columns: nothing stands before them, and the first row has
    several cells *)
Definition counts_itself (x : list decor * SpecScript.piece) : Prop :=
  match snd x with
  | Grid _ _ rows =>
      fst x = [] /\ match rows with r :: _ => 2 <= List.length (row_cells r) /\ (N.of_nat (List.length (row_cells r)) < 2 ^ 63)%N | [] => False end
  | _ => True
  end.

Fixpoint block_html (bare : bool) (b : block) : bytes :=
  match b with
  | Blk h me kids _ =>
      let inside := List.concat (map (block_html match h with HParent PAdmonition _ _ _ => true | _ => false end) kids) in
      match h with
      | HSection _ t n =>
          tagged "section" (bs " data-type=""sect" ++ level_digit n ++ bs """" ++ class_html me ++ filled "id" (noted "id" me))
                 (within "h1" t ++ attribution me ++ inside)
      | HLeaf n _ _ l => leaf_shown n me l
      | HBreak BThematic => bs "<hr />"
      | HBreak BPage => bs "<div style=""page-break-after: always;""></div>"
      | HList LOrdered => around_html bare me "ol" [] inside
      | HList LUnordered => around_html bare me "ul" [] inside
      | HListItem _ l => around_html bare me "li" [] (within "p" l ++ inside)
      | HDList => around_html bare me "dl" [] inside
      | HDListItem t l => within "dt" t ++ around_html bare me "dd" [] (within "p" l ++ inside)
      | HMacro t caption =>
          around_html bare me "figure" (filled "id" (noted "id" me))
            (bs "<img src=""" ++ t ++ bs """" ++ filled "alt" (noted "positional_1" me) ++ bs "/>" ++ within "figcaption" caption)
      | HParent PExample _ _ t => around_html bare me "div" [] (within "h5" t ++ inside)
      | HParent PSidebar _ _ t => around_html bare me "aside" (bs " data-type=""sidebar""") (within "h5" t ++ inside)
      | HParent POpen _ _ t => around_html bare me "div" [] (within "h1" t ++ inside)
      | HParent PQuote _ _ t => around_html bare me "blockquote" [] (within "h1" t ++ inside)
      | HParent PAdmonition (Some v) _ t =>
          around_html bare me "div" (bs " data-type=""" ++ admonition_name v ++ bs """") (within "h1" t ++ inside)
      | HParent PTable _ _ _ => table_html me (map cell_of kids)
      | HParent _ _ _ _ | HCell _ => []
      end
  end.
Definition page_around (title body : bytes) : bytes :=
  bs "<!DOCTYPE html><html lang=""en""><head><meta charset=""UTF-8"">"
  ++ bs "<meta name=""viewport"" content=""width=device-width, initial-scale=1"">"
  ++ wrap "<title>" title "</title></head>" ++ wrap "<body>" body "</body></html>".
Definition page_html (title : option (list inline)) (l : list block) : bytes :=
  page_around (match title with Some t => inlines_html t | None => [] end) (List.concat (map (block_html false) l)).
Definition script_html (d : script) : bytes := page_html (script_title d) (script_blocks d).
