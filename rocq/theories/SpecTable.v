(** * Documents that are one table, and what is made of them *)
From Verif Require Import Base Location Token Meta Inline Block Asg SpecScan SpecDoc SpecArticle SpecScript SpecScriptHtml.
Local Open Scope char_scope.
Local Open Scope nat_scope.

Definition table_script (title : option (list element)) (gap : bool) (rows : list row) : script :=
  mkScript None [([], Grid title gap rows)] None.
Definition plain_text (l : list element) : list inline := text_inlines plainly no_env None false l.
(** the cells of the first row are counted; it is a header unless a blank line stands above it *)
Definition table_made (title : option (list element)) (gap : bool) (first : row) (rows : list row) : block :=
  Blk (HParent PTable None (bs "|===") (match title with Some l => plain_text l | None => [] end))
      (Some (mkMeta [(bs "cols", dec (List.length (row_cells first)))] (if gap then [] else [bs "header"]) [] false None []))
      (map (fun c => Blk (HCell (plain_text (snd c))) None [] []) (List.concat (map row_cells (first :: rows)))) [].
(** what is meant by a table: it has a header if a blank line stands under the first row, and
    none above it *)
Definition header_meant (gap : bool) (first : row) : bool := negb gap && match first with Row _ under => under end.

Definition row_html (name : string) (r : row) : bytes :=
  List.concat (map (fun c => tagged name [] (inlines_html (plain_text (snd c)))) (row_cells r)).
(** as many cells in each row: a row of the table for each row of the source; the header is
    no row, and a header alone is followed by an empty row *)
Definition rectangle_html (gap : bool) (first : row) (rows : list row) : bytes :=
  tagged "table" []
    (if gap then List.concat (map (fun r => tagged "tr" [] (row_html "td" r)) (first :: rows))
     else tagged "thead" [] (row_html "th" first)
          ++ tagged "tbody" [] (match rows with
                                | [] => bs "<tr></tr>"
                                | _ => List.concat (map (fun r => tagged "tr" [] (row_html "td" r)) rows)
                                end)).
