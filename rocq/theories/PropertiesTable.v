(** * C77, C78: tables *)
From Verif Require Import Fixtures Base World Location Token Scanner Meta Inline Block Asg Parser Json Html Docx Cli SpecScan SpecLex SpecDoc SpecArticle
  ScriptCheck ScriptHtml ScriptTables TableProofs PropertiesScriptHtml SpecScript SpecScriptHtml SpecTable.
Local Open Scope char_scope.
Local Open Scope nat_scope.
Local Notation txt s := (ILit LText false (bs s%string) []).
Local Notation say s := (Bit (Said (bs s%string))).
Local Notation cell s l := (bs s%string, l).
Local Notation Cell l := (Blk (HCell l) None [] []).

(** ** C77: a table is what is written between its fences *)
(** it has a header although no blank line stands under the first row *)
Theorem C77_header_refuted : exists src title gap first rows, utf8 src /\ script_ok (table_script title gap (first :: rows))
  /\ written src (table_script title gap (first :: rows)) /\ header_meant gap first = false
  /\ exists g b, parse fixture_world 1 [] false src = Ok g /\ a_blocks g = [b] /\ headed (b_meta b) = true.
Proof.
  exists (bs "|===
| a | b
| Run | On
|===

"), None, false, (Row [cell " a " [say " a "]; cell " b" [say " b"]] false), [Row [cell " Run " [say " Run "]; cell " On" [say " On"]] false].
  split; [|split; [|split; [|split; [reflexivity|]]]].
  - apply (writtenb_ok _ (table_script None false [Row [cell " a " [say " a "]; cell " b" [say " b"]] false; Row [cell " Run " [say " Run "]; cell " On" [say " On"]] false])). vm_compute. reflexivity.
  - apply script_okb_ok. vm_compute. reflexivity.
  - apply writtenb_ok. vm_compute. reflexivity.
  - eexists _, _. split; [vm_compute; reflexivity|]. split; vm_compute; reflexivity.
Qed.
Print Assumptions C77_header_refuted.
(** two cells without a blank between them are one *)
Theorem C77_cells_refuted : exists g, parse fixture_world 1 [] false (bs "|===
|a|b
|===
") = Ok g /\ map unplaced (a_blocks g) = [Blk (HParent PTable None (bs "|===") []) None [Cell [txt "a|b"]] []].
Proof. eexists. split; vm_compute; reflexivity. Qed.
Print Assumptions C77_cells_refuted.
(** rows of one cell stop the program unless the number of columns is given *)
Theorem C77_column_refuted : parse fixture_world 1 [] false (bs "|===
|a
|b
|===
") = Exit.
Proof. vm_compute. reflexivity. Qed.
Print Assumptions C77_column_refuted.
(** so does a number of columns that is a letter of two bytes *)
Theorem C77_letter_refuted : parse fixture_world 1 [] false (bs "[cols=é]
|===
| a | b
|===
") = Panic.
Proof. vm_compute. reflexivity. Qed.
Print Assumptions C77_letter_refuted.
(** exactly: the cells with the blanks around them, the number of cells in the first row, and
    a header unless a blank line stands above the first row *)
Theorem C77_exact_partial : forall w fuel origin resolve src title gap first rows, utf8 src -> 2 <= List.length (row_cells first) ->
  script_ok (table_script title gap (first :: rows)) -> written src (table_script title gap (first :: rows)) -> 0 < fuel ->
  exists g, parse w fuel origin resolve src = Ok g /\ map unplaced (a_blocks g) = [table_made title gap first rows].
Proof. exact table_parse. Qed.
Print Assumptions C77_exact_partial.
Definition C77_source : bytes := bs ".Un
|===
| a | *b* |

| Run |On {name}
|on
|===

".
Definition C77_first : row := Row [cell " a " [say " a "]; cell " *b* " [say " "; Marked [] (Single Bold) [InBit (Said (bs "b"))]; say " "]; cell "" []] true.
Definition C77_rows : list row := [Row [cell " Run " [say " Run "]; cell "On {name}" [say "On "; Bit (Valued (bs "name"))]] false; Row [cell "on" [say "on"]] false].
Example C77_words : utf8 C77_source /\ written C77_source (table_script (Some [say "Un"]) false (C77_first :: C77_rows)).
Proof. apply writtenb_ok. vm_compute. reflexivity. Qed.
Example C77_ok : script_ok (table_script (Some [say "Un"]) false (C77_first :: C77_rows)).
Proof. apply script_okb_ok. vm_compute. reflexivity. Qed.
Example C77_example : exists g, parse fixture_world 1 [] false C77_source = Ok g
  /\ map unplaced (a_blocks g) =
     [Blk (HParent PTable None (bs "|===") [txt "Un"]) (Some (mkMeta [(bs "cols", bs "3")] [bs "header"] [] false None []))
        [Cell [txt " a "]; Cell [txt " "; ISpan SStrong FConstrained [txt "b"] None [] false; txt " "]; Cell [];
         Cell [txt " Run "]; Cell [txt "On {name}"]; Cell [txt "on"]] []].
Proof.
  destruct (C77_exact_partial fixture_world 1 [] false C77_source (Some [say "Un"]) false C77_first C77_rows) as (g & E & B);
    [apply C77_words|cbn; repeat constructor|exact C77_ok|apply C77_words|repeat constructor|].
  exists g. split; [exact E|]. rewrite B. vm_compute. reflexivity.
Qed.

(** ** C78: each row of the table is a row of the HTML *)
(** the first row of a table of one column has two cells *)
Theorem C78_column_refuted : exists g, parse fixture_world 1 [] false (bs "[cols=1]
|===

|a
|b
|on
|===
") = Ok g /\ render_htmlbook fixture_world g = Ok (page_around [] (bs "<table><tr><td>a</td><td>b</td></tr><tr><td>on</td></tr></table>")).
Proof. eexists. split; [vm_compute; reflexivity|vm_compute; reflexivity]. Qed.
Print Assumptions C78_column_refuted.
(** the header is no row, and the title is not shown *)
Theorem C78_header_refuted : exists g, parse fixture_world 1 [] false C77_source = Ok g
  /\ render_htmlbook fixture_world g = Ok (page_around []
       (bs "<table><thead><th> a </th><th> <strong>b</strong> </th><th></th></thead><tbody><tr><td> Run </td><td>On {name}</td><td>on</td></tr></tbody></table>")).
Proof. eexists. split; [vm_compute; reflexivity|vm_compute; reflexivity]. Qed.
Print Assumptions C78_header_refuted.
(** a table of one cell, and a table of no columns, stop the program *)
Theorem C78_one_refuted : exists g, parse fixture_world 1 [] false (bs "|===
|a
|===
") = Ok g /\ render_htmlbook fixture_world g = Panic.
Proof. eexists. split; [vm_compute; reflexivity|vm_compute; reflexivity]. Qed.
Print Assumptions C78_one_refuted.
Theorem C78_none_refuted : exists g, parse fixture_world 1 [] false (bs "[cols=0]
|===

| a | b
|===
") = Ok g /\ render_htmlbook fixture_world g = Panic.
Proof. eexists. split; [vm_compute; reflexivity|vm_compute; reflexivity]. Qed.
Print Assumptions C78_none_refuted.
(** any table whose columns are told, with all cells of the header there if it has one *)
Theorem C78_exact : forall w bare v delim title me k loc, table_fits me (List.length k) = true ->
  exists p, html_block w bare (Blk (HParent PTable v delim title) me k loc) = Ok p /\ pieces_text p = table_html me (map cell_of k).
Proof. exact table_block_shown. Qed.
Print Assumptions C78_exact.
Example C78_exact_example : table_html (Some (mkMeta [(bs "cols", bs "2")] [] [] false None [])) [[txt "a"]; [txt "b"]; [txt "on"]]
  = bs "<table><tr><td>a</td><td>b</td></tr><tr><td>on</td></tr></table>".
Proof. vm_compute. reflexivity. Qed.
(** tables without attributes whose first row has several cells can be shown *)
Theorem C78_fit : forall d, Forall counts_itself (sc_pieces d) -> script_ok d -> forallb tables_fit (script_blocks d) = true.
Proof. exact fit_blocks. Qed.
Print Assumptions C78_fit.
(** a table with as many cells in each row is shown row by row *)
Theorem C78_rows_partial : forall w fuel origin resolve src title gap n first rows, utf8 src -> 2 <= n -> (N.of_nat n < 2 ^ 63)%N ->
  Forall (fun r => List.length (row_cells r) = n) (first :: rows) ->
  script_ok (table_script title gap (first :: rows)) -> written src (table_script title gap (first :: rows)) -> 0 < fuel ->
  exists g, parse w fuel origin resolve src = Ok g /\ render_htmlbook w g = Ok (page_around [] (rectangle_html gap first rows)).
Proof. exact rectangle_page. Qed.
Print Assumptions C78_rows_partial.
Definition C78_source : bytes := bs "|===

| Run | on
| a |*b*

|An | by
|===

".
Definition C78_first : row := Row [cell " Run " [say " Run "]; cell " on" [say " on"]] false.
Definition C78_more : list row := [Row [cell " a " [say " a "]; cell "*b*" [Marked [] (Single Bold) [InBit (Said (bs "b"))]]] true; Row [cell "An " [say "An "]; cell " by" [say " by"]] false].
Example C78_words : utf8 C78_source /\ written C78_source (table_script None true (C78_first :: C78_more)).
Proof. apply writtenb_ok. vm_compute. reflexivity. Qed.
Example C78_ok : script_ok (table_script None true (C78_first :: C78_more)).
Proof. apply script_okb_ok. vm_compute. reflexivity. Qed.
Example C78_example : exists g, parse fixture_world 1 [] false C78_source = Ok g
  /\ render_htmlbook fixture_world g = Ok (page_around []
       (bs "<table><tr><td> Run </td><td> on</td></tr><tr><td> a </td><td><strong>b</strong></td></tr><tr><td>An </td><td> by</td></tr></table>")).
Proof.
  destruct (C78_rows_partial fixture_world 1 [] false C78_source None true 2 C78_first C78_more) as (g & E & B);
    [apply C78_words|repeat constructor|reflexivity|repeat constructor|exact C78_ok|apply C78_words|repeat constructor|].
  exists g. split; [exact E|]. rewrite B. vm_compute. reflexivity.
Qed.
