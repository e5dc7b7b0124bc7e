(** * C80: a document cut into files *)
From Verif Require SpecAttrs.
From Verif Require Import Fixtures Base World Location Token Scanner Meta Inline Block Asg Html Parser SpecScan SpecLex SpecSelect SpecDoc SpecArticle
  ScriptCheck CutProofs CutHtml CutCheck SpecInclude SpecScript SpecScriptHtml SpecCut.
Local Open Scope nat_scope.

Theorem C80_blocks_partial : forall w fuel origin resolve src d, utf8 src -> cut_ok d -> stored w origin resolve [] (ct_body d) -> depth (ct_body d) <= fuel ->
  tokenised [] src (cut_words d) ->
  exists g, parse w fuel origin resolve src = Ok g
    /\ map unplaced (a_blocks g) = cut_blocks d
    /\ option_map (fun h => map unplaced_inline (hd_title h)) (a_header g) = cut_title d.
Proof. exact cut_graph. Qed.
Print Assumptions C80_blocks_partial.

Theorem C80_html_partial : forall w fuel origin resolve src d, utf8 src -> cut_ok d -> forallb tables_fit (cut_blocks d) = true ->
  stored w origin resolve [] (ct_body d) -> depth (ct_body d) <= fuel -> tokenised [] src (cut_words d) ->
  exists g, parse w fuel origin resolve src = Ok g /\ render_htmlbook w g = Ok (page_html (cut_title d) (cut_blocks d)).
Proof. exact cut_shown. Qed.
Print Assumptions C80_html_partial.

(** the document in one file has the same blocks, title and HTML *)
Theorem C80_same_partial : forall w fuel origin resolve src w' fuel' origin' resolve' src' d, utf8 src -> utf8 src' -> cut_ok d -> seamless d = true ->
  stored w origin resolve [] (ct_body d) -> depth (ct_body d) <= fuel -> tokenised [] src (cut_words d) ->
  (resolve' = true -> Forall (fun t => w_canon w' (path_join origin' t) <> None) (pictures (whole d))) ->
  (cells (whole d) = [] \/ 0 < fuel') -> written src' (whole d) ->
  exists g g', parse w fuel origin resolve src = Ok g /\ parse w' fuel' origin' resolve' src' = Ok g'
    /\ map unplaced (a_blocks g) = map unplaced (a_blocks g')
    /\ option_map (fun h => map unplaced_inline (hd_title h)) (a_header g) = option_map (fun h => map unplaced_inline (hd_title h)) (a_header g')
    /\ (forallb tables_fit (cut_blocks d) = true -> render_htmlbook w g = render_htmlbook w' g').
Proof. exact cut_same. Qed.
Print Assumptions C80_same_partial.

(** a document in three files: a section of the second goes on in the first, and an
    attribute of the second is known in the first *)
Local Notation say s := (Bit (Said (bs s%string))).
Definition C80_disk : world := disk
  [(bs "d/f.adoc", bs "=== On

:name: Ada

* a
* b

include::g.adoc[]
"); (bs "d/g.adoc", bs "Un *bold*
")].
Definition C80_source : bytes := bs "= Un

Go

== Run

include::d/f.adoc[]

By {name}
".
Definition C80_document : cut := mkCut (Some ([say "Un"], []))
  (Own [] (Part (Text [say "Go"]))
  (Own [] (Head 1 [say "Run"])
  (File (bs "d/f.adoc") []
     (Own [] (Head 2 [say "On"])
     (Own [] (Part (Setting (bs "name") (bs "Ada")))
     (Own [] (Part (Points false [[say "a"]; [say "b"]]))
     (File (bs "g.adoc") [] (Lines [] [say "Un "; Marked [] (Single Bold) [InBit (Said (bs "bold"))]] true) 1 Stop)))) 2
  (Lines [] [say "By "; Bit (Valued (bs "name"))] true)))).
Definition C80_whole : bytes := bs "= Un

Go

== Run

=== On

:name: Ada

* a
* b

Un *bold*

By {name}
".
Example C80_example_written : utf8 C80_source /\ tokenised [] C80_source (cut_words C80_document).
Proof. apply scannedb_ok. vm_compute. reflexivity. Qed.
Example C80_example_ok : cut_ok C80_document.
Proof. apply cut_okb_ok. vm_compute. reflexivity. Qed.
Example C80_example_stored : stored C80_disk [] true [] (ct_body C80_document).
Proof. apply storedb_ok. vm_compute. reflexivity. Qed.
Example C80_example_depth : depth (ct_body C80_document) = 2.
Proof. reflexivity. Qed.
Example C80_example_whole : utf8 C80_whole /\ written C80_whole (whole C80_document).
Proof. apply writtenb_ok. vm_compute. reflexivity. Qed.
Example C80_example_seamless : seamless C80_document = true /\ forallb tables_fit (cut_blocks C80_document) = true.
Proof. split; [vm_compute; reflexivity|vm_compute; reflexivity]. Qed.
Local Notation txt s := (ILit LText false (bs s%string) []).
Local Notation par l := (Blk (HLeaf NParagraph FmParagraph None l) None [] []).
Example C80_example_blocks : cut_blocks C80_document =
  [par [txt "Go"];
   Blk (HSection [] [txt "Run"] 1) None
     [Blk (HSection [] [txt "On"] 2) None
        [Blk (HList LUnordered) None [Blk (HListItem (bs "*") [txt "a"]) None [] []; Blk (HListItem (bs "*") [txt "b"]) None [] []] [];
         par [txt "Un "; ISpan SStrong FConstrained [txt "bold"] None [] false];
         par [txt "By Ada"]] []] []].
Proof. vm_compute. reflexivity. Qed.

(** a document that takes in lines of a file, and a tagged region of another *)
Definition C80_parts_disk : world := disk
  [(bs "h.adoc", bs "No

Un

include::g.adoc[tag=x]

Go
"); (bs "g.adoc", bs "No

// tag::x[]
On *go*

Do
// end::x[]
Go
")].
Definition C80_parts_source : bytes := bs "include::h.adoc[lines=3..6]

By
".
Definition C80_parts : cut := mkCut None
  (File (bs "h.adoc") [SpecAttrs.Bare (bs "lines=3..6")]
     (Own [] (Part (Text [say "Un"]))
     (File (bs "g.adoc") [SpecAttrs.Bare (bs "tag=x")]
        (Own [] (Part (Text [say "On "; Marked [] (Single Bold) [InBit (Said (bs "go"))]]))
        (Lines [] [say "Do"] true)) 2 Stop)) 2
  (Lines [] [say "By"] true)).
Example C80_parts_written : utf8 C80_parts_source /\ tokenised [] C80_parts_source (cut_words C80_parts).
Proof. apply scannedb_ok. vm_compute. reflexivity. Qed.
Example C80_parts_ok : cut_ok C80_parts.
Proof. apply cut_okb_ok. vm_compute. reflexivity. Qed.
Example C80_parts_stored : stored C80_parts_disk [] true [] (ct_body C80_parts).
Proof.
  split; [|split; [apply storedb_ok; vm_compute; reflexivity|exact Logic.I]]. eexists _, _. split; [vm_compute; reflexivity|]. split; [vm_compute; reflexivity|].
  eexists. split; [vm_compute; reflexivity|]. eexists. split.
  - apply (chosen_lines _ _ (bs "3..6") [Through 3 6]); [vm_compute; reflexivity|vm_compute; reflexivity|vm_compute; reflexivity| |].
    + constructor. apply (writes_through (bs "3") 3 (bs "6") 6); constructor; (split; [reflexivity|lia]).
    + left. split; [|exists 3; reflexivity]. constructor; [split; cbv; reflexivity|constructor].
  - split; [left; vm_compute; reflexivity|left; reflexivity].
Qed.
Example C80_parts_blocks : cut_blocks C80_parts =
  [par [txt "Un"]; par [txt "On "; ISpan SStrong FConstrained [txt "go"] None [] false]; par [txt "Do"]; par [txt "By"]].
Proof. vm_compute. reflexivity. Qed.
Example C80_parts_seamless : seamless C80_parts = true /\ depth (ct_body C80_parts) = 2.
Proof. split; reflexivity. Qed.

(** a section that a file begins ends with the file if none was open before *)
Theorem C80_section_refuted : exists a a',
  parse (disk [(bs "f.adoc", bs "== Run
")]) 1 [] false (bs "include::f.adoc[]

By
") = Ok a
  /\ parse (disk []) 1 [] false (bs "== Run

By
") = Ok a'
  /\ map unplaced (a_blocks a) = [Blk (HSection [] [txt "Run"] 1) None [] []; par [txt "By"]]
  /\ map unplaced (a_blocks a') = [Blk (HSection [] [txt "Run"] 1) None [par [txt "By"]] []].
Proof. eexists _, _. split; [vm_compute; reflexivity|]. split; [vm_compute; reflexivity|]. split; [vm_compute; reflexivity|vm_compute; reflexivity]. Qed.
Print Assumptions C80_section_refuted.
(** without a blank line after the directive, a line break comes before the text that follows *)
Theorem C80_break_refuted : exists a,
  parse (disk [(bs "f.adoc", bs "On
"); (bs "g.adoc", bs "Go
")]) 1 [] false (bs "include::f.adoc[]
include::g.adoc[]
") = Ok a
  /\ map unplaced (a_blocks a) = [par [txt "On"]; par [txt "
Go"]].
Proof. eexists. split; [vm_compute; reflexivity|vm_compute; reflexivity]. Qed.
Print Assumptions C80_break_refuted.
(** the title of a document cannot stand in a file *)
Theorem C80_title_refuted : exists e,
  parse (disk [(bs "f.adoc", bs "= Un

On
")]) 1 [] false (bs "include::f.adoc[]
") = Err e.
Proof. eexists. vm_compute. reflexivity. Qed.
Print Assumptions C80_title_refuted.
