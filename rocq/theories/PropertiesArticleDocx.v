(** * C55, C56: the docx file of whole articles *)
From Verif Require Import Json Html Cli SpecCli Base World Location Token Scanner Meta Inline Block Asg Parser Docx SpecScan SpecDoc
  SpecText SpecArticle SpecArticleDocx ArticleCheck TextProofs ArticleDocx PropertiesArticle.
Local Open Scope char_scope.
Local Open Scope nat_scope.

(** ** C55: from source text to paragraphs *)
Theorem C55_docx : forall w fuel origin resolve img a, article_ok a ->
  exists g d, parse w fuel origin resolve (article_source a) = Ok g /\ render_docx img g = Ok d
    /\ Forall2 shows (article_docx a) (d_body d).
Proof. exact article_docx_ok. Qed.
Print Assumptions C55_docx.
Theorem C55_run : forall w fuel e c a, c_backend c = BDocx -> c_unresolved c = false ->
  source_text w e c (article_source a) -> article_ok a ->
  exists o n d, destination c o /\ Forall2 shows (article_docx a) (d_body d)
  /\ let counted := if c_count c then [EvCount n (c_file c)] else [] in
     match o with
     | None => Cli.run w fuel e c = (counted, Exit)
     | Some p => e_writable e p = true -> Cli.run w fuel e c = (counted ++ [EvCreate p; EvWrite p (CDocxFile d)], Ok tt)
     end.
Proof. exact article_run_docx. Qed.
Print Assumptions C55_run.
(** the same article as in [C52_example]: the paragraphs asked for, and those of the run *)
Example C55_example :
  article_ok example_article
  /\ (let named s num parts := mkDP (Named (bs s)) num false parts in
      let t s := PText (bs s) in
      article_docx example_article =
      [named "Title" None [t "The "; PMarked Emphasis (bs "Compleat"); t " Angler"];
       named "Normal" None [t "Catch a "; PMarked Strong (bs "trout"); PText (bs "," ++ NL :: bs "drink H"); PMarked Subscript (bs "2"); t "O."];
       named "Heading 1" None [t "Tackle"];
       mkDP (Numbered 1) (Some 1) false [t "A rod;"];
       mkDP (Numbered 1) (Some 1) false [PText (bs "a line" ++ NL :: bs "and a hook.")];
       named "Heading 2" None [t "The chub"];
       named "Monospace" None [PText (NL :: bs "x = 1" ++ [NL; NL])];
       named "ListParagraph" (Some 2) [t "bread"];
       named "ListParagraph" None [t "or paste"];
       named "ThematicBreak" None [t "#"];
       named "Admonition Title" None [t "Tip"];
       named "Admonition Text" None [t "Use "; PMarked Code (bs "grep"); PText (NL :: bs "on it.")];
       named "Heading 1" None [t "Rivers"];
       named "Quote" None [t "Ask {whom}?"]]%string)
  /\ exists g d, parse world0 1 [] false (article_source example_article) = Ok g /\ render_docx (fun _ => Err DFile) g = Ok d
     /\ let plain s := RText (bs s) no_props in
        d_body d = map (fun x => let '(s, num, l) := x in BPara (mkPara (bs s) num false l))
          [("Title", None, [plain "The "; RText (bs "Compleat") (mkProps false true false None None); plain " Angler"]);
           ("Normal", None, [plain "Catch a "; RText (bs "trout") (mkProps true false false None None); plain ", drink H";
                             RText (bs "2") (mkProps false false false None (Some VSub)); plain "O."]);
           ("Heading 1", None, [plain "Tackle"]);
           ("NumberedListParagraph_1", Some 1, [plain "A rod;"]);
           ("NumberedListParagraph_1", Some 1, [plain "a line and a hook."]);
           ("Heading 2", None, [plain "The chub"]);
           ("Monospace", None, [plain " x = 1 "]);
           ("ListParagraph", Some 2, [plain "bread"]);
           ("ListParagraph", None, [plain "or paste"]);
           ("ThematicBreak", None, [plain "#"]);
           ("Admonition Title", None, [plain "Tip"]);
           ("Admonition Text", None, [plain "Use "; RText (bs "grep") (mkProps false false true None None); plain " on it."]);
           ("Heading 1", None, [plain "Rivers"]);
           ("Quote", None, [plain "Ask {whom}?"])]%string.
Proof.
  split; [apply articleb_spec; vm_compute; reflexivity|]. split; [reflexivity|].
  eexists _, _. split; [vm_compute; reflexivity|]. split; [vm_compute; reflexivity|vm_compute; reflexivity].
Qed.
(** joining of lines: the newline and the white space before it become one space *)
Example C55_lines : on_one_line (bs "a  " ++ NL :: NL :: bs " b") (bs "a  b") /\ ~ on_one_line (bs "a" ++ NL :: bs "b") (bs "ab").
Proof.
  split; [|intros H; apply one_line_only in H; discriminate H].
  apply (one_line (bs "a  " ++ NL :: NL :: bs " b")). apply low_utf8. reflexivity.
Qed.

(** ** C56: ordinary paragraphs have the style Normal *)
(** not after a list: the style of its items stays *)
Theorem C56_refuted : exists a g d b1 p, ar_pieces a = [Leaf (Items false [[text "one"]]); Leaf (Para [text "Two."])] /\ article_ok a
  /\ parse world0 1 [] false (article_source a) = Ok g /\ render_docx (fun _ => Err DFile) g = Ok d
  /\ d_body d = [b1; BPara p] /\ pa_runs p = [RText (bs "Two.") no_props] /\ pa_style p = bs "ListParagraph".
Proof.
  exists (mkArticle None [Leaf (Items false [[text "one"]]); Leaf (Para [text "Two."])]). eexists _, _, _, _.
  split; [reflexivity|]. split; [apply articleb_spec; vm_compute; reflexivity|].
  split; [vm_compute; reflexivity|]. split; [vm_compute; reflexivity|]. split; [vm_compute; reflexivity|]. split; vm_compute; reflexivity.
Qed.
Print Assumptions C56_refuted.
(** it has when nothing since the last heading, admonition or delimited block (or the start)
    changes the style: lists, listings, literal blocks and thematic breaks do *)
Theorem C56_normal_partial : forall w fuel origin resolve img a pre l post, article_ok a ->
  ar_pieces a = pre ++ Leaf (Para l) :: post ->
  Forall keeps pre \/ (exists before p after, pre = before ++ p :: after /\ resets p /\ Forall keeps after) ->
  exists g d b1 p b2, parse w fuel origin resolve (article_source a) = Ok g /\ render_docx img g = Ok d
    /\ d_body d = b1 ++ BPara p :: b2 /\ pa_style p = bs "Normal"
    /\ Forall2 part_run (text_parts (fold_left piece_env pre (title_env a)) l) (pa_runs p).
Proof. exact normal_paragraph. Qed.
Print Assumptions C56_normal_partial.
Example C56_example : exists a pre l post g d, article_ok a /\ ar_pieces a = pre ++ Leaf (Para l) :: post
  /\ (exists before p after, pre = before ++ p :: after /\ resets p /\ Forall keeps after)
  /\ parse world0 1 [] false (article_source a) = Ok g /\ render_docx (fun _ => Err DFile) g = Ok d
  /\ map (fun b => match b with BPara p => pa_style p | _ => [] end) (d_body d)
     = map bs ["ListParagraph"; "Heading 1"; "Normal"]%string.
Proof.
  exists (mkArticle None [Leaf (Items false [[text "one"]]); Heading 1 (text "H"); Leaf (Setting (bs "n") (bs "v")); Leaf (Para [text "Two."])]),
    [Leaf (Items false [[text "one"]]); Heading 1 (text "H"); Leaf (Setting (bs "n") (bs "v"))], [text "Two."], []. eexists _, _.
  split; [apply articleb_spec; vm_compute; reflexivity|]. split; [reflexivity|].
  split; [exists [Leaf (Items false [[text "one"]])], (Heading 1 (text "H")), [Leaf (Setting (bs "n") (bs "v"))]; split; [reflexivity|split; [exact I|constructor; [exact I|constructor]]]|].
  split; [vm_compute; reflexivity|]. split; vm_compute; reflexivity.
Qed.
