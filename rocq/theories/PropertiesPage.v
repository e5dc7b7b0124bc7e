(** * C83, C84, C85, and C36 for every graph: the docx output, exactly *)
From Verif Require SpecPage PageProofs SpecDocx StyleProofs.
From Verif Require Import Base World Location Token Scanner Meta Inline Block Asg Parser Json Html Docx Cli Fixtures SpecScan SpecCli SpecInclude
  PageScript PropertiesScript SpecScript SpecScriptJson SpecScriptPage.
Import SpecPage.
Local Open Scope char_scope.
Local Open Scope nat_scope.

(** ** C83: the docx file of any graph: its paragraphs, tables and pictures from front to back,
    styles and numberings; or the first trouble *)
Theorem C83_docx : forall img a,
  match first_trouble img (graph_events a) with
  | Ok _ => exists d, render_docx img a = Ok d /\ presents (graph_events a) d
  | Err e => render_docx img a = Err e
  | Panic => render_docx img a = Panic
  | Hang => render_docx img a = Hang
  | Exit => render_docx img a = Exit
  end.
Proof. exact PageProofs.graph_runs. Qed.
Print Assumptions C83_docx.
Theorem C83_run : forall w fuel e c src g, c_backend c = BDocx -> source_text w e c src ->
  parse w fuel (folder e (c_file c)) (negb (c_unresolved c)) src = Ok g ->
  exists o, destination c o
  /\ let counted := if c_count c then [EvCount (word_count g) (c_file c)] else [] in
     match o with
     | None => run w fuel e c = (counted, Exit)
     | Some p =>
         (c_unresolved c = true -> run w fuel e c = (counted, Exit))
         /\ (c_unresolved c = false -> e_writable e p = true ->
             match first_trouble (e_img e) (graph_events g) with
             | Ok _ => exists d, presents (graph_events g) d
                       /\ run w fuel e c = (counted ++ [EvCreate p; EvWrite p (CDocxFile d)], Ok tt)
             | _ => run w fuel e c = (counted ++ [EvCreate p], Panic)
             end)
     end.
Proof. exact docx_run. Qed.
Print Assumptions C83_run.
Definition lines (l : list bytes) : bytes := List.concat (map (fun s => s ++ [NL]) l).
Definition page_source : bytes :=
  lines [bs "= A *b*"; []; bs "x *a _b_ c* +"; bs " d *e H~2~O*"; []; bs "<<<"; []; bs "== S"; [];
         bs "[cols=""2""]"; bs "|==="; bs "|a |b"; bs "|c |d"; bs "|==="; []; bs "[quote,Ada]"; bs "____"; bs "q"; bs "____"; []; bs "image::p.png[]"; []; bs ". y"].
(** the text of the list item, which follows an image, is attached to an empty item *)
Example C83_example : exists a d, parse world0 20 [] false page_source = Ok a /\ render_docx (fun _ => Ok tt) a = Ok d
  /\ (let t s := Said LText (bs s) in
      let par s := Paragraph (bs s) None false in
      page [] (graph_events a)
      = [par "Title" [t "A " false []; t "b" true [SStrong]];
         par "Normal" [t "x " false []; t "a " true [SStrong]; t "b" true [SStrong; SEmphasis]; t " c" true [SStrong; SEmphasis];
                       t " " false []; Turn; Said LText (NL :: bs " d ") false [];
                       t "e H" true [SStrong]; t "2" true [SStrong; SSubscript]; t "O" true [SStrong; SSubscript]];
         Paragraph (bs "Heading 1") None true [t "S" false []];
         Table [[[t "a " false []]; [t "b" false []]]] [[t "a " false []]; [t "b" false []]; [t "c " false []]; [t "d" false []]];
         par "Quote" [t "q" false []]; par "Quote" [Label (bs "— Ada" ++ [NL])]; SpecPage.Picture (bs "p.png");
         Paragraph (bs "NumberedListParagraph_1") (Some 1) false []; par "ListParagraphContinue" [t "y" false []]]%string)
  /\ (let plain s := RText (bs s) no_props in
      let look b i v s := RText (bs s) (mkProps b i false None v) in
      let para s := mkPara (bs s) None false in
      d_body d
      = [BPara (para "Title" [plain "A "; look true false None "b"]);
         BPara (para "Normal" [plain "x "; look true false None "a "; look true true None "b"; look true true None " c"; plain " "; RBreak; plain "d ";
                               look true false None "e H"; look false false (Some VSub) "2"; look false false (Some VSub) "O"]);
         BPara (mkPara (bs "Heading 1") None true [plain "S"]);
         BTable [[para "Table" [plain "a "]; para "Table" [plain "b"]]];
         BPara (para "Quote" [plain "q"]); BPara (para "Quote" [RText (bs "— Ada" ++ [NL]) no_props]); BPic (bs "p.png");
         BPara (mkPara (bs "NumberedListParagraph_1") (Some 1) false []); BPara (para "ListParagraphContinue" [plain "y"])]%string)
  /\ map fst (d_styles d) = map bs ["Normal"; "No Spacing"; "Title"; "Heading 1"; "Table"; "Quote"; "NumberedListParagraph_1"; "ListParagraphContinue"]%string.
Proof. do 2 eexists. do 4 (split; [vm_compute; reflexivity|]). vm_compute. reflexivity. Qed.
(** the three troubles; the file is created and stays empty *)
Definition trouble_run (img : bytes -> dres unit) (l : list bytes) : list Cli.event * result unit :=
  run (SpecInclude.disk [(bs "x.adoc", lines l)]) 20 (mkEnv None (bs "/") (fun _ => true) img) (mkCli (bs "x.adoc") None BDocx false false).
Definition trouble_of (img : bytes -> dres unit) (l : list bytes) : dres unit :=
  match parse world0 20 [] false (lines l) with Ok a => first_trouble img (graph_events a) | _ => Ok tt end.
Example C83_troubles :
  (let missing := fun t => if beqb t (bs "q.png") then Err DFile else Ok tt in
   trouble_of missing [bs "image::p.png[]"; []; bs "image::q.png[]"] = Err DFile)
  /\ trouble_of (fun _ => Ok tt) [bs "[cols=""x""]"; bs "|==="; bs "|a |b"; bs "|==="] = Err DColumn
  /\ trouble_of (fun _ => Ok tt) [bs "[cols=""0""]"; bs "|==="; bs "|a |b"; bs "|==="] = Panic
  /\ trouble_run (fun _ => Ok tt) [bs "[cols=""0""]"; bs "|==="; bs "|a |b"; bs "|==="] = ([EvCreate (bs "x.docx")], Panic).
Proof. repeat split; vm_compute; reflexivity. Qed.

(** ** C84: the docx file of documents given by their tokens *)
Theorem C84_docx : forall w fuel origin resolve img src d, utf8 src -> script_ok d ->
  (resolve = true -> Forall (fun t => w_canon w (path_join origin t) <> None) (pictures d)) ->
  (cells d = [] \/ 0 < fuel) -> written src d ->
  exists g, parse w fuel origin resolve src = Ok g
  /\ match first_trouble img (script_events d) with
     | Ok _ => exists x, render_docx img g = Ok x /\ presents (script_events d) x
     | Err e => render_docx img g = Err e
     | Panic => render_docx img g = Panic
     | Hang => render_docx img g = Hang
     | Exit => render_docx img g = Exit
     end.
Proof. exact script_docx. Qed.
Print Assumptions C84_docx.
Theorem C84_run : forall w fuel e c src d, c_backend c = BDocx -> c_unresolved c = false -> source_text w e c src -> utf8 src -> script_ok d ->
  Forall (fun t => w_canon w (path_join (folder e (c_file c)) t) <> None) (pictures d) ->
  (cells d = [] \/ 0 < fuel) -> written src d ->
  exists o, destination c o
  /\ let counted := if c_count c then [EvCount (script_words d) (c_file c)] else [] in
     match o with
     | None => run w fuel e c = (counted, Exit)
     | Some p => e_writable e p = true ->
         match first_trouble (e_img e) (script_events d) with
         | Ok _ => exists x, presents (script_events d) x
                   /\ run w fuel e c = (counted ++ [EvCreate p; EvWrite p (CDocxFile x)], Ok tt)
         | _ => run w fuel e c = (counted ++ [EvCreate p], Panic)
         end
     end.
Proof. exact script_docx_run. Qed.
Print Assumptions C84_run.
(** the hypotheses hold of this script by [C69_example_words] and [C69_example_ok] *)
Example C84_example :
  (let t s := Said LText (bs s) in
   let par s := Paragraph (bs s) None false in
   page [] (script_events C69_script)
   = [par "Title" [t "A " false []; t "bold" true [SStrong]; t " land" false []];
      par "Heading 1" [t "Un" false []];
      par "Normal" [t "By Ada, " false []; t "bold " true [SStrong]; t "and" true [SStrong; SEmphasis]; t " bad" true [SStrong; SEmphasis];
                    Said LText (bs "." ++ NL :: bs "Long.") false []];
      Paragraph (bs "ListParagraph") (Some 1) false [t "a" false []];
      Paragraph (bs "ListParagraph") (Some 1) false [t "b" false []; t "2" true [SSuperscript]];
      par "Heading 2" [t "Su" false []];
      par "Normal" [t "go " false []; t "to sun" true []; t "or " true [SFootnote]; t "an" true [SFootnote; SCode]; t "." false []];
      par "Normal" [Said LText (NL :: bs "Our ") false []; t "Un" true []];
      par "Quote" [t "On, an." false []]; par "Quote" [Label (bs "— Ada" ++ [NL])];
      par "Example Title" [t "A " false []; t "bun" true [SMark]];
      par "Example Text" [t "Go" false []];
      par "Monospace" [Said LText (NL :: bs "// run" ++ NL :: NL :: bs "a *b" ++ [NL]) false []];
      par "Monospace" [t "Run" false []];
      SpecPage.Picture (bs "p.png");
      par "Admonition Title" [Label (bs "Note")];
      par "Admonition Text" [t "*u* " false []; Turn; Said LText (NL :: bs "and") false []];
      par "Normal" [t "Run “on”" false []]]%string)
  /\ first_trouble (fun _ => Ok tt) (script_events C69_script) = Ok tt
  /\ first_trouble (fun _ => Err DFile) (script_events C69_script) = Err DFile.
Proof. repeat split; vm_compute; reflexivity. Qed.

(** ** C85: the numberings.  Missing: items of numbered lists, and of lists with bullets after
    the first, refer to numberings that are not defined (both refuted). *)
Theorem C85_partial : forall img a d, render_docx img a = Ok d ->
  numbers_used d = item_lists 0 (graph_events a)
  /\ map fst (d_nums d) = match bulleted 0 (graph_events a) with Some n => [n] | None => [] end.
Proof. exact PageProofs.numbers_ok. Qed.
Print Assumptions C85_partial.
Example C85_example : exists a d, parse world0 20 [] false (lines [bs "* a"; bs "* b"]) = Ok a /\ render_docx (fun _ => Ok tt) a = Ok d
  /\ numbers_used d = [1; 1] /\ d_nums d = [(1, 1)].
Proof. do 2 eexists. do 3 (split; [vm_compute; reflexivity|]). vm_compute. reflexivity. Qed.
Theorem C85_refuted : exists src a d, src = lines [bs ". a"] /\ parse world0 20 [] false src = Ok a /\ render_docx (fun _ => Ok tt) a = Ok d
  /\ numbers_used d = [1] /\ d_nums d = [].
Proof. do 3 eexists. split; [reflexivity|]. do 3 (split; [vm_compute; reflexivity|]). vm_compute. reflexivity. Qed.
Print Assumptions C85_refuted.
Theorem C85_second_refuted : exists src a d, src = lines [bs "* a"; []; bs "b"; []; bs "* c"] /\ parse world0 20 [] false src = Ok a
  /\ render_docx (fun _ => Ok tt) a = Ok d /\ numbers_used d = [1; 2] /\ d_nums d = [(1, 1)].
Proof. do 3 eexists. split; [reflexivity|]. do 3 (split; [vm_compute; reflexivity|]). vm_compute. reflexivity. Qed.
Print Assumptions C85_second_refuted.

(** ** C36, for every graph: every style is defined once, the styles that others are based on are
    defined, and the one style that is used without being defined is that of thematic breaks,
    which is never defined and is used exactly when a thematic break is written.  Missing: this
    style (refuted in [PropertiesDocx.C36_refuted]). *)
Theorem C36_exact_partial : forall img a d, render_docx img a = Ok d ->
  NoDup (map fst (d_styles d)) /\ ~ In (bs "ThematicBreak") (map fst (d_styles d))
  /\ Forall (fun e => match snd e with Some b => In b (map fst (d_styles d)) | None => True end) (d_styles d)
  /\ (forall s, In s (SpecDocx.styles_used d) -> s <> bs "ThematicBreak" -> In s (map fst (d_styles d)))
  /\ (In (bs "ThematicBreak") (SpecDocx.styles_used d) <-> In (style "ThematicBreak" "Normal") (graph_events a)).
Proof. exact StyleProofs.exact_styles. Qed.
Print Assumptions C36_exact_partial.
Example C36_example_exact : exists a d, parse world0 20 [] false (lines [bs "* a"; []; bs "'''"; []; bs "z"; []; bs "[cols=""2""]"; bs "|==="; bs "|x |y"; bs "|z"; bs "|==="]) = Ok a
  /\ render_docx (fun _ => Ok tt) a = Ok d
  /\ SpecDocx.styles_used d = map bs ["ListParagraph"; "ThematicBreak"; "ThematicBreak"; "Table"; "Table"]%string
  /\ map fst (d_styles d) = map bs ["Normal"; "No Spacing"; "Title"; "ListParagraph"; "Thematic Break"; "Table"]%string.
Proof. do 2 eexists. do 3 (split; [vm_compute; reflexivity|]). vm_compute. reflexivity. Qed.
