(** * C64, C65: the texts of the graph in the HTMLBook and the docx output *)
From Verif Require Import Base World Location Token Scanner Meta Inline Block Asg Parser Html Docx SpecScan SpecHtml SpecText SpecDocx
  SpecHtmlText SpecDocxText HtmlText DocxText.
Local Open Scope char_scope.
Local Open Scope nat_scope.

Definition lines (l : list bytes) : bytes := List.concat (map (fun s => s ++ [NL]) l).
Definition parsed (src : bytes) : result asg := parse world0 20 [] false src.

(** ** C64: outside its tags the page shows the texts of the graph, each once and in the order of
    the document, and nothing else.  Missing: texts with markup of their own (C33), and what gets
    lost: titles of tables, and attributions of verses, paragraphs and tables (refuted). *)
Theorem C64_partial : forall w a s, clean_graph a -> presentable_graph a -> render_htmlbook w a = Ok s ->
  visible false s = graph_text a.
Proof. exact html_text_shown. Qed.
Print Assumptions C64_partial.
Definition example_source : bytes :=
  lines [bs "= Title"; []; bs "== A *b*"; []; bs "x https://e.org[y _z_] <<q>>"; []; bs "* i"; bs "* j"; []; bs "t:: d"; [];
         bs "[quote,Me,Book]"; bs "____"; bs "s"; bs "____"; []; bs "[cols=""2"",options=""header""]"; bs "|==="; bs "|a |b"; bs "|c |d"; bs "|e |f"; bs "|==="].
Example C64_example : exists a s, parsed example_source = Ok a /\ clean_graph a /\ presentable_graph a
  /\ render_htmlbook world0 a = Ok s /\ 500 <= List.length s
  /\ visible false s = bs "TitleA bx y z #qijtdsMe, Booka bc de f".
Proof.
  remember (parsed example_source) as r eqn:E. vm_compute in E.
  match type of E with r = Ok ?x => exists x end. eexists. subst r. split; [reflexivity|].
  split; [unfold clean_graph; cbn; repeat split; repeat constructor; discriminate|].
  split; [repeat constructor|]. split; [vm_compute; reflexivity|]. split; [apply Nat.leb_le; vm_compute; reflexivity|]. vm_compute. reflexivity.
Qed.

Theorem C64_table_title_refuted : exists src a s, parsed src = Ok a /\ clean_graph a /\ render_htmlbook world0 a = Ok s
  /\ graph_text a = bs "Ta b" /\ visible false s = bs "a b".
Proof.
  remember (parsed (lines [bs ".T"; bs "|==="; bs "|a |b"; bs "|==="])) as r eqn:E.
  exists (lines [bs ".T"; bs "|==="; bs "|a |b"; bs "|==="]). rewrite <- E. vm_compute in E.
  match type of E with r = Ok ?x => exists x end. eexists. subst r. split; [reflexivity|].
  split; [unfold clean_graph; cbn; repeat split; repeat constructor; discriminate|].
  split; [vm_compute; reflexivity|]. split; vm_compute; reflexivity.
Qed.
Print Assumptions C64_table_title_refuted.
Theorem C64_verse_refuted : exists src a s, parsed src = Ok a /\ clean_graph a /\ render_htmlbook world0 a = Ok s
  /\ graph_text a = bs "aMe, Book" /\ visible false s = bs "a".
Proof.
  remember (parsed (lines [bs "[verse,Me,Book]"; bs "____"; bs "a"; bs "____"])) as r eqn:E.
  exists (lines [bs "[verse,Me,Book]"; bs "____"; bs "a"; bs "____"]). rewrite <- E. vm_compute in E.
  match type of E with r = Ok ?x => exists x end. eexists. subst r. split; [reflexivity|].
  split; [unfold clean_graph; cbn; repeat split; repeat constructor; discriminate|].
  split; [vm_compute; reflexivity|]. split; vm_compute; reflexivity.
Qed.
Print Assumptions C64_verse_refuted.

(** ** C65: the runs of the document are the texts and line breaks of the graph with the labels
    of the output in between, each once and in the order of the document.  Missing: what gets lost:
    references without a text, captions of images, titles of quotes and open blocks, citations (all
    refuted), tables (C34), attributions of anything but a quote, and, attached to list items,
    terms, thematic breaks and the labels of admonitions. *)
Theorem C65_partial : forall img a d, kept_graph a -> render_docx img a = Ok d -> spelled false (graph_bits a) (docx_runs d).
Proof. exact docx_text_shown. Qed.
Print Assumptions C65_partial.
Definition docx_source : bytes :=
  lines [bs "= Title"; []; bs "== A *b*"; []; bs "x https://e.org[y _z_] &copy;"; []; bs "'''"; []; bs "* i"; bs "* j"; []; bs "NOTE: n"; [];
         bs "t:: d"; []; bs "[quote,Me]"; bs "____"; bs "s +"; bs "u"; bs "____"].
Example C65_example : exists a d, parsed docx_source = Ok a /\ kept_graph a /\ render_docx (fun _ => Ok tt) a = Ok d
  /\ map (fun r => match r with RText s _ => Some s | RBreak => None end) (docx_runs d)
     = map Some (map bs ["Title"; "A "; "b"; "x "; "y "; "z"; " "; "©"; "#"; "i"; "j"; "Note"; "n"; "t"; "d"; "s "]%string)
       ++ [None] ++ map Some [[]; bs "u"; bs "— Me" ++ [NL]].
Proof.
  remember (parsed docx_source) as r eqn:E. vm_compute in E.
  match type of E with r = Ok ?x => exists x end. eexists. subst r. split; [reflexivity|].
  split; [unfold kept_graph; cbn; repeat split; repeat constructor; discriminate|].
  split; [vm_compute; reflexivity|]. vm_compute. reflexivity.
Qed.
Definition texts (d : docx) : list bytes := flat_map (fun r => match r with RText s _ => [s] | RBreak => [] end) (docx_runs d).
Theorem C65_link_refuted : exists src a d, src = bs "see https://e.org[] now" /\ parsed src = Ok a
  /\ In (Shown (Some (LText, bs "https://e.org")) true) (graph_bits a)
  /\ render_docx (fun _ => Ok tt) a = Ok d /\ texts d = [bs "see "; bs " now"].
Proof. do 3 eexists. split; [reflexivity|]. split; [vm_compute; reflexivity|]. split; [vm_compute; tauto|]. split; vm_compute; reflexivity. Qed.
Print Assumptions C65_link_refuted.
Theorem C65_caption_refuted : exists src a d, src = lines [bs ".T"; bs "image::a.png[]"] /\ parsed src = Ok a
  /\ graph_bits a = [Shown (Some (LText, bs "T")) false] /\ render_docx (fun _ => Ok tt) a = Ok d /\ texts d = [].
Proof. do 3 eexists. split; [reflexivity|]. split; [vm_compute; reflexivity|]. split; [vm_compute; reflexivity|]. split; vm_compute; reflexivity. Qed.
Print Assumptions C65_caption_refuted.
Theorem C65_quote_refuted : exists src a d, src = lines [bs ".T"; bs "[quote,Me,Book]"; bs "____"; bs "a"; bs "____"] /\ parsed src = Ok a
  /\ inlines_text (match a_blocks a with Blk (HParent _ _ _ t) _ _ _ :: _ => t | _ => [] end) = bs "T"
  /\ (exists m, map b_meta (a_blocks a) = [Some m] /\ value "citation" m = bs "Book")
  /\ render_docx (fun _ => Ok tt) a = Ok d /\ texts d = [bs "a"; bs "— Me" ++ [NL]].
Proof.
  do 3 eexists. split; [reflexivity|]. split; [vm_compute; reflexivity|]. split; [vm_compute; reflexivity|].
  split; [eexists; split; vm_compute; reflexivity|]. split; vm_compute; reflexivity.
Qed.
Print Assumptions C65_quote_refuted.
Theorem C65_open_title_refuted : exists src a d, src = lines [bs ".T"; bs "--"; bs "a"; bs "--"] /\ parsed src = Ok a
  /\ graph_bits a = [Shown (Some (LText, bs "T")) false; Shown (Some (LText, bs "a")) false]
  /\ render_docx (fun _ => Ok tt) a = Ok d /\ texts d = [bs "a"].
Proof. do 3 eexists. split; [reflexivity|]. split; [vm_compute; reflexivity|]. split; [vm_compute; reflexivity|]. split; vm_compute; reflexivity. Qed.
Print Assumptions C65_open_title_refuted.
