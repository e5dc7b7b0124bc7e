(** * C86: the HTML of any graph; C87: what the command does *)
From Verif Require Import Base World Location Token Scanner Meta Inline Block Asg Parser Json Html Docx Cli Fixtures SpecScan SpecCli SpecInclude
  HtmlPage OutcomeProofs SpecOutcome PropertiesScript SpecScript SpecScriptHtml SpecScriptJson SpecHtmlPage.
Local Open Scope char_scope.
Local Open Scope nat_scope.

(** ** C86: either the text, or a panic because of a table that cannot be shown *)
Theorem C86_html : forall w a, render_htmlbook w a = if forallb (shown w) (a_blocks a) then Ok (graph_html w a) else Panic.
Proof. exact graph_known. Qed.
Print Assumptions C86_html.
Theorem C86_script : forall w fuel origin resolve src d, utf8 src -> script_ok d ->
  (resolve = true -> Forall (fun t => w_canon w (path_join origin t) <> None) (pictures d)) ->
  (cells d = [] \/ 0 < fuel) -> written src d ->
  exists g, parse w fuel origin resolve src = Ok g
  /\ render_htmlbook w g = if forallb (shown w) (script_blocks d) then Ok (blocks_page w (script_title d) (script_blocks d)) else Panic.
Proof. exact script_known. Qed.
Print Assumptions C86_script.
Theorem C86_run : forall w fuel e c src d, c_backend c = BHtmlbook -> source_text w e c src -> utf8 src -> script_ok d ->
  (c_unresolved c = false -> Forall (fun t => w_canon w (path_join (folder e (c_file c)) t) <> None) (pictures d)) ->
  (cells d = [] \/ 0 < fuel) -> written src d ->
  exists o, destination c o
  /\ let counted := if c_count c then [EvCount (script_words d) (c_file c)] else [] in
     let text := CHtml (blocks_page w (script_title d) (script_blocks d)) in
     run w fuel e c
     = if forallb (shown w) (script_blocks d) then
         match o with
         | None => (counted ++ [EvStdout text], Ok tt)
         | Some p => if e_writable e p then (counted ++ [EvWrite p text], Ok tt) else (counted, Panic)
         end
       else (counted, Panic).
Proof. exact script_known_run. Qed.
Print Assumptions C86_run.

Definition source (l : list bytes) : bytes := List.concat (map (fun s => s ++ [NL]) l).
Definition html_of (l : list bytes) : option bytes :=
  match parse world0 20 [] false (source l) with Ok a => if forallb (shown world0) (a_blocks a) then Some (graph_html world0 a) else None | _ => Some (bs "none") end.
Definition body (s : bytes) : option bytes := Some (page_around [] s).
(** a header of three cells; a negative number of columns; one cell, and no number *)
Example C86_example :
  html_of [bs "[%header,cols=""3""]"; bs "|==="; bs "|a |b |c"; bs "|d |e"; bs "|==="]
    = body (bs "<table><thead><th>a </th><th>b </th><th>c</th></thead><tbody><tr><td>d </td><td>e</td></tr></tbody></table>")
  /\ html_of [bs "[cols="" -2 ""]"; bs "|==="; []; bs "|a |b"; bs "|c |d"; bs "|e"; bs "|==="]
    = body (bs "<table><tr><td>a </td><td>b</td></tr><tr><td>c </td><td>d</td></tr><tr><td>e</td></tr></table>")
  /\ html_of [bs "[cols=""x""]"; bs "|==="; bs "|a"; bs "|==="]
    = body (bs "<table><tr><td>a</td></tr></table>")
  /\ html_of [bs "[cols=""x""]"; bs "|==="; bs "|a |b"; bs "|==="] = None
  /\ html_of [bs "[%header,cols=""3""]"; bs "|==="; bs "|a |b"; bs "|==="] = None
  /\ html_of [bs "[%header,cols=""-2""]"; bs "|==="; bs "|a |b"; bs "|==="] = None
  /\ html_of [bs "NOTE: *a*"; []; bs "[quote,Ada]"; bs "____"; bs "b"; bs "____"]
    = body (bs "<div data-type=""note""><p><strong>a</strong></p></div><blockquote><p>b</p><p data-type=""attribution"">Ada</p></blockquote>").
Proof. repeat split; vm_compute; reflexivity. Qed.
(** a graph that no source gives: blocks without a tag of their own *)
Example C86_graph_example :
  let t s := [ILit LText true (bs s) []] in
  block_page world0 false (Blk (HParent PFootnotes None [] []) None [Blk (HCell (t "a"%string)) None [] []; Blk (HSection [] (t "b"%string) 12) None [] []] [])
  = bs "<UNHANDLED><UNHANDLED>a</UNHANDLED><section data-type=""sect12""><h1>b</h1></section></UNHANDLED>".
Proof. vm_compute. reflexivity. Qed.

(** ** C87: every run, from the source to what is printed and written *)
Theorem C87_run : forall w fuel e c ev r, run w fuel e c = (ev, r) -> outcome w fuel e c ev r.
Proof. exact run_outcome. Qed.
Print Assumptions C87_run.
Definition run_on (b : backend) (count : bool) (l : list bytes) : list event * result unit :=
  run (SpecInclude.disk [(bs "x.adoc", source l)]) 20 (mkEnv None (bs "/") (fun _ => true) (fun _ => Ok tt)) (mkCli (bs "x.adoc") None b count false).
Example C87_example :
  run_on BHtmlbook true [bs "Go *on*."] = ([EvCount 2 (bs "x.adoc"); EvWrite (bs "x.html") (CHtml (page_around [] (bs "<p>Go <strong>on</strong>.</p>")))], Ok tt)
  /\ run_on BHtmlbook true [bs "[cols=""0""]"; bs "|==="; bs "|a |b"; bs "|==="] = ([EvCount 2 (bs "x.adoc")], Panic)
  /\ (let e := mkEnv None (bs "/") (fun _ => true) (fun _ => Ok tt) in
      run world0 20 e (mkCli (bs "y.adoc") None BJson true false) = ([], Exit) /\ run world0 20 e (mkCli (bs "-") None BJson true false) = ([], Panic)).
Proof. repeat split; vm_compute; reflexivity. Qed.
