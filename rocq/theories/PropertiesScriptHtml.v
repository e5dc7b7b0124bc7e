(** * C70, C71: the HTML of scripts; C72: identifiers in the HTML *)
From Verif Require Import Fixtures Base World Location Token Scanner Meta Inline Block Asg Parser Json Html Docx Cli SpecScan SpecLex SpecDoc
  SpecCli SpecIds ScanFail2 ScriptCheck ScriptHtml IdProofs ReadScript PropertiesScript SpecScript SpecScriptHtml SpecScriptJson.
Local Open Scope char_scope.
Local Open Scope nat_scope.

(** ** C70: from tokens to HTML text *)
Theorem C70_html : forall w fuel origin resolve src d, utf8 src -> script_ok d -> forallb tables_fit (script_blocks d) = true ->
  (resolve = true -> Forall (fun t => w_canon w (path_join origin t) <> None) (pictures d)) ->
  (cells d = [] \/ 0 < fuel) -> written src d ->
  exists g, parse w fuel origin resolve src = Ok g /\ render_htmlbook w g = Ok (script_html d).
Proof. exact script_html_ok. Qed.
Print Assumptions C70_html.
Example C70_example : script_html C69_script = List.concat
  [bs "<!DOCTYPE html><html lang=""en""><head><meta charset=""UTF-8"">";
   bs "<meta name=""viewport"" content=""width=device-width, initial-scale=1"">";
   bs "<title>A <strong>bold</strong> land</title></head><body>";
   bs "<section data-type=""sect1"" id=""un""><h1>Un</h1><p>By Ada, <strong>bold <em>and</em> bad</strong>."; [NL]; bs "Long.</p>";
   bs "<ul class=""red""><li><p>a</p></li><li><p>b<sup>2</sup></p></li></ul>";
   bs "<section data-type=""sect2""><h1>Su</h1>";
   bs "<p>go <a href=""https://x.org"">to sun</a><span data-type=""footnote"">or <code>an</code></span>.</p>";
   bs "</section></section>";
   bs "<p>"; [NL]; bs "Our <a href=""#un"">Un</a></p>";
   bs "<blockquote><p>On, an.</p><p data-type=""attribution"">Ada</p></blockquote>";
   bs "<div><h5>A <span class=""red"">bun</span></h5><p>Go</p>";
   bs "<pre data-code-language=""rust"">"; [NL]; bs "// run"; [NL; NL]; bs "a *b"; [NL]; bs "</pre><p>Run</p></div>";
   bs "<figure><img src=""p.png"" alt=""A picture""/></figure>";
   bs "<div data-type=""note""><p>*u* <br />"; [NL]; bs "and</p></div>";
   bs "<p>Run “on”</p></body></html>"].
Proof. vm_compute. reflexivity. Qed.

Example C70_more_example : script_html C69_more_script = List.concat
  [bs "<!DOCTYPE html><html lang=""en""><head><meta charset=""UTF-8"">";
   bs "<meta name=""viewport"" content=""width=device-width, initial-scale=1"">";
   bs "<title></title></head><body>";
   bs "<dl class=""red""><dt>Un</dt><dd><p>an <strong>on</strong></p></dd><dt>On</dt><dd><p>{name}</p></dd><dt>By</dt><dd><p>go</p></dd></dl>";
   bs "<pre data-type=""verse"">Run"; [NL]; bs "  {name} run.</pre>";
   bs "<ol><li><p>A</p></li><li><p>B <a href=""https://x.org"">un</a></p>";
   bs "<div><h5>An</h5><p>GoRun</p><ul><li><p>a</p></li><li><p>b</p></li></ul><p>on</p></div><div><p>On</p></div></li>";
   bs "<li><p>Go</p><blockquote></blockquote></li></ol>";
   bs "<ol class=""colist""><li><p>Un</p></li><li><p><strong>On</strong></p></li></ol>";
   bs "<p>By"; [NL]; bs "run</p></body></html>"].
Proof. vm_compute. reflexivity. Qed.

(** ** C71: the command, started on a script *)
Theorem C71_run : forall w fuel e c src d, c_backend c = BHtmlbook -> source_text w e c src -> utf8 src -> script_ok d -> forallb tables_fit (script_blocks d) = true ->
  (c_unresolved c = false -> Forall (fun t => w_canon w (path_join (folder e (c_file c)) t) <> None) (pictures d)) ->
  (cells d = [] \/ 0 < fuel) -> written src d ->
  exists o, destination c o
  /\ let counted := if c_count c then [EvCount (script_words d) (c_file c)] else [] in
     match o with
     | None => run w fuel e c = (counted ++ [EvStdout (CHtml (script_html d))], Ok tt)
     | Some p => e_writable e p = true -> run w fuel e c = (counted ++ [EvWrite p (CHtml (script_html d))], Ok tt)
     end.
Proof. exact script_html_run. Qed.
Print Assumptions C71_run.
Example C71_example : exists w e,
  let c := mkCli (bs "d/x.adoc") None BHtmlbook false false in
  source_text w e c C69_source /\ e_writable e (bs "d/x.html") = true
  /\ Forall (fun t => w_canon w (path_join (folder e (c_file c)) t) <> None) (pictures C69_script)
  /\ run w 1 e c = ([EvWrite (bs "d/x.html") (CHtml (script_html C69_script))], Ok tt).
Proof.
  exists (mkWorld (fun p => Some p) (fun p => if beqb p (bs "d/x.adoc") then Some C69_source else None)
            true (fun _ => true) (fun _ => true) (fun s => s) (fun _ => None)),
    (mkEnv None (bs "/") (fun _ => true) (fun _ => Err DFile)).
  split; [right; split; [discriminate|reflexivity]|]. split; [reflexivity|].
  split; [repeat constructor; discriminate|]. vm_compute. reflexivity.
Qed.

(** ** C72: an identifier of a block is the identifier of a tag *)
(** not that of a paragraph: the reference leads nowhere *)
Theorem C72_refuted : exists g p, parse fixture_world 0 [] false (bs "[[our]]
Our.

Go <<our>>.") = Ok g
  /\ html_document fixture_world g = Ok p
  /\ (exists b, In b (a_blocks g) /\ carries_id b (bs "our"))
  /\ In (TOpen (bs "a") [(bs "href", bs "#our")]) p /\ tag_ids p = [].
Proof.
  eexists _, _. split; [vm_compute; reflexivity|]. split; [vm_compute; reflexivity|].
  split; [|split; [|vm_compute; reflexivity]].
  - eexists. split; [left; reflexivity|]. apply carries_here. eexists. split; [reflexivity|]. split; [vm_compute; reflexivity|discriminate].
  - vm_compute. repeat (try (left; reflexivity); right).
Qed.
Print Assumptions C72_refuted.
(** exactly those of sections and images *)
Theorem C72_ids_partial : forall w g p, html_document w g = Ok p ->
  forall i, In i (tag_ids p) <-> exists b, In b (a_blocks g) /\ shows_id false b i.
Proof. exact document_ids. Qed.
Print Assumptions C72_ids_partial.
Example C72_example : exists g p, parse fixture_world 0 [] false (bs "[[our]]
== Our

[[un]]
image::p.png[]

[[on]]
* a") = Ok g
  /\ html_document fixture_world g = Ok p /\ tag_ids p = [bs "our"; bs "un"].
Proof. eexists _, _. split; [vm_compute; reflexivity|]. split; vm_compute; reflexivity. Qed.
