(** * C53, C54: the HTML of whole articles *)
From Verif Require Import Base World Location Token Scanner Meta Inline Block Asg Parser Json Html Docx Cli SpecScan SpecDoc SpecCli
  SpecArticle SpecArticleHtml ArticleCheck ArticleHtml PropertiesArticle.
Local Open Scope char_scope.
Local Open Scope nat_scope.

(** ** C53: from source text to HTML text *)
Theorem C53_html : forall w fuel origin resolve a, article_ok a ->
  exists g, parse w fuel origin resolve (article_source a) = Ok g /\ render_htmlbook w g = Ok (article_html a).
Proof. exact article_html_ok. Qed.
Print Assumptions C53_html.
Example C53_example : article_ok example_article
  /\ article_html example_article = List.concat
  [bs "<!DOCTYPE html><html lang=""en""><head><meta charset=""UTF-8"">";
   bs "<meta name=""viewport"" content=""width=device-width, initial-scale=1"">";
   bs "<title>The <em>Compleat</em> Angler</title></head><body>";
   bs "<p>Catch a <strong>trout</strong>,"; [NL]; bs "drink H<sub>2</sub>O.</p>";
   bs "<section data-type=""sect1""><h1>Tackle</h1>";
   bs "<ol><li><p>A rod;</p></li><li><p>a line"; [NL]; bs "and a hook.</p></li></ol>";
   bs "<section data-type=""sect2""><h1>The chub</h1>";
   bs "<aside data-type=""sidebar""><pre>"; [NL]; bs "x = 1"; [NL; NL]; bs "</pre><ul><li><p>bread</p></li></ul><p>or paste</p></aside>";
   bs "<hr />";
   bs "<div data-type=""tip""><p>Use <code>grep</code>"; [NL]; bs "on it.</p></div>";
   bs "</section></section>";
   bs "<section data-type=""sect1""><h1>Rivers</h1>";
   bs "<blockquote><p>Ask {whom}?</p></blockquote>";
   bs "</section></body></html>"].
Proof. split; [apply articleb_spec; vm_compute; reflexivity|reflexivity]. Qed.

(** ** C54: the command, started on an article *)
Theorem C54_run : forall w fuel e c a, c_backend c = BHtmlbook -> source_text w e c (article_source a) -> article_ok a ->
  exists o n, destination c o
  /\ let counted := if c_count c then [EvCount n (c_file c)] else [] in
     match o with
     | None => run w fuel e c = (counted ++ [EvStdout (CHtml (article_html a))], Ok tt)
     | Some p => e_writable e p = true -> run w fuel e c = (counted ++ [EvWrite p (CHtml (article_html a))], Ok tt)
     end.
Proof. exact article_run. Qed.
Print Assumptions C54_run.
Example C54_example : exists w e,
  let c := mkCli (bs "d/x.adoc") None BHtmlbook false false in
  source_text w e c (article_source example_article) /\ e_writable e (bs "d/x.html") = true
  /\ run w 1 e c = ([EvWrite (bs "d/x.html") (CHtml (article_html example_article))], Ok tt).
Proof.
  exists (mkWorld (fun _ => None) (fun p => if beqb p (bs "d/x.adoc") then Some (article_source example_article) else None)
            true (fun _ => true) (fun _ => true) (fun s => s) (fun _ => None)),
    (mkEnv None (bs "/") (fun _ => true) (fun _ => Err DFile)).
  split; [right; split; [discriminate|reflexivity]|]. split; [reflexivity|]. vm_compute. reflexivity.
Qed.
