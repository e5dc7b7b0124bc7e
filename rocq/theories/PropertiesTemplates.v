(** * C88: the HTML is that of the templates *)
From Verif Require Import Base World Location Token Scanner Meta Inline Block Asg Parser Json Html Fixtures
  LaidPage LaidScript PropertiesScript SpecScan SpecScript SpecScriptHtml SpecScriptJson SpecHtmlPage SpecTemplates Tera Templates.
Local Open Scope char_scope.
Local Open Scope nat_scope.

(** ** The text that the template engine gives for the five templates and the JSON of a graph *)
Theorem C88_templates : forall w a, exists n, forall depth, n <= depth ->
  render_templates w depth a = if forallb (shown w) (a_blocks a) then Ok (graph_laid w a) else Panic.
Proof. exact laid_exact. Qed.
Print Assumptions C88_templates.
(** ** The same as the text without white space: in every character that is not white, and,
    if all blocks have tags, in all but white space next to tags *)
Theorem C88_same : forall w a, exists n, forall depth, n <= depth ->
  match render_htmlbook w a with
  | Ok s => exists t, render_templates w depth a = Ok t /\ squeezed t = squeezed s /\ (forallb tags_all (a_blocks a) = true -> spread s t)
  | _ => render_htmlbook w a = Panic /\ render_templates w depth a = Panic
  end.
Proof. exact templates_same. Qed.
Print Assumptions C88_same.
(** ** From the source: the documents of C69 *)
Theorem C88_script : forall w fuel origin resolve src d, utf8 src -> script_ok d ->
  (resolve = true -> Forall (fun t => w_canon w (path_join origin t) <> None) (pictures d)) ->
  (cells d = [] \/ 0 < fuel) -> written src d ->
  exists g n, parse w fuel origin resolve src = Ok g
  /\ forall depth, n <= depth ->
     render_templates w depth g = if forallb (shown w) (script_blocks d) then Ok (blocks_laid w (script_title d) (script_blocks d)) else Panic.
Proof. exact script_laid. Qed.
Print Assumptions C88_script.

Definition source (l : list bytes) : bytes := List.concat (map (fun s => s ++ [NL]) l).
Definition page_of (l : list bytes) : option bytes :=
  match parse world0 20 [] false (source l) with
  | Ok a => match render_templates world0 20 a with Ok s => Some s | _ => None end
  | _ => Some (bs "none")
  end.
Definition body_of (s : bytes) : option bytes := Some (page_laid [] s).
(** a title, a section and its paragraph *)
Example C88_example :
  page_of [bs "= A *b*"; []; bs "== S"; []; bs "Run _go_ on."]
  = Some (page_laid (bs "A <strong>b</strong>") (bs "
    <section data-type=""sect1"">
        <h1>S</h1>
        
    
    <p>Run <em>go</em> on.</p></section>")).
Proof. vm_compute. reflexivity. Qed.
(** a table with a header, and one without; an item; an image; two pass blocks *)
Example C88_blocks_example :
  page_of [bs "[%header,cols=""2""]"; bs "|==="; bs "|a |b"; bs "|c |d"; bs "|==="]
    = body_of (bs "
    <table>
    <thead>
        <th>a </th>
    <th>b</th>
    </thead>
    <tbody>
        <tr>
        <td>c </td>
        <td>d</td>
        </tr>
    </tbody>
    </table>")
  /\ page_of [bs "[cols=""2""]"; bs "|==="; []; bs "|a |b"; bs "|c |d"; bs "|==="]
    = body_of (bs "
    <table><tr>
        <td>a </td>
        <td>b</td>
        </tr>
        <tr>
        <td>c </td>
        <td>d</td>
        </tr>
    </table>")
  /\ page_of [bs "[%header,cols=""3""]"; bs "|==="; bs "|a |b"; bs "|==="] = None
  /\ page_of [bs "* a"; []; bs ".by"; bs "image::p.png[t]"]
    = body_of (bs "
    <ul><li><p>a</p></li></ul>
    <figure>
        <img src=""p.png"" alt=""t""/>
        <figcaption>by</figcaption>
    </figure>")
  /\ page_of [bs "++++"; bs "a"; bs "++++"; []; bs "++++"; bs "b"; bs "++++"]
    = body_of (bs "
    
    
a

    
    
b
").
Proof. repeat split; vm_compute; reflexivity. Qed.
(** one macro calls the next: the depth matters *)
Example C88_depth_example :
  (let a := mkAsg None None [] [] [Blk (HParent POpen None [] []) None [Blk (HLeaf NParagraph FmParagraph None [ILit LText true (bs "x") []]) None [] []] []] [] in
   render_templates world0 0 a = Hang /\ exists s, render_templates world0 4 a = Ok s).
Proof. split; [vm_compute; reflexivity|]. eexists. vm_compute. reflexivity. Qed.
