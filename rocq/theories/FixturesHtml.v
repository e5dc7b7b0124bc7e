(** * FixturesHtml: the HTMLBook fixtures of /repo/tests/data, checked against the model

    Generated by /verif/tools/gen_fixtures.py.  As in /repo/tests/common/mod.rs
    both sides are compared without white space.  Tests, not proofs. *)
From Verif Require Import Base World Location Token Scanner Meta Inline Block Asg Parser Json Fixtures Html.

Definition strip_ws (s : bytes) : bytes :=
  List.concat (filter (fun c => negb (is_ws c)) (chars s)).
Definition check_html (origin src expected : bytes) : bool :=
  match fixture_parse origin src with
  | Ok a => match render_htmlbook fixture_world a with
            | Ok h => beqb (strip_ws h) expected
            | _ => false
            end
  | _ => false
  end.

Example html_admonitions :
  check_html (bs "tests/data/htmlbook") (bs "NOTE: An inline-styled note.

[WARNING]
====
A block syntax warning.
====

TIP: An inline-styled tip.

[CAUTION]
====
A block syntax caution.
====

IMPORTANT: An inline-styled important.
") (bs "<!DOCTYPEhtml><htmllang=""en""><head><metacharset=""UTF-8""><metaname=""viewport""content=""width=device-width,initial-scale=1""><title></title></head><body><divdata-type=""note""><p>Aninline-stylednote.</p></div><divdata-type=""warning""><p>Ablocksyntaxwarning.</p></div><divdata-type=""tip""><p>Aninline-styledtip.</p></div><divdata-type=""caution""><p>Ablocksyntaxcaution.</p></div><divdata-type=""important""><p>Aninline-styledimportant.</p></div></body></html>") = true.
Proof. vm_compute. reflexivity. Qed.

Example html_asides :
  check_html (bs "tests/data/htmlbook") (bs "What follows is an aside.

.Aside Title
****

Some aside text!

****
") (bs "<!DOCTYPEhtml><htmllang=""en""><head><metacharset=""UTF-8""><metaname=""viewport""content=""width=device-width,initial-scale=1""><title></title></head><body><p>Whatfollowsisanaside.</p><asidedata-type=""sidebar""><h5>AsideTitle</h5><p>Someasidetext!</p></aside></body></html>") = true.
Proof. vm_compute. reflexivity. Qed.

Example html_basic_format :
  check_html (bs "tests/data/htmlbook") (bs "= Title

A paragraph
") (bs "<!DOCTYPEhtml><htmllang=""en""><head><metacharset=""UTF-8""><metaname=""viewport""content=""width=device-width,initial-scale=1""><title>Title</title></head><body><p>Aparagraph</p></body></html>") = true.
Proof. vm_compute. reflexivity. Qed.

Example html_block_anchor :
  check_html (bs "tests/data/htmlbook") (bs "[[unique_id]]
== Section with unique_id

Some text.
") (bs "<!DOCTYPEhtml><htmllang=""en""><head><metacharset=""UTF-8""><metaname=""viewport""content=""width=device-width,initial-scale=1""><title></title></head><body><sectiondata-type=""sect1""id=""unique_id""><h1>Sectionwithunique_id</h1><p>Sometext.</p></section></body></html>") = true.
Proof. vm_compute. reflexivity. Qed.

Example html_breaks :
  check_html (bs "tests/data/htmlbook") (bs "Some text followed by a thematic break.

'''

Some text followed by a page break.

<<<

And the final text.
") (bs "<!DOCTYPEhtml><htmllang=""en""><head><metacharset=""UTF-8""><metaname=""viewport""content=""width=device-width,initial-scale=1""><title></title></head><body><p>Sometextfollowedbyathematicbreak.</p><hr/><p>Sometextfollowedbyapagebreak.</p><divstyle=""page-break-after:always;""></div><p>Andthefinaltext.</p></body></html>") = true.
Proof. vm_compute. reflexivity. Qed.

Example html_code_callouts :
  check_html (bs "tests/data/htmlbook") (bs "// this, unlike the file in /blocks/ uses a blank line after the listing, which
// is not necessarily recommended but sometimes happens
[source, python]
----
def hello(name: str):  # <1>
"""""" Welcomes the person whose name is passed to the function""""""
    print(f""Hello, {name}"")  # <2>
----

<1> This is a function definition.
<2> This print statement employs an ""f-string""
") (bs "<!DOCTYPEhtml><htmllang=""en""><head><metacharset=""UTF-8""><metaname=""viewport""content=""width=device-width,initial-scale=1""><title></title></head><body><predata-code-language=""python"">defhello(name:str):#<strongclass=""conum"">(1)</strong>""""""Welcomesthepersonwhosenameispassedtothefunction""""""print(f""Hello,{name}"")#<strongclass=""conum"">(2)</strong></pre><olclass=""colist""><li><p>Thisisafunctiondefinition.</p></li><li><p>Thisprintstatementemploysan""f-string""</p></li></ol></body></html>") = true.
Proof. vm_compute. reflexivity. Qed.

Example html_cross_ref :
  check_html (bs "tests/data/htmlbook") (bs "This is a <<cross_ref>>.
") (bs "<!DOCTYPEhtml><htmllang=""en""><head><metacharset=""UTF-8""><metaname=""viewport""content=""width=device-width,initial-scale=1""><title></title></head><body><p>Thisisa<ahref=""#cross_ref"">#cross_ref</a>.</p></body></html>") = true.
Proof. vm_compute. reflexivity. Qed.

Example html_description_list_ordering :
  check_html (bs "tests/data/htmlbook") (bs "Description lists serve as glossaries of terminology:

someThing::
  Returns a thing.
someOtherThing::
  Returns a different thing.
someThird::
  Takes just the first two and does a twirl.
someFourth::
  Returns the fourth thing.
") (bs "<!DOCTYPEhtml><htmllang=""en""><head><metacharset=""UTF-8""><metaname=""viewport""content=""width=device-width,initial-scale=1""><title></title></head><body><p>Descriptionlistsserveasglossariesofterminology:</p><dl><dt>someThing</dt><dd><p>Returnsathing.</p></dd><dt>someOtherThing</dt><dd><p>Returnsadifferentthing.</p></dd><dt>someThird</dt><dd><p>Takesjustthefirsttwoanddoesatwirl.</p></dd><dt>someFourth</dt><dd><p>Returnsthefourththing.</p></dd></dl></body></html>") = true.
Proof. vm_compute. reflexivity. Qed.

Example html_description_list :
  check_html (bs "tests/data/htmlbook") (bs "Term:: Description of said term.
Another Term::
+
--
And a description inside an open block.
--
") (bs "<!DOCTYPEhtml><htmllang=""en""><head><metacharset=""UTF-8""><metaname=""viewport""content=""width=device-width,initial-scale=1""><title></title></head><body><dl><dt>Term</dt><dd><p>Descriptionofsaidterm.</p></dd><dt>AnotherTerm</dt><dd><div><p>Andadescriptioninsideanopenblock.</p></div></dd></dl></body></html>") = true.
Proof. vm_compute. reflexivity. Qed.

Example html_footnote :
  check_html (bs "tests/data/htmlbook") (bs "Test.footnote:[Footnote.]
") (bs "<!DOCTYPEhtml><htmllang=""en""><head><metacharset=""UTF-8""><metaname=""viewport""content=""width=device-width,initial-scale=1""><title></title></head><body><p>Test.<spandata-type=""footnote"">Footnote.</span></p></body></html>") = true.
Proof. vm_compute. reflexivity. Qed.

Example html_image_block_alt_text :
  check_html (bs "tests/data/htmlbook") (bs "image::path/to/image.png[""Some alt text""]
") (bs "<!DOCTYPEhtml><htmllang=""en""><head><metacharset=""UTF-8""><metaname=""viewport""content=""width=device-width,initial-scale=1""><title></title></head><body><figure><imgsrc=""path/to/image.png""alt=""Somealttext""/></figure></body></html>") = true.
Proof. vm_compute. reflexivity. Qed.

Example html_image_block_figure :
  check_html (bs "tests/data/htmlbook") (bs ".Figure Title
[[image_id]]
image::path/to/image.png[]
") (bs "<!DOCTYPEhtml><htmllang=""en""><head><metacharset=""UTF-8""><metaname=""viewport""content=""width=device-width,initial-scale=1""><title></title></head><body><figureid=""image_id""><imgsrc=""path/to/image.png""/><figcaption>FigureTitle</figcaption></figure></body></html>") = true.
Proof. vm_compute. reflexivity. Qed.

Example html_inline_image :
  check_html (bs "tests/data/htmlbook") (bs "Here might be an emoji image: image:path/to/emoji.png[].
") (bs "<!DOCTYPEhtml><htmllang=""en""><head><metacharset=""UTF-8""><metaname=""viewport""content=""width=device-width,initial-scale=1""><title></title></head><body><p>Heremightbeanemojiimage:<imgsrc=""path/to/emoji.png""/>.</p></body></html>") = true.
Proof. vm_compute. reflexivity. Qed.

Example html_line_continuation :
  check_html (bs "tests/data/htmlbook") (bs "Some +
Broken +
Lines
") (bs "<!DOCTYPEhtml><htmllang=""en""><head><metacharset=""UTF-8""><metaname=""viewport""content=""width=device-width,initial-scale=1""><title></title></head><body><p>Some<br/>Broken<br/>Lines</p></body></html>") = true.
Proof. vm_compute. reflexivity. Qed.

Example html_links :
  check_html (bs "tests/data/htmlbook") (bs "This is a http://example.com[link].

This is a http://example.com[] with no interior text.

This is a http://example.com with no macro designation.
") (bs "<!DOCTYPEhtml><htmllang=""en""><head><metacharset=""UTF-8""><metaname=""viewport""content=""width=device-width,initial-scale=1""><title></title></head><body><p>Thisisa<ahref=""http://example.com"">link</a>.</p><p>Thisisa<ahref=""http://example.com"">http://example.com</a>withnointeriortext.</p><p>Thisisa<ahref=""http://example.com"">http://example.com</a>withnomacrodesignation.</p></body></html>") = true.
Proof. vm_compute. reflexivity. Qed.

Example html_literal :
  check_html (bs "tests/data/htmlbook") (bs "....
And, as I am an *honest* Puck,
If we have unearned luck
Now to 'scape the serpent's tongue,
We will make amends ere long;
Else the Puck a liar call;
So, good night unto you all.
....
") (bs "<!DOCTYPEhtml><htmllang=""en""><head><metacharset=""UTF-8""><metaname=""viewport""content=""width=device-width,initial-scale=1""><title></title></head><body><pre>And,asIaman*honest*Puck,IfwehaveunearnedluckNowto'scapetheserpent'stongue,Wewillmakeamendserelong;ElsethePuckaliarcall;So,goodnightuntoyouall.</pre></body></html>") = true.
Proof. vm_compute. reflexivity. Qed.

Example html_literals_straight_squo :
  check_html (bs "tests/data/htmlbook") (bs "This should not have a typographer's apostrophe: `foo's`.

Neither should this:

[source]
----
My good dog's bone
----

Or this:

....
My good dog's bone
....
") (bs "<!DOCTYPEhtml><htmllang=""en""><head><metacharset=""UTF-8""><metaname=""viewport""content=""width=device-width,initial-scale=1""><title></title></head><body><p>Thisshouldnothaveatypographer&#8217;sapostrophe:<code>foo's</code>.</p><p>Neithershouldthis:</p><pre>Mygooddog'sbone</pre><p>Orthis:</p><pre>Mygooddog'sbone</pre></body></html>") = true.
Proof. vm_compute. reflexivity. Qed.

Example html_many_lists :
  check_html (bs "tests/data/htmlbook") (bs "= This Document Contains Many Lists

For example, an unordered list:

* Some
* Cool
* List

Followed by an ordered list:

. One
. Two
. Three
") (bs "<!DOCTYPEhtml><htmllang=""en""><head><metacharset=""UTF-8""><metaname=""viewport""content=""width=device-width,initial-scale=1""><title>ThisDocumentContainsManyLists</title></head><body><p>Forexample,anunorderedlist:</p><ul><li><p>Some</p></li><li><p>Cool</p></li><li><p>List</p></li></ul><p>Followedbyanorderedlist:</p><ol><li><p>One</p></li><li><p>Two</p></li><li><p>Three</p></li></ol></body></html>") = true.
Proof. vm_compute. reflexivity. Qed.

Example html_passthroughs :
  check_html (bs "tests/data/htmlbook") (bs "An pass:[inline <em>passthrough</em>].


++++

<div><p>A block passthrough</p></div>

++++
") (bs "<!DOCTYPEhtml><htmllang=""en""><head><metacharset=""UTF-8""><metaname=""viewport""content=""width=device-width,initial-scale=1""><title></title></head><body><p>Aninline<em>passthrough</em>.</p><div><p>Ablockpassthrough</p></div></body></html>") = true.
Proof. vm_compute. reflexivity. Qed.

Example html_quotes_attribution_citation :
  check_html (bs "tests/data/htmlbook") (bs "[quote, Jean-Paul Sartre, Nausea]
____
[The Self-Taught Man] has lowered his voice and his face has taken on a roguish
look.

""What sort of adventures?"" I ask him, astonished.

""All sorts, Monsieur. Getting on the wrong train. Stopping in an unknown city.
Losing your briefcase, being arrested by mistake, spending the night in prison.
Monsieur, I believed the word adventure could be defined: an event out of the
ordinary without being necessarily extraordinary...""
____
") (bs "<!DOCTYPEhtml><htmllang=""en""><head><metacharset=""UTF-8""><metaname=""viewport""content=""width=device-width,initial-scale=1""><title></title></head><body><blockquote><p>[TheSelf-TaughtMan]hasloweredhisvoiceandhisfacehastakenonaroguishlook.</p><p>""Whatsortofadventures?""Iaskhim,astonished.</p><p>""Allsorts,Monsieur.Gettingonthewrongtrain.Stoppinginanunknowncity.Losingyourbriefcase,beingarrestedbymistake,spendingthenightinprison.Monsieur,Ibelievedthewordadventurecouldbedefined:aneventoutoftheordinarywithoutbeingnecessarilyextraordinary...""</p><pdata-type=""attribution"">Jean-PaulSartre,Nausea</p></blockquote></body></html>") = true.
Proof. vm_compute. reflexivity. Qed.

Example html_quotes_no_delimiter :
  check_html (bs "tests/data/htmlbook") (bs "[quote]
Whoever said ""may you live in interesting times"" was overly optimistic.
") (bs "<!DOCTYPEhtml><htmllang=""en""><head><metacharset=""UTF-8""><metaname=""viewport""content=""width=device-width,initial-scale=1""><title></title></head><body><blockquote><p>Whoeversaid""mayyouliveininterestingtimes""wasoverlyoptimistic.</p></blockquote></body></html>") = true.
Proof. vm_compute. reflexivity. Qed.

Example html_roles :
  check_html (bs "tests/data/htmlbook") (bs "[role=""foo bar""]
This paragraph should have a ""foo"" and a ""bar"" class.


[role=""foo""]
== As Should This Section

But not its [.bar]#paragraph#.
") (bs "<!DOCTYPEhtml><htmllang=""en""><head><metacharset=""UTF-8""><metaname=""viewport""content=""width=device-width,initial-scale=1""><title></title></head><body><pclass=""foobar"">Thisparagraphshouldhavea""foo""anda""bar""class.</p><sectiondata-type=""sect1""class=""foo""><h1>AsShouldThisSection</h1><p>Butnotits<spanclass=""bar"">paragraph</span>.</p></section></body></html>") = true.
Proof. vm_compute. reflexivity. Qed.

Example html_sections_nesting_and_close :
  check_html (bs "tests/data/htmlbook") (bs "== This is a ""Chapter"" Heading in some contexts

Content.

=== This Is a Top-Level Heading (A-Head)

Content.

==== This Is a Second-Level Heading (B-Head)

Content.

===== This Is a Third-Level Heading (C-Head)

Content.

=== This is a Top-Level Heading, and Should Not be Included in the Third-Level Heading

Content. 
") (bs "<!DOCTYPEhtml><htmllang=""en""><head><metacharset=""UTF-8""><metaname=""viewport""content=""width=device-width,initial-scale=1""><title></title></head><body><sectiondata-type=""sect1""><h1>Thisisa""Chapter""Headinginsomecontexts</h1><p>Content.</p><sectiondata-type=""sect2""><h1>ThisIsaTop-LevelHeading(A-Head)</h1><p>Content.</p><sectiondata-type=""sect3""><h1>ThisIsaSecond-LevelHeading(B-Head)</h1><p>Content.</p><sectiondata-type=""sect4""><h1>ThisIsaThird-LevelHeading(C-Head)</h1><p>Content.</p></section></section></section><sectiondata-type=""sect2""><h1>ThisisaTop-LevelHeading,andShouldNotbeIncludedintheThird-LevelHeading</h1><p>Content.</p></section></section></body></html>") = true.
Proof. vm_compute. reflexivity. Qed.

Example html_super_subscript :
  check_html (bs "tests/data/htmlbook") (bs "^Super^ and ~sub~. And water: H~2~O.

And a dangling tilde gets included as a tilde, for example in ~approx 14 cases.
") (bs "<!DOCTYPEhtml><htmllang=""en""><head><metacharset=""UTF-8""><metaname=""viewport""content=""width=device-width,initial-scale=1""><title></title></head><body><p><sup>Super</sup>and<sub>sub</sub>.Andwater:H<sub>2</sub>O.</p><p>Andadanglingtildegetsincludedasatilde,forexamplein~approx14cases.</p></body></html>") = true.
Proof. vm_compute. reflexivity. Qed.

Example html_table_header_implicit :
  check_html (bs "tests/data/htmlbook") (bs "[cols=""1,1""]
|===
|Column 1, header row |Column 2, header row

|Cell in column 1, row 2
|Cell in column 2, row 2

|Cell in column 1, row 3
|Cell in column 2, row 3
|===
") (bs "<!DOCTYPEhtml><htmllang=""en""><head><metacharset=""UTF-8""><metaname=""viewport""content=""width=device-width,initial-scale=1""><title></title></head><body><table><thead><th>Column1,headerrow</th><th>Column2,headerrow</th></thead><tbody><tr><td>Cellincolumn1,row2</td><td>Cellincolumn2,row2</td></tr><tr><td>Cellincolumn1,row3</td><td>Cellincolumn2,row3</td></tr></tbody></table></body></html>") = true.
Proof. vm_compute. reflexivity. Qed.

Example html_table_simple :
  check_html (bs "tests/data/htmlbook") (bs "[cols=""1,1""]
|===
|Cell in *column* 1, *row* 1 
|Cell in column 2, row 1 

|Cell in column 1, row 2
|Cell in column 2, row 2

|Cell in column 1, row 3
|Cell in column 2, row 3 
|===
") (bs "<!DOCTYPEhtml><htmllang=""en""><head><metacharset=""UTF-8""><metaname=""viewport""content=""width=device-width,initial-scale=1""><title></title></head><body><table><tr><td>Cellin<strong>column</strong>1,<strong>row</strong>1</td><td>Cellincolumn2,row1</td></tr><tr><td>Cellincolumn1,row2</td><td>Cellincolumn2,row2</td></tr><tr><td>Cellincolumn1,row3</td><td>Cellincolumn2,row3</td></tr></table></body></html>") = true.
Proof. vm_compute. reflexivity. Qed.

Example html_verse :
  check_html (bs "tests/data/htmlbook") (bs "[verse]
____
And, as I am an honest Puck,
If we have unearned luck
Now to 'scape the serpent's tongue,
We will make amends ere long;
Else the Puck a liar call;
So, good night unto you all.
____
") (bs "<!DOCTYPEhtml><htmllang=""en""><head><metacharset=""UTF-8""><metaname=""viewport""content=""width=device-width,initial-scale=1""><title></title></head><body><predata-type=""verse"">And,asIamanhonestPuck,IfwehaveunearnedluckNowto'scapetheserpent&#8217;stongue,Wewillmakeamendserelong;ElsethePuckaliarcall;So,goodnightuntoyouall.</pre></body></html>") = true.
Proof. vm_compute. reflexivity. Qed.
