(** * C69: what the parser makes of a script *)
From Verif Require Import Fixtures Base World Location Token Scanner Meta Inline Block Asg Parser SpecScan SpecLex SpecDoc SpecArticle
  ScanFail2 ArticleCheck ScriptWords ScriptText ScriptWhole ScriptCheck SpecScript.

Theorem C69 : forall w fuel origin resolve src d, utf8 src -> script_ok d ->
  (resolve = true -> Forall (fun t => w_canon w (path_join origin t) <> None) (pictures d)) ->
  (cells d = [] \/ 0 < fuel) -> written src d ->
  exists g, parse w fuel origin resolve src = Ok g
    /\ map unplaced (a_blocks g) = script_blocks d
    /\ option_map (fun h => map unplaced_inline (hd_title h)) (a_header g) = script_title d.
Proof. exact script_graph. Qed.
Print Assumptions C69.

(** a script, its source and its blocks *)
Definition C69_source : bytes := bs "= A *bold* land
:name: Ada

[[un]]
== Un

By {name}, *bold _and_ bad*.
Long.

[start=2]
[role=red]
* a
* b^2^

=== Su

go https://x.org[to sun]footnote:[or `an`].

[[our]]
Our <<un>>

[quote,Ada]
On, an.

.A [.red]#bun#
====
Go

[source,rust]
----
// run

a *b
----

Run
====

[width=""3""]
image::p.png[A picture]

NOTE: pass:[*u*] +
and

Run ""`on`""". 
Local Notation say s := (Bit (Said (bs s%string))).
Definition C69_script : script := mkScript
  (Some ([say "A "; Marked [] (Single Bold) [InBit (Said (bs "bold"))]; say " land"], [(bs "name", bs "Ada")]))
  [([Anchor (bs "un")], Head 1 [say "Un"]);
   ([], Part (Text [say "By "; Bit (Valued (bs "name")); say ", ";
               Marked [] (Single Bold) [InBit (Said (bs "bold ")); InMark (Single Italic) [Said (bs "and")]; InBit (Said (bs " bad"))];
               say "."; Bit Newline; say "Long."]));
   ([Fields false [Named (bs "start") (bs "2")]; Fields false [Roles [bs "red"]]],
    Part (Points false [[say "a"]; [say "b"; Marked [] Raised [InBit (Said (bs "2"))]]]));
   ([], Head 2 [say "Su"]);
   ([], Part (Text [say "go "; Link (bs "https://x.org") [Said (bs "to sun")]; Note [InBit (Said (bs "or ")); InMark (Single Mono) [Said (bs "an")]]; say "."]));
   ([Anchor (bs "our")], Part (Text [say "Our "; Xref (bs "un")]));
   ([Fields false [Plain (bs "quote"); Plain (bs "Ada")]], Part (Text [say "On, an."]));
   ([], Boxed (Some [say "A "; Marked [bs "red"] (Single Shaded) [InBit (Said (bs "bun"))]]) Example
     [([], Text [say "Go"]);
      ([Fields false [Plain (bs "source"); Plain (bs "rust")]],
       Fenced Listing [newline; (TComment, bs "// run"); newline; newline; (TText, bs "a "); (TStrong, bs "*"); (TText, bs "b"); newline])]
     [say "Run"]);
   ([Fields true [Named (bs "width") (bs "3")]], Picture None (bs "p.png") (bs "A picture"));
   ([], Alert VNote [Passed [(TStrong, bs "*"); (TText, bs "u"); (TStrong, bs "*")]; say " "; HardBreak; Bit Newline; say "and"])]
  (Some ([], ([say "Run "; Bit (Quoted OpenDouble); say "on"; Bit (Quoted CloseDouble)], false))).
Example C69_example_words : utf8 C69_source /\ written C69_source C69_script.
Proof. apply writtenb_ok. vm_compute. reflexivity. Qed.
Example C69_example_ok : script_ok C69_script.
Proof. apply script_okb_ok. vm_compute. reflexivity. Qed.

Local Notation txt s := (ILit LText false (bs s%string) []).
Local Notation span v l := (ISpan v FConstrained l None [] false).
Local Notation attrs_of l := (mkMeta l [] [] false None []).
Local Notation par l := (Blk (HLeaf NParagraph FmParagraph None l) None [] []).
Local Notation section n s k := (Blk (HSection [] [txt s] n) None k []).
Example C69_example : exists g, parse fixture_world 0 [] false C69_source = Ok g
  /\ option_map (fun h => map unplaced_inline (hd_title h)) (a_header g)
     = Some [txt "A "; span SStrong [txt "bold"]; txt " land"]
  /\ map unplaced (a_blocks g) =
     [Blk (HSection [] [txt "Un"] 1) (Some (attrs_of [(bs "id", bs "un")]))
        [par [txt "By Ada, "; span SStrong [txt "bold "; span SEmphasis [txt "and"]; txt " bad"]; txt ".
Long."];
         Blk (HList LUnordered) (Some (mkMeta [(bs "start", bs "2")] [] [bs "red"] false None []))
           [Blk (HListItem (bs "*") [txt "a"]) None [] [];
            Blk (HListItem (bs "*") [txt "b"; span SSuperscript [txt "2"]]) None [] []] [];
         section 2 "Su"
           [par [txt "go "; IRef RLink (bs "https://x.org") [txt "to sun"] None [];
                 ISpan SFootnote FConstrained [txt "or "; span SCode [txt "an"]] None [] true; txt "."]]] [];
      (* the link ends the section; a line break from after the anchor; the title of the section as the text of the reference *)
      Blk (HLeaf NParagraph FmParagraph None [txt "
Our "; IRef RXref (bs "un") [txt "Un"] None []]) (Some (attrs_of [(bs "id", bs "our")])) [] [];
      Blk (HParent PQuote None [] []) (Some (mkMeta [(bs "attribution", bs "Ada")] [] [] false (Some AQuote) [])) [par [txt "On, an."]] [];
      Blk (HParent PExample None (bs "====")
             [txt "A "; ISpan SMark FConstrained [txt "bun"] (Some (mkMeta [] [] [bs "red"] true None [])) [] false]) None
        [par [txt "Go"];
         Blk (HLeaf NListing FmDelimited (Some (bs "----")) [txt "
// run

a *b
"]) (Some (mkMeta [(bs "language", bs "rust")] [] [] false (Some ASource) [])) [] [];
         par [txt "Run"]] [];
      Blk (HMacro (bs "p.png") []) (Some (mkMeta [(bs "positional_1", bs "A picture"); (bs "width", bs "3")] [] [] true None [])) [] [];
      Blk (HParent PAdmonition (Some VNote) (bs "NOTE: ") []) None
        [par [txt "*u* "; IBreak []; txt "
and"]] [];
      par [txt "Run “on”"]].
Proof.
  destruct (C69 fixture_world 0 [] false C69_source C69_script) as (g & E & B & H);
    [apply C69_example_words|exact C69_example_ok|discriminate|now left|apply C69_example_words|].
  exists g. split; [exact E|]. rewrite B, H. split; vm_compute; reflexivity.
Qed.

(** another one: a description list, verses, and lists with continued items *)
Definition C69_more_source : bytes := bs "[role=red]
Un:: an *on*
On::
{name}
By:: go

[verse,Ada,By]
____
Run
  {name} run.
____

. A
. B https://x.org[un]
+
.An
====
Go
Run

* a
* b

on
====
+
--
On
--
. Go
+
____
____

<1> Un
<22> *On*

By
run
".
Definition C69_more_script : script := mkScript None
  [([Fields false [Roles [bs "red"]]],
    Part (Terms [([say "Un"], false, [say "an "; Marked [] (Single Bold) [InBit (Said (bs "on"))]]);
                 ([say "On"], true, [Bit (Valued (bs "name"))]); ([say "By"], false, [say "go"])]));
   ([Fields false [Plain (bs "verse"); Plain (bs "Ada"); Plain (bs "By")]],
    Part (Verse [(TText, bs "Run"); newline; (TText, bs "  "); (TAttributeReference, bs "{name}"); (TText, bs " run.")]));
   ([], Threaded (Dot, [say "A"])
     [(Dot, [say "B "; Link (bs "https://x.org") [Said (bs "un")]],
       [Bound (Some [say "An"]) Example [([], Text [say "Go"; Bit Newline; say "Run"]); ([], Points false [[say "a"]; [say "b"]])] [say "on"];
        Bound None Open [] [say "On"]]);
      (Dot, [say "Go"], [Bound None Quote [] []])]);
   ([], Threaded (Callout (bs "1"), [say "Un"]) [(Callout (bs "22"), [Marked [] (Single Bold) [InBit (Said (bs "On"))]], [])])]
  (Some ([], ([say "By"; Bit Newline; say "run"], true))).
Example C69_more_words : utf8 C69_more_source /\ written C69_more_source C69_more_script.
Proof. apply writtenb_ok. vm_compute. reflexivity. Qed.
Example C69_more_ok : script_ok C69_more_script.
Proof. apply script_okb_ok. vm_compute. reflexivity. Qed.
Local Notation entry t l := (Blk (HDListItem [txt t] l) None [] []).
Local Notation item m l k := (Blk (HListItem (bs m%string) l) None k []).
Local Notation box n f t k := (Blk (HParent n None (bs f%string) t) None k []).
Example C69_more_example : exists g, parse fixture_world 0 [] false C69_more_source = Ok g
  /\ map unplaced (a_blocks g) =
     [Blk HDList (Some (mkMeta [] [] [bs "red"] false None []))
        [entry "Un" [txt "an "; span SStrong [txt "on"]]; entry "On" [txt "{name}"]; entry "By" [txt "go"]] [];
      Blk (HLeaf NVerse FmDelimited (Some (bs "____")) [txt "Run"; txt "
"; txt "  {name} run."]) (Some (mkMeta [(bs "attribution", bs "Ada"); (bs "citation", bs "By")] [] [] false (Some AVerse) [])) [] [];
      Blk (HList LOrdered) None
        [item "." [txt "A"] [];
         item "." [txt "B "; IRef RLink (bs "https://x.org") [txt "un"] None []]
           (* the line break is lost *)
           [box PExample "====" [txt "An"]
              [par [txt "GoRun"];
               Blk (HList LUnordered) None [item "*" [txt "a"] []; item "*" [txt "b"] []] [];
               par [txt "on"]];
            box POpen "--" [] [par [txt "On"]]];
         item "." [txt "Go"] [box PQuote "____" [] []]] [];
      Blk (HList LOrdered) (Some (mkMeta [] [] [bs "colist"] false None []))
        [item "<1>" [txt "Un"] []; item "<22>" [span SStrong [txt "On"]] []] [];
      (* since the description list line breaks stand apart *)
      par [txt "By"; txt "
"; txt "run"]].
Proof.
  destruct (C69 fixture_world 0 [] false C69_more_source C69_more_script) as (g & E & B & H);
    [apply C69_more_words|exact C69_more_ok|discriminate|now left|apply C69_more_words|].
  exists g. split; [exact E|]. rewrite B. vm_compute. reflexivity.
Qed.

(** a listing with callouts, one of them lost in a comment, and its list *)
Definition C69_callout_source : bytes := bs "[source,rust]
----
// run <1>
a *b <2>

on <33>
----

<2> Un
<33> On

by
".
Definition C69_callout_script : script := mkScript None
  [([Fields false [Plain (bs "source"); Plain (bs "rust")]],
    Part (Fenced Listing [newline; (TComment, bs "// run <1>"); newline; (TText, bs "a "); (TStrong, bs "*"); (TText, bs "b "); (TCodeCallout, bs "<2>"); newline;
                          newline; (TText, bs "on "); (TCodeCallout, bs "<33>"); newline]));
   ([], Threaded (Callout (bs "2"), [say "Un"]) [(Callout (bs "33"), [say "On"], [])])]
  (Some ([], ([say "by"], true))).
Example C69_callout_words : utf8 C69_callout_source /\ written C69_callout_source C69_callout_script.
Proof. apply writtenb_ok. vm_compute. reflexivity. Qed.
Example C69_callout_ok : script_ok C69_callout_script.
Proof. apply script_okb_ok. vm_compute. reflexivity. Qed.
Example C69_callout_example : exists g, parse fixture_world 0 [] false C69_callout_source = Ok g
  /\ map unplaced (a_blocks g) =
     [Blk (HLeaf NListing FmDelimited (Some (bs "----"))
        [txt "
// run <1>
a *b "; conum (bs "<2>"); txt "

on "; conum (bs "<33>"); txt "
"]) (Some (mkMeta [(bs "language", bs "rust")] [] [] false (Some ASource) [])) [] [];
      Blk (HList LOrdered) (Some (mkMeta [] [] [bs "colist"] false None [])) [item "<2>" [txt "Un"] []; item "<33>" [txt "On"] []] [];
      par [txt "by"]].
Proof.
  destruct (C69 fixture_world 0 [] false C69_callout_source C69_callout_script) as (g & E & B & H);
    [apply C69_callout_words|exact C69_callout_ok|discriminate|now left|apply C69_callout_words|].
  exists g. split; [exact E|]. rewrite B. vm_compute. reflexivity.
Qed.

(** what the side conditions leave out *)
(** a marked text directly behind a marked text *)
Theorem C69_marks_refuted : exists g, parse fixture_world 0 [] false (bs "*a*_b_") = Ok g
  /\ map unplaced (a_blocks g) =
     [par [ISpan SStrong FConstrained [txt "a"; ISpan SEmphasis FConstrained [] None [] true] None [] false; txt "b_"]].
Proof. eexists. split; vm_compute; reflexivity. Qed.
Print Assumptions C69_marks_refuted.
(** a marked text after a footnote stops the program *)
Theorem C69_footnote_refuted : parse fixture_world 0 [] false (bs "a footnote:[b] *c* d") = Panic.
Proof. vm_compute. reflexivity. Qed.
Print Assumptions C69_footnote_refuted.
(** the title of a section with a styled text becomes a paragraph of an untitled section *)
Theorem C69_heading_refuted : exists g, parse fixture_world 0 [] false (bs "== [.r]#a# b

c") = Ok g
  /\ map unplaced (a_blocks g) =
     [Blk (HSection [] [] 1) None
        [par [ISpan SMark FConstrained [txt "a"] (Some (mkMeta [] [] [bs "r"] true None [])) [] false; txt " b"]; par [txt "c"]] []].
Proof. eexists. split; vm_compute; reflexivity. Qed.
Print Assumptions C69_heading_refuted.
(** a subsection directly behind a delimited block becomes part of that block *)
Theorem C69_subsection_refuted : exists g, parse fixture_world 0 [] false (bs "== A

====
a
====

=== B

c") = Ok g
  /\ map unplaced (a_blocks g) =
     [section 1 "A" [Blk (HParent PExample None (bs "====") []) None [par [txt "a"]; section 2 "B" [par [txt "c"]]] []]].
Proof. eexists. split; vm_compute; reflexivity. Qed.
Print Assumptions C69_subsection_refuted.
(** not every paragraph below a heading belongs to its section: one with a cross reference,
    a link, an image or a footnote is the last one that does *)
Theorem C69_section_refuted : exists g, parse fixture_world 0 [] false (bs "== A

a <<b>>

c") = Ok g
  /\ map unplaced (a_blocks g) = [section 1 "A" [par [txt "a "; IRef RXref (bs "b") [] None []]]; par [txt "c"]].
Proof. eexists. split; vm_compute; reflexivity. Qed.
Print Assumptions C69_section_refuted.
(** what stands between a link and a later closing bracket becomes part of the link, and the
    bracket is lost *)
Theorem C69_bracket_refuted : exists g, parse fixture_world 0 [] false (bs "http://a[b] c] d") = Ok g
  /\ map unplaced (a_blocks g) = [par [IRef RLink (bs "http://a") [txt "b"; txt " c"] None []; txt " d"]].
Proof. eexists. split; vm_compute; reflexivity. Qed.
Print Assumptions C69_bracket_refuted.
(** the line break behind an anchor becomes part of the text *)
Theorem C69_anchor_refuted : exists g, parse fixture_world 0 [] false (bs "[[a]]
one") = Ok g
  /\ map unplaced (a_blocks g) =
     [Blk (HLeaf NParagraph FmParagraph None [txt "
one"]) (Some (attrs_of [(bs "id", bs "a")])) [] []].
Proof. eexists. split; vm_compute; reflexivity. Qed.
Print Assumptions C69_anchor_refuted.
(** the attributes before a paragraph go to its first marked text, not to the paragraph *)
Theorem C69_attributes_refuted : exists g, parse fixture_world 0 [] false (bs "[role=red]
one *two* run") = Ok g
  /\ map unplaced (a_blocks g) =
     [par [txt "one "; ISpan SStrong FConstrained [txt "two"] (Some (mkMeta [] [] [bs "red"] false None [])) [] false; txt " run"]].
Proof. eexists. split; vm_compute; reflexivity. Qed.
Print Assumptions C69_attributes_refuted.
(** a role before a block image with an alternative text is lost *)
Theorem C69_image_role_refuted : exists g, parse fixture_world 0 [] false (bs "[role=red]
image::a.png[b]
") = Ok g
  /\ map unplaced (a_blocks g) =
     [Blk (HMacro (bs "a.png") []) (Some (mkMeta [(bs "positional_1", bs "b")] [] [] true None [])) [] []].
Proof. eexists. split; vm_compute; reflexivity. Qed.
Print Assumptions C69_image_role_refuted.
(** attributes before a break are an error *)
Theorem C69_break_refuted : exists e, parse fixture_world 0 [] false (bs "[role=red]
'''

one") = Err e.
Proof. eexists. vm_compute. reflexivity. Qed.
Print Assumptions C69_break_refuted.
(** a value behind a quoted one is counted after it: the first value is not the first *)
Theorem C69_position_refuted : exists g, parse fixture_world 0 [] false (bs "[on,a=""b""]
one") = Ok g
  /\ map unplaced (a_blocks g) =
     [Blk (HLeaf NParagraph FmParagraph None [txt "one"]) (Some (attrs_of [(bs "a", bs "b"); (bs "positional_2", bs "on")])) [] []].
Proof. eexists. split; vm_compute; reflexivity. Qed.
Print Assumptions C69_position_refuted.
