(** * FixturesJson: the JSON fixtures of /repo/tests/data, checked against the model

    Generated by /verif/tools/gen_fixtures.py from the fixture files and the
    substitutions the tests make (/repo/tests/block_tests.rs, document_tests.rs,
    inline_tests.rs, offset_tests.rs).  These are tests of the model, not proofs
    of properties.  JSON objects are compared irrespective of key order, as
    [assert_json_eq] does: both sides have their keys sorted. *)
From Verif Require Import Base World Location Token Scanner Meta Inline Block Asg Parser Json Fixtures.

Example fixture_blocks_admonition_inline_eof :
  check_json (bs "tests/data/blocks") (bs "NOTE: This should be included in the thing.
") (bs "{""blocks"":[{""blocks"":[{""inlines"":[{""location"":[{""col"":7,""line"":1},{""col"":43,""line"":1}],""name"":""text"",""type"":""string"",""value"":""This should be included in the thing.""}],""location"":[{""col"":7,""line"":1},{""col"":43,""line"":1}],""name"":""paragraph"",""type"":""block""}],""delimiter"":""NOTE: "",""form"":""delimited"",""location"":[{""col"":1,""line"":1},{""col"":43,""line"":1}],""name"":""admonition"",""type"":""block"",""variant"":""note""}],""location"":[{""col"":1,""line"":1},{""col"":43,""line"":1}],""name"":""document"",""type"":""block""}") = true.
Proof. vm_compute. reflexivity. Qed.

Example fixture_blocks_block_anchor :
  check_json (bs "tests/data/blocks") (bs "[[unique_id]]
== Section with unique_id

Some text.
") (bs "{""blocks"":[{""blocks"":[{""inlines"":[{""location"":[{""col"":1,""line"":4},{""col"":10,""line"":4}],""name"":""text"",""type"":""string"",""value"":""Some text.""}],""location"":[{""col"":1,""line"":4},{""col"":10,""line"":4}],""name"":""paragraph"",""type"":""block""}],""level"":1,""location"":[{""col"":1,""line"":2},{""col"":10,""line"":4}],""metadata"":{""attributes"":{""id"":""unique_id""},""location"":[{""col"":1,""line"":1},{""col"":13,""line"":1}],""options"":[],""roles"":[]},""name"":""section"",""title"":[{""location"":[{""col"":4,""line"":2},{""col"":25,""line"":2}],""name"":""text"",""type"":""string"",""value"":""Section with unique_id""}],""type"":""block""}],""location"":[{""col"":1,""line"":1},{""col"":10,""line"":4}],""name"":""document"",""type"":""block""}") = true.
Proof. vm_compute. reflexivity. Qed.

Example fixture_blocks_block_label :
  check_json (bs "tests/data/blocks") (bs ".This is the title for the following example
====
[source,py]
----
print(f""Hello, {name}!"")
----
====
") (bs "{""blocks"":[{""blocks"":[{""delimiter"":""----"",""form"":""delimited"",""inlines"":[{""location"":[{""col"":5,""line"":4},{""col"":25,""line"":5}],""name"":""text"",""type"":""string"",""value"":""\nprint(f\""Hello, {name}!\"")\n""}],""location"":[{""col"":1,""line"":4},{""col"":4,""line"":6}],""metadata"":{""attributes"":{""language"":""py""},""location"":[{""col"":1,""line"":3},{""col"":11,""line"":3}],""options"":[],""roles"":[]},""name"":""listing"",""type"":""block""}],""delimiter"":""===="",""form"":""delimited"",""location"":[{""col"":1,""line"":2},{""col"":4,""line"":7}],""name"":""example"",""title"":[{""location"":[{""col"":2,""line"":1},{""col"":44,""line"":1}],""name"":""text"",""type"":""string"",""value"":""This is the title for the following example""}],""type"":""block""}],""location"":[{""col"":1,""line"":1},{""col"":4,""line"":7}],""name"":""document"",""type"":""block""}") = true.
Proof. vm_compute. reflexivity. Qed.

Example fixture_blocks_code_callouts :
  check_json (bs "tests/data/blocks") (bs "[source, python]
----
def hello(name: str):  # <1>
"""""" Welcomes the person whose name is passed to the function""""""
    print(f""Hello, {name}"")  # <2>
----
<1> This is a function definition.
<2> This print statement employs an ""f-string""
") (bs "{""blocks"":[{""delimiter"":""----"",""form"":""delimited"",""inlines"":[{""location"":[{""col"":5,""line"":2},{""col"":25,""line"":3}],""name"":""text"",""type"":""string"",""value"":""\ndef hello(name: str):  # ""},{""form"":""constrained"",""inlines"":[{""location"":[{""col"":26,""line"":3},{""col"":28,""line"":3}],""name"":""text"",""type"":""string"",""value"":""(1)""}],""location"":[{""col"":26,""line"":3},{""col"":28,""line"":3}],""metadata"":{""attributes"":{},""location"":[],""options"":[],""roles"":[""conum""]},""name"":""span"",""type"":""inline"",""variant"":""strong""},{""location"":[{""col"":29,""line"":3},{""col"":31,""line"":5}],""name"":""text"",""type"":""string"",""value"":""\n\""\""\"" Welcomes the person whose name is passed to the function\""\""\""\n    print(f\""Hello, {name}\"")  # ""},{""form"":""constrained"",""inlines"":[{""location"":[{""col"":32,""line"":5},{""col"":34,""line"":5}],""name"":""text"",""type"":""string"",""value"":""(2)""}],""location"":[{""col"":32,""line"":5},{""col"":34,""line"":5}],""metadata"":{""attributes"":{},""location"":[],""options"":[],""roles"":[""conum""]},""name"":""span"",""type"":""inline"",""variant"":""strong""},{""location"":[{""col"":35,""line"":5},{""col"":35,""line"":5}],""name"":""text"",""type"":""string"",""value"":""\n""}],""location"":[{""col"":1,""line"":2},{""col"":4,""line"":6}],""metadata"":{""attributes"":{""language"":""python""},""location"":[{""col"":1,""line"":1},{""col"":16,""line"":1}],""options"":[],""roles"":[]},""name"":""listing"",""type"":""block""},{""items"":[{""location"":[{""col"":1,""line"":7},{""col"":34,""line"":7}],""marker"":""<1>"",""name"":""listItem"",""principal"":[{""location"":[{""col"":5,""line"":7},{""col"":34,""line"":7}],""name"":""text"",""type"":""string"",""value"":""This is a function definition.""}],""type"":""block""},{""location"":[{""col"":1,""line"":8},{""col"":46,""line"":8}],""marker"":""<2>"",""name"":""listItem"",""principal"":[{""location"":[{""col"":5,""line"":8},{""col"":46,""line"":8}],""name"":""text"",""type"":""string"",""value"":""This print statement employs an \""f-string\""""}],""type"":""block""}],""location"":[{""col"":1,""line"":7},{""col"":46,""line"":8}],""marker"":""."",""metadata"":{""attributes"":{},""location"":[],""options"":[],""roles"":[""colist""]},""name"":""list"",""type"":""block"",""variant"":""ordered""}],""location"":[{""col"":1,""line"":1},{""col"":46,""line"":8}],""name"":""document"",""type"":""block""}") = true.
Proof. vm_compute. reflexivity. Qed.

Example fixture_blocks_comment_eof :
  check_json (bs "tests/data/blocks") (bs "This should just be a single paragraph!

////

** Even if there are star and other characters

The comment info in here should not be included,
even if the final line is a comment block line.

////
") (bs "{""blocks"":[{""inlines"":[{""location"":[{""col"":1,""line"":1},{""col"":39,""line"":1}],""name"":""text"",""type"":""string"",""value"":""This should just be a single paragraph!""}],""location"":[{""col"":1,""line"":1},{""col"":39,""line"":1}],""name"":""paragraph"",""type"":""block""}],""location"":[{""col"":1,""line"":1},{""col"":39,""line"":1}],""name"":""document"",""type"":""block""}") = true.
Proof. vm_compute. reflexivity. Qed.

Example fixture_blocks_description_list_complex :
  check_json (bs "tests/data/blocks") (bs "Term:: Description
Another Term::
    With its description on a separate line
Another term::
+
--
That is just an open block, ya know? Put lists here if you must:

* Item one
* Item two
--
And then a term with a list::
* One
* Two
") (bs "{""blocks"":[{""items"":[{""location"":[{""col"":1,""line"":1},{""col"":18,""line"":1}],""marker"":""::"",""name"":""dlistItem"",""principal"":[{""location"":[{""col"":8,""line"":1},{""col"":18,""line"":1}],""name"":""text"",""type"":""string"",""value"":""Description""}],""terms"":[{""location"":[{""col"":1,""line"":1},{""col"":4,""line"":1}],""name"":""text"",""type"":""string"",""value"":""Term""}],""type"":""block""},{""location"":[{""col"":1,""line"":2},{""col"":58,""line"":2}],""marker"":""::"",""name"":""dlistItem"",""principal"":[{""location"":[{""col"":16,""line"":2},{""col"":58,""line"":2}],""name"":""text"",""type"":""string"",""value"":""    With its description on a separate line""}],""terms"":[{""location"":[{""col"":1,""line"":2},{""col"":12,""line"":2}],""name"":""text"",""type"":""string"",""value"":""Another Term""}],""type"":""block""},{""blocks"":[{""blocks"":[{""inlines"":[{""location"":[{""col"":1,""line"":5},{""col"":64,""line"":5}],""name"":""text"",""type"":""string"",""value"":""That is just an open block, ya know? Put lists here if you must:""}],""location"":[{""col"":1,""line"":5},{""col"":64,""line"":5}],""name"":""paragraph"",""type"":""block""},{""items"":[{""location"":[{""col"":1,""line"":7},{""col"":10,""line"":7}],""marker"":""*"",""name"":""listItem"",""principal"":[{""location"":[{""col"":3,""line"":7},{""col"":10,""line"":7}],""name"":""text"",""type"":""string"",""value"":""Item one""}],""type"":""block""},{""location"":[{""col"":1,""line"":8},{""col"":10,""line"":8}],""marker"":""*"",""name"":""listItem"",""principal"":[{""location"":[{""col"":3,""line"":8},{""col"":10,""line"":8}],""name"":""text"",""type"":""string"",""value"":""Item two""}],""type"":""block""}],""location"":[{""col"":1,""line"":7},{""col"":10,""line"":8}],""marker"":""*"",""name"":""list"",""type"":""block"",""variant"":""unordered""}],""delimiter"":""--"",""form"":""delimited"",""location"":[{""col"":1,""line"":4},{""col"":2,""line"":9}],""name"":""open"",""type"":""block""}],""location"":[{""col"":1,""line"":3},{""col"":2,""line"":9}],""marker"":""::"",""name"":""dlistItem"",""terms"":[{""location"":[{""col"":1,""line"":3},{""col"":12,""line"":3}],""name"":""text"",""type"":""string"",""value"":""Another term""}],""type"":""block""},{""blocks"":[{""items"":[{""location"":[{""col"":31,""line"":10},{""col"":35,""line"":10}],""marker"":""*"",""name"":""listItem"",""principal"":[{""location"":[{""col"":33,""line"":10},{""col"":35,""line"":10}],""name"":""text"",""type"":""string"",""value"":""One""}],""type"":""block""},{""location"":[{""col"":1,""line"":11},{""col"":5,""line"":11}],""marker"":""*"",""name"":""listItem"",""principal"":[{""location"":[{""col"":3,""line"":11},{""col"":5,""line"":11}],""name"":""text"",""type"":""string"",""value"":""Two""}],""type"":""block""}],""location"":[{""col"":31,""line"":10},{""col"":5,""line"":11}],""marker"":""*"",""name"":""list"",""type"":""block"",""variant"":""unordered""}],""location"":[{""col"":1,""line"":10},{""col"":5,""line"":11}],""marker"":""::"",""name"":""dlistItem"",""terms"":[{""location"":[{""col"":1,""line"":10},{""col"":27,""line"":10}],""name"":""text"",""type"":""string"",""value"":""And then a term with a list""}],""type"":""block""}],""location"":[{""col"":1,""line"":1},{""col"":5,""line"":11}],""marker"":""::"",""name"":""dlist"",""type"":""block""}],""location"":[{""col"":1,""line"":1},{""col"":5,""line"":11}],""name"":""document"",""type"":""block""}") = true.
Proof. vm_compute. reflexivity. Qed.

Example fixture_blocks_description_list_simple :
  check_json (bs "tests/data/blocks") (bs "Term:: Description of that term.
") (bs "{""blocks"":[{""items"":[{""location"":[{""col"":1,""line"":1},{""col"":32,""line"":1}],""marker"":""::"",""name"":""dlistItem"",""principal"":[{""location"":[{""col"":8,""line"":1},{""col"":32,""line"":1}],""name"":""text"",""type"":""string"",""value"":""Description of that term.""}],""terms"":[{""location"":[{""col"":1,""line"":1},{""col"":4,""line"":1}],""name"":""text"",""type"":""string"",""value"":""Term""}],""type"":""block""}],""location"":[{""col"":1,""line"":1},{""col"":32,""line"":1}],""marker"":""::"",""name"":""dlist"",""type"":""block""}],""location"":[{""col"":1,""line"":1},{""col"":32,""line"":1}],""name"":""document"",""type"":""block""}") = true.
Proof. vm_compute. reflexivity. Qed.

Example fixture_blocks_document_attr :
  check_json (bs "tests/data/blocks") (bs "= Document Title
:foo: bar
:toc:

Text
") (bs "{""attributes"":{""foo"":""bar"",""toc"":""""},""blocks"":[{""inlines"":[{""location"":[{""col"":1,""line"":5},{""col"":4,""line"":5}],""name"":""text"",""type"":""string"",""value"":""Text""}],""location"":[{""col"":1,""line"":5},{""col"":4,""line"":5}],""name"":""paragraph"",""type"":""block""}],""header"":{""location"":[{""col"":1,""line"":1},{""col"":16,""line"":1}],""title"":[{""location"":[{""col"":3,""line"":1},{""col"":16,""line"":1}],""name"":""text"",""type"":""string"",""value"":""Document Title""}]},""location"":[{""col"":1,""line"":1},{""col"":4,""line"":5}],""name"":""document"",""type"":""block""}") = true.
Proof. vm_compute. reflexivity. Qed.

Example fixture_blocks_document_header :
  check_json (bs "tests/data/blocks") (bs "= Document Title

Text
") (bs "{""attributes"":{},""blocks"":[{""inlines"":[{""location"":[{""col"":1,""line"":3},{""col"":4,""line"":3}],""name"":""text"",""type"":""string"",""value"":""Text""}],""location"":[{""col"":1,""line"":3},{""col"":4,""line"":3}],""name"":""paragraph"",""type"":""block""}],""header"":{""location"":[{""col"":1,""line"":1},{""col"":16,""line"":1}],""title"":[{""location"":[{""col"":3,""line"":1},{""col"":16,""line"":1}],""name"":""text"",""type"":""string"",""value"":""Document Title""}]},""location"":[{""col"":1,""line"":1},{""col"":4,""line"":3}],""name"":""document"",""type"":""block""}") = true.
Proof. vm_compute. reflexivity. Qed.

Example fixture_blocks_heading_with_dangling_hash :
  check_json (bs "tests/data/blocks") (bs "== This heading should only have text, not a highlighted #1
") (bs "{""blocks"":[{""blocks"":[],""level"":1,""location"":[{""col"":1,""line"":1},{""col"":59,""line"":1}],""name"":""section"",""title"":[{""location"":[{""col"":4,""line"":1},{""col"":59,""line"":1}],""name"":""text"",""type"":""string"",""value"":""This heading should only have text, not a highlighted #1""}],""type"":""block""}],""location"":[{""col"":1,""line"":1},{""col"":59,""line"":1}],""name"":""document"",""type"":""block""}") = true.
Proof. vm_compute. reflexivity. Qed.

Example fixture_blocks_image_block_alt_text :
  check_json (bs "tests/data/blocks") (bs "image::path/to/image.png[""Some alt text""]
") (bs "{""blocks"":[{""form"":""macro"",""location"":[{""col"":1,""line"":1},{""col"":41,""line"":1}],""metadata"":{""attributes"":{""positional_1"":""Some alt text""},""location"":[],""options"":[],""roles"":[]},""name"":""image"",""target"":""path/to/image.png"",""type"":""block""}],""location"":[{""col"":1,""line"":1},{""col"":41,""line"":1}],""name"":""document"",""type"":""block""}") = true.
Proof. vm_compute. reflexivity. Qed.

Example fixture_blocks_image_block_figure :
  check_json (bs "tests/data/blocks") (bs "[[image_id]]
.Figure Title
image::path/to/image.png[]
") (bs "{""blocks"":[{""caption"":[{""location"":[{""col"":2,""line"":2},{""col"":13,""line"":2}],""name"":""text"",""type"":""string"",""value"":""Figure Title""}],""form"":""macro"",""location"":[{""col"":1,""line"":3},{""col"":26,""line"":3}],""metadata"":{""attributes"":{""id"":""image_id""},""location"":[{""col"":1,""line"":1},{""col"":12,""line"":1}],""options"":[],""roles"":[]},""name"":""image"",""target"":""path/to/image.png"",""type"":""block""}],""location"":[{""col"":1,""line"":1},{""col"":26,""line"":3}],""name"":""document"",""type"":""block""}") = true.
Proof. vm_compute. reflexivity. Qed.

Example fixture_blocks_image_block :
  check_json (bs "tests/data/blocks") (bs "image::path/to/image.png[]
") (bs "{""blocks"":[{""form"":""macro"",""location"":[{""col"":1,""line"":1},{""col"":26,""line"":1}],""name"":""image"",""target"":""path/to/image.png"",""type"":""block""}],""location"":[{""col"":1,""line"":1},{""col"":26,""line"":1}],""name"":""document"",""type"":""block""}") = true.
Proof. vm_compute. reflexivity. Qed.

Example fixture_blocks_include_lines :
  check_json (bs "tests/data/blocks") (bs "== Single Range

include::included.txt[lines=5..10]

== Multiple Range Quoted

include::included.txt[lines=""1..3,5..7""]

== Multiple Range Semicolons

include::included.txt[lines=1;5..7]

== Range To Last Line

include::included.txt[lines=5..-1]

== Range without end

include::included.txt[lines=5..]
") (bs "{""blocks"":[{""blocks"":[{""inlines"":[{""location"":[{""col"":1,""file"":[""included.txt""],""line"":5},{""col"":8,""file"":[""included.txt""],""line"":10}],""name"":""text"",""type"":""string"",""value"":""Line five\nLine six\nLine seven\nLine nine\nLine ten""}],""location"":[{""col"":1,""file"":[""included.txt""],""line"":5},{""col"":8,""file"":[""included.txt""],""line"":10}],""name"":""paragraph"",""type"":""block""}],""level"":1,""location"":[{""col"":1,""line"":1},{""col"":8,""file"":[""included.txt""],""line"":10}],""name"":""section"",""title"":[{""location"":[{""col"":4,""line"":1},{""col"":15,""line"":1}],""name"":""text"",""type"":""string"",""value"":""Single Range""}],""type"":""block""},{""blocks"":[{""inlines"":[{""location"":[{""col"":1,""file"":[""included.txt""],""line"":1},{""col"":10,""file"":[""included.txt""],""line"":7}],""name"":""text"",""type"":""string"",""value"":""Line one\nLine two\nLine three\nLine five\nLine six\nLine seven""}],""location"":[{""col"":1,""file"":[""included.txt""],""line"":1},{""col"":10,""file"":[""included.txt""],""line"":7}],""name"":""paragraph"",""type"":""block""}],""level"":1,""location"":[{""col"":1,""line"":5},{""col"":10,""file"":[""included.txt""],""line"":7}],""name"":""section"",""title"":[{""location"":[{""col"":4,""line"":5},{""col"":24,""line"":5}],""name"":""text"",""type"":""string"",""value"":""Multiple Range Quoted""}],""type"":""block""},{""blocks"":[{""inlines"":[{""location"":[{""col"":1,""file"":[""included.txt""],""line"":1},{""col"":10,""file"":[""included.txt""],""line"":7}],""name"":""text"",""type"":""string"",""value"":""Line one\nLine five\nLine six\nLine seven""}],""location"":[{""col"":1,""file"":[""included.txt""],""line"":1},{""col"":10,""file"":[""included.txt""],""line"":7}],""name"":""paragraph"",""type"":""block""}],""level"":1,""location"":[{""col"":1,""line"":9},{""col"":10,""file"":[""included.txt""],""line"":7}],""name"":""section"",""title"":[{""location"":[{""col"":4,""line"":9},{""col"":28,""line"":9}],""name"":""text"",""type"":""string"",""value"":""Multiple Range Semicolons""}],""type"":""block""},{""blocks"":[{""inlines"":[{""location"":[{""col"":1,""file"":[""included.txt""],""line"":5},{""col"":11,""file"":[""included.txt""],""line"":12}],""name"":""text"",""type"":""string"",""value"":""Line five\nLine six\nLine seven\nLine nine\nLine ten\nLine eleven""}],""location"":[{""col"":1,""file"":[""included.txt""],""line"":5},{""col"":11,""file"":[""included.txt""],""line"":12}],""name"":""paragraph"",""type"":""block""}],""level"":1,""location"":[{""col"":1,""line"":13},{""col"":11,""file"":[""included.txt""],""line"":12}],""name"":""section"",""title"":[{""location"":[{""col"":4,""line"":13},{""col"":21,""line"":13}],""name"":""text"",""type"":""string"",""value"":""Range To Last Line""}],""type"":""block""},{""blocks"":[{""inlines"":[{""location"":[{""col"":1,""file"":[""included.txt""],""line"":5},{""col"":11,""file"":[""included.txt""],""line"":12}],""name"":""text"",""type"":""string"",""value"":""Line five\nLine six\nLine seven\nLine nine\nLine ten\nLine eleven""}],""location"":[{""col"":1,""file"":[""included.txt""],""line"":5},{""col"":11,""file"":[""included.txt""],""line"":12}],""name"":""paragraph"",""type"":""block""}],""level"":1,""location"":[{""col"":1,""line"":17},{""col"":11,""file"":[""included.txt""],""line"":12}],""name"":""section"",""title"":[{""location"":[{""col"":4,""line"":17},{""col"":20,""line"":17}],""name"":""text"",""type"":""string"",""value"":""Range without end""}],""type"":""block""}],""location"":[{""col"":1,""line"":1},{""col"":11,""file"":[""included.txt""],""line"":12}],""name"":""document"",""type"":""block""}") = true.
Proof. vm_compute. reflexivity. Qed.

Example fixture_blocks_include_respects_internal_breaks :
  check_json (bs "tests/data/blocks") (bs "include::para-internal-line-break.adoc[]
") (bs "{""blocks"":[{""inlines"":[{""location"":[{""col"":1,""file"":[""para-internal-line-break.adoc""],""line"":1},{""col"":14,""file"":[""para-internal-line-break.adoc""],""line"":2}],""name"":""text"",""type"":""string"",""value"":""This is just a test to see if things get combined. For example, this should all\nbe one inline.""}],""location"":[{""col"":1,""file"":[""para-internal-line-break.adoc""],""line"":1},{""col"":14,""file"":[""para-internal-line-break.adoc""],""line"":2}],""name"":""paragraph"",""type"":""block""}],""location"":[{""col"":1,""line"":1},{""col"":14,""file"":[""para-internal-line-break.adoc""],""line"":2}],""name"":""document"",""type"":""block""}") = true.
Proof. vm_compute. reflexivity. Qed.

Example fixture_blocks_include_tags_xml :
  check_json (bs "tests/data/blocks") (bs "= Include XML should not include end of comment

For example:

[source, xml]
----
include::included.xml[tag=snip]
----
") (bs "{""attributes"":{},""blocks"":[{""inlines"":[{""location"":[{""col"":1,""line"":3},{""col"":12,""line"":3}],""name"":""text"",""type"":""string"",""value"":""For example:""}],""location"":[{""col"":1,""line"":3},{""col"":12,""line"":3}],""name"":""paragraph"",""type"":""block""},{""delimiter"":""----"",""form"":""delimited"",""inlines"":[{""location"":[{""col"":5,""line"":6},{""col"":32,""file"":[""included.xml""],""line"":4}],""name"":""text"",""type"":""string"",""value"":""\n        <the-element-we-want />\n""},{""location"":[{""col"":32,""line"":7},{""col"":32,""line"":7}],""name"":""text"",""type"":""string"",""value"":""\n""}],""location"":[{""col"":1,""line"":6},{""col"":4,""line"":8}],""metadata"":{""attributes"":{""language"":""xml""},""location"":[{""col"":1,""line"":5},{""col"":13,""line"":5}],""options"":[],""roles"":[]},""name"":""listing"",""type"":""block""}],""header"":{""location"":[{""col"":1,""line"":1},{""col"":47,""line"":1}],""title"":[{""location"":[{""col"":3,""line"":1},{""col"":47,""line"":1}],""name"":""text"",""type"":""string"",""value"":""Include XML should not include end of comment""}]},""location"":[{""col"":1,""line"":1},{""col"":4,""line"":8}],""name"":""document"",""type"":""block""}") = true.
Proof. vm_compute. reflexivity. Qed.

Example fixture_blocks_include_tags :
  check_json (bs "tests/data/blocks") (bs "== Single Tag

include::included.txt[tag=foo]

== Two tags

include::included.txt[tags=foo;bar]
") (bs "{""blocks"":[{""blocks"":[{""inlines"":[{""location"":[{""col"":1,""file"":[""included.txt""],""line"":5},{""col"":10,""file"":[""included.txt""],""line"":7}],""name"":""text"",""type"":""string"",""value"":""Line five\nLine six\nLine seven""}],""location"":[{""col"":1,""file"":[""included.txt""],""line"":5},{""col"":10,""file"":[""included.txt""],""line"":7}],""name"":""paragraph"",""type"":""block""}],""level"":1,""location"":[{""col"":1,""line"":1},{""col"":10,""file"":[""included.txt""],""line"":7}],""name"":""section"",""title"":[{""location"":[{""col"":4,""line"":1},{""col"":13,""line"":1}],""name"":""text"",""type"":""string"",""value"":""Single Tag""}],""type"":""block""},{""blocks"":[{""inlines"":[{""location"":[{""col"":1,""file"":[""included.txt""],""line"":5},{""col"":11,""file"":[""included.txt""],""line"":12}],""name"":""text"",""type"":""string"",""value"":""Line five\nLine six\nLine seven\nLine eleven""}],""location"":[{""col"":1,""file"":[""included.txt""],""line"":5},{""col"":11,""file"":[""included.txt""],""line"":12}],""name"":""paragraph"",""type"":""block""}],""level"":1,""location"":[{""col"":1,""line"":5},{""col"":11,""file"":[""included.txt""],""line"":12}],""name"":""section"",""title"":[{""location"":[{""col"":4,""line"":5},{""col"":11,""line"":5}],""name"":""text"",""type"":""string"",""value"":""Two tags""}],""type"":""block""}],""location"":[{""col"":1,""line"":1},{""col"":11,""file"":[""included.txt""],""line"":12}],""name"":""document"",""type"":""block""}") = true.
Proof. vm_compute. reflexivity. Qed.

Example fixture_blocks_include :
  check_json (bs "tests/data/blocks") (bs "Here is a paragraph, followed by an include.

// includes are relative to the file that calls them
include::nested-headings-multiple.adoc[]

And then some final content back in the original file.
") (bs "{""blocks"":[{""inlines"":[{""location"":[{""col"":1,""line"":1},{""col"":44,""line"":1}],""name"":""text"",""type"":""string"",""value"":""Here is a paragraph, followed by an include.""}],""location"":[{""col"":1,""line"":1},{""col"":44,""line"":1}],""name"":""paragraph"",""type"":""block""},{""blocks"":[{""inlines"":[{""location"":[{""col"":1,""file"":[""nested-headings-multiple.adoc""],""line"":3},{""col"":8,""file"":[""nested-headings-multiple.adoc""],""line"":3}],""name"":""text"",""type"":""string"",""value"":""Contents""}],""location"":[{""col"":1,""file"":[""nested-headings-multiple.adoc""],""line"":3},{""col"":8,""file"":[""nested-headings-multiple.adoc""],""line"":3}],""name"":""paragraph"",""type"":""block""},{""blocks"":[{""inlines"":[{""location"":[{""col"":1,""file"":[""nested-headings-multiple.adoc""],""line"":7},{""col"":18,""file"":[""nested-headings-multiple.adoc""],""line"":7}],""name"":""text"",""type"":""string"",""value"":""Contents of nested""}],""location"":[{""col"":1,""file"":[""nested-headings-multiple.adoc""],""line"":7},{""col"":18,""file"":[""nested-headings-multiple.adoc""],""line"":7}],""name"":""paragraph"",""type"":""block""}],""level"":2,""location"":[{""col"":1,""file"":[""nested-headings-multiple.adoc""],""line"":5},{""col"":18,""file"":[""nested-headings-multiple.adoc""],""line"":7}],""name"":""section"",""title"":[{""location"":[{""col"":5,""file"":[""nested-headings-multiple.adoc""],""line"":5},{""col"":24,""file"":[""nested-headings-multiple.adoc""],""line"":5}],""name"":""text"",""type"":""string"",""value"":""Nested Section Title""}],""type"":""block""},{""blocks"":[{""inlines"":[{""location"":[{""col"":1,""file"":[""nested-headings-multiple.adoc""],""line"":11},{""col"":32,""file"":[""nested-headings-multiple.adoc""],""line"":11}],""name"":""text"",""type"":""string"",""value"":""Contents of nested at same level""}],""location"":[{""col"":1,""file"":[""nested-headings-multiple.adoc""],""line"":11},{""col"":32,""file"":[""nested-headings-multiple.adoc""],""line"":11}],""name"":""paragraph"",""type"":""block""}],""level"":2,""location"":[{""col"":1,""file"":[""nested-headings-multiple.adoc""],""line"":9},{""col"":32,""file"":[""nested-headings-multiple.adoc""],""line"":11}],""name"":""section"",""title"":[{""location"":[{""col"":5,""file"":[""nested-headings-multiple.adoc""],""line"":9},{""col"":24,""file"":[""nested-headings-multiple.adoc""],""line"":9}],""name"":""text"",""type"":""string"",""value"":""Nested Section Title""}],""type"":""block""}],""level"":1,""location"":[{""col"":1,""file"":[""nested-headings-multiple.adoc""],""line"":1},{""col"":32,""file"":[""nested-headings-multiple.adoc""],""line"":11}],""name"":""section"",""title"":[{""location"":[{""col"":4,""file"":[""nested-headings-multiple.adoc""],""line"":1},{""col"":16,""file"":[""nested-headings-multiple.adoc""],""line"":1}],""name"":""text"",""type"":""string"",""value"":""Section Title""}],""type"":""block""},{""inlines"":[{""location"":[{""col"":1,""line"":6},{""col"":54,""line"":6}],""name"":""text"",""type"":""string"",""value"":""And then some final content back in the original file.""}],""location"":[{""col"":1,""line"":6},{""col"":54,""line"":6}],""name"":""paragraph"",""type"":""block""}],""location"":[{""col"":1,""line"":1},{""col"":54,""line"":6}],""name"":""document"",""type"":""block""}") = true.
Proof. vm_compute. reflexivity. Qed.

Example fixture_blocks_level_offset_absolute :
  check_json (bs "tests/data/blocks") (bs ":leveloffset: 1

include::headings-to-offset.adoc[]

:leveloffset: 0

== This should be a level-one heading, outside the offset
") (bs "{""blocks"":[{""blocks"":[{""blocks"":[{""blocks"":[],""level"":4,""location"":[{""col"":1,""file"":[""headings-to-offset.adoc""],""line"":5},{""col"":14,""file"":[""headings-to-offset.adoc""],""line"":5}],""name"":""section"",""title"":[{""location"":[{""col"":6,""file"":[""headings-to-offset.adoc""],""line"":5},{""col"":14,""file"":[""headings-to-offset.adoc""],""line"":5}],""name"":""text"",""type"":""string"",""value"":""And so on""}],""type"":""block""}],""level"":3,""location"":[{""col"":1,""file"":[""headings-to-offset.adoc""],""line"":3},{""col"":14,""file"":[""headings-to-offset.adoc""],""line"":5}],""name"":""section"",""title"":[{""location"":[{""col"":5,""file"":[""headings-to-offset.adoc""],""line"":3},{""col"":34,""file"":[""headings-to-offset.adoc""],""line"":3}],""name"":""text"",""type"":""string"",""value"":""Starts as two, should be three""}],""type"":""block""}],""level"":2,""location"":[{""col"":1,""file"":[""headings-to-offset.adoc""],""line"":1},{""col"":14,""file"":[""headings-to-offset.adoc""],""line"":5}],""name"":""section"",""title"":[{""location"":[{""col"":4,""file"":[""headings-to-offset.adoc""],""line"":1},{""col"":31,""file"":[""headings-to-offset.adoc""],""line"":1}],""name"":""text"",""type"":""string"",""value"":""Starts as one, should be two""}],""type"":""block""},{""blocks"":[],""level"":1,""location"":[{""col"":1,""line"":7},{""col"":57,""line"":7}],""name"":""section"",""title"":[{""location"":[{""col"":4,""line"":7},{""col"":57,""line"":7}],""name"":""text"",""type"":""string"",""value"":""This should be a level-one heading, outside the offset""}],""type"":""block""}],""location"":[{""col"":1,""line"":1},{""col"":57,""line"":7}],""name"":""document"",""type"":""block""}") = true.
Proof. vm_compute. reflexivity. Qed.

Example fixture_blocks_level_offset_attributes :
  check_json (bs "tests/data/blocks") (bs "include::headings-to-offset.adoc[leveloffset=+1]
") (bs "{""blocks"":[{""blocks"":[{""blocks"":[{""blocks"":[],""level"":4,""location"":[{""col"":1,""file"":[""headings-to-offset.adoc""],""line"":5},{""col"":14,""file"":[""headings-to-offset.adoc""],""line"":5}],""name"":""section"",""title"":[{""location"":[{""col"":6,""file"":[""headings-to-offset.adoc""],""line"":5},{""col"":14,""file"":[""headings-to-offset.adoc""],""line"":5}],""name"":""text"",""type"":""string"",""value"":""And so on""}],""type"":""block""}],""level"":3,""location"":[{""col"":1,""file"":[""headings-to-offset.adoc""],""line"":3},{""col"":14,""file"":[""headings-to-offset.adoc""],""line"":5}],""name"":""section"",""title"":[{""location"":[{""col"":5,""file"":[""headings-to-offset.adoc""],""line"":3},{""col"":34,""file"":[""headings-to-offset.adoc""],""line"":3}],""name"":""text"",""type"":""string"",""value"":""Starts as two, should be three""}],""type"":""block""}],""level"":2,""location"":[{""col"":1,""file"":[""headings-to-offset.adoc""],""line"":1},{""col"":14,""file"":[""headings-to-offset.adoc""],""line"":5}],""name"":""section"",""title"":[{""location"":[{""col"":4,""file"":[""headings-to-offset.adoc""],""line"":1},{""col"":31,""file"":[""headings-to-offset.adoc""],""line"":1}],""name"":""text"",""type"":""string"",""value"":""Starts as one, should be two""}],""type"":""block""}],""location"":[{""col"":1,""line"":1},{""col"":14,""file"":[""headings-to-offset.adoc""],""line"":5}],""name"":""document"",""type"":""block""}") = true.
Proof. vm_compute. reflexivity. Qed.

Example fixture_blocks_level_offset_relative :
  check_json (bs "tests/data/blocks") (bs ":leveloffset: +1

include::headings-to-offset.adoc[]

:leveloffset: -1

== This should be a level-one heading, outside the offset
") (bs "{""blocks"":[{""blocks"":[{""blocks"":[{""blocks"":[],""level"":4,""location"":[{""col"":1,""file"":[""headings-to-offset.adoc""],""line"":5},{""col"":14,""file"":[""headings-to-offset.adoc""],""line"":5}],""name"":""section"",""title"":[{""location"":[{""col"":6,""file"":[""headings-to-offset.adoc""],""line"":5},{""col"":14,""file"":[""headings-to-offset.adoc""],""line"":5}],""name"":""text"",""type"":""string"",""value"":""And so on""}],""type"":""block""}],""level"":3,""location"":[{""col"":1,""file"":[""headings-to-offset.adoc""],""line"":3},{""col"":14,""file"":[""headings-to-offset.adoc""],""line"":5}],""name"":""section"",""title"":[{""location"":[{""col"":5,""file"":[""headings-to-offset.adoc""],""line"":3},{""col"":34,""file"":[""headings-to-offset.adoc""],""line"":3}],""name"":""text"",""type"":""string"",""value"":""Starts as two, should be three""}],""type"":""block""}],""level"":2,""location"":[{""col"":1,""file"":[""headings-to-offset.adoc""],""line"":1},{""col"":14,""file"":[""headings-to-offset.adoc""],""line"":5}],""name"":""section"",""title"":[{""location"":[{""col"":4,""file"":[""headings-to-offset.adoc""],""line"":1},{""col"":31,""file"":[""headings-to-offset.adoc""],""line"":1}],""name"":""text"",""type"":""string"",""value"":""Starts as one, should be two""}],""type"":""block""},{""blocks"":[],""level"":1,""location"":[{""col"":1,""line"":7},{""col"":57,""line"":7}],""name"":""section"",""title"":[{""location"":[{""col"":4,""line"":7},{""col"":57,""line"":7}],""name"":""text"",""type"":""string"",""value"":""This should be a level-one heading, outside the offset""}],""type"":""block""}],""location"":[{""col"":1,""line"":1},{""col"":57,""line"":7}],""name"":""document"",""type"":""block""}") = true.
Proof. vm_compute. reflexivity. Qed.

Example fixture_blocks_literal :
  check_json (bs "tests/data/blocks") (bs "....
And, as I am an *honest* Puck,
If we have unearned luck
Now to 'scape the serpent's tongue,
We will make amends ere long;
Else the Puck a liar call;
So, good night unto you all.
....
") (bs "{""blocks"":[{""delimiter"":""...."",""form"":""delimited"",""inlines"":[{""location"":[{""col"":5,""line"":1},{""col"":29,""line"":7}],""name"":""text"",""type"":""string"",""value"":""\nAnd, as I am an *honest* Puck,\nIf we have unearned luck\nNow to 'scape the serpent's tongue,\nWe will make amends ere long;\nElse the Puck a liar call;\nSo, good night unto you all.\n""}],""location"":[{""col"":1,""line"":1},{""col"":4,""line"":8}],""name"":""literal"",""type"":""block""}],""location"":[{""col"":1,""line"":1},{""col"":4,""line"":8}],""name"":""document"",""type"":""block""}") = true.
Proof. vm_compute. reflexivity. Qed.

Example fixture_blocks_metadata_role_para :
  check_json (bs "tests/data/blocks") (bs "[role=""example""]
A paragraph may consist of a single line.
") (bs "{""blocks"":[{""inlines"":[{""location"":[{""col"":1,""line"":2},{""col"":41,""line"":2}],""name"":""text"",""type"":""string"",""value"":""A paragraph may consist of a single line.""}],""location"":[{""col"":1,""line"":2},{""col"":41,""line"":2}],""metadata"":{""attributes"":{},""location"":[{""col"":1,""line"":1},{""col"":16,""line"":1}],""options"":[],""roles"":[""example""]},""name"":""paragraph"",""type"":""block""}],""location"":[{""col"":1,""line"":1},{""col"":41,""line"":2}],""name"":""document"",""type"":""block""}") = true.
Proof. vm_compute. reflexivity. Qed.

Example fixture_blocks_metadata_source_lang :
  check_json (bs "tests/data/blocks") (bs "[source, py]
----
def hello():
    print(""Hello, world!"")
----
") (bs "{""blocks"":[{""delimiter"":""----"",""form"":""delimited"",""inlines"":[{""location"":[{""col"":5,""line"":2},{""col"":27,""line"":4}],""name"":""text"",""type"":""string"",""value"":""\ndef hello():\n    print(\""Hello, world!\"")\n""}],""location"":[{""col"":1,""line"":2},{""col"":4,""line"":5}],""metadata"":{""attributes"":{""language"":""py""},""location"":[{""col"":1,""line"":1},{""col"":12,""line"":1}],""options"":[],""roles"":[]},""name"":""listing"",""type"":""block""}],""location"":[{""col"":1,""line"":1},{""col"":4,""line"":5}],""name"":""document"",""type"":""block""}") = true.
Proof. vm_compute. reflexivity. Qed.

Example fixture_blocks_nested_headings_multiple :
  check_json (bs "tests/data/blocks") (bs "== Section Title

Contents

=== Nested Section Title

Contents of nested

=== Nested Section Title

Contents of nested at same level
") (bs "{""blocks"":[{""blocks"":[{""inlines"":[{""location"":[{""col"":1,""line"":3},{""col"":8,""line"":3}],""name"":""text"",""type"":""string"",""value"":""Contents""}],""location"":[{""col"":1,""line"":3},{""col"":8,""line"":3}],""name"":""paragraph"",""type"":""block""},{""blocks"":[{""inlines"":[{""location"":[{""col"":1,""line"":7},{""col"":18,""line"":7}],""name"":""text"",""type"":""string"",""value"":""Contents of nested""}],""location"":[{""col"":1,""line"":7},{""col"":18,""line"":7}],""name"":""paragraph"",""type"":""block""}],""level"":2,""location"":[{""col"":1,""line"":5},{""col"":18,""line"":7}],""name"":""section"",""title"":[{""location"":[{""col"":5,""line"":5},{""col"":24,""line"":5}],""name"":""text"",""type"":""string"",""value"":""Nested Section Title""}],""type"":""block""},{""blocks"":[{""inlines"":[{""location"":[{""col"":1,""line"":11},{""col"":32,""line"":11}],""name"":""text"",""type"":""string"",""value"":""Contents of nested at same level""}],""location"":[{""col"":1,""line"":11},{""col"":32,""line"":11}],""name"":""paragraph"",""type"":""block""}],""level"":2,""location"":[{""col"":1,""line"":9},{""col"":32,""line"":11}],""name"":""section"",""title"":[{""location"":[{""col"":5,""line"":9},{""col"":24,""line"":9}],""name"":""text"",""type"":""string"",""value"":""Nested Section Title""}],""type"":""block""}],""level"":1,""location"":[{""col"":1,""line"":1},{""col"":32,""line"":11}],""name"":""section"",""title"":[{""location"":[{""col"":4,""line"":1},{""col"":16,""line"":1}],""name"":""text"",""type"":""string"",""value"":""Section Title""}],""type"":""block""}],""location"":[{""col"":1,""line"":1},{""col"":32,""line"":11}],""name"":""document"",""type"":""block""}") = true.
Proof. vm_compute. reflexivity. Qed.

Example fixture_blocks_nested_headings :
  check_json (bs "tests/data/blocks") (bs "== Section Title

Contents of first section.

=== Nested Section Title

Contents of nested section.
") (bs "{""blocks"":[{""blocks"":[{""inlines"":[{""location"":[{""col"":1,""line"":3},{""col"":26,""line"":3}],""name"":""text"",""type"":""string"",""value"":""Contents of first section.""}],""location"":[{""col"":1,""line"":3},{""col"":26,""line"":3}],""name"":""paragraph"",""type"":""block""},{""blocks"":[{""inlines"":[{""location"":[{""col"":1,""line"":7},{""col"":27,""line"":7}],""name"":""text"",""type"":""string"",""value"":""Contents of nested section.""}],""location"":[{""col"":1,""line"":7},{""col"":27,""line"":7}],""name"":""paragraph"",""type"":""block""}],""level"":2,""location"":[{""col"":1,""line"":5},{""col"":27,""line"":7}],""name"":""section"",""title"":[{""location"":[{""col"":5,""line"":5},{""col"":24,""line"":5}],""name"":""text"",""type"":""string"",""value"":""Nested Section Title""}],""type"":""block""}],""level"":1,""location"":[{""col"":1,""line"":1},{""col"":27,""line"":7}],""name"":""section"",""title"":[{""location"":[{""col"":4,""line"":1},{""col"":16,""line"":1}],""name"":""text"",""type"":""string"",""value"":""Section Title""}],""type"":""block""}],""location"":[{""col"":1,""line"":1},{""col"":27,""line"":7}],""name"":""document"",""type"":""block""}") = true.
Proof. vm_compute. reflexivity. Qed.

Example fixture_blocks_ordered_list_many_items :
  check_json (bs "tests/data/blocks") (bs ". rusty
. water
. is cool
. to drink
") (bs "{""blocks"":[{""items"":[{""location"":[{""col"":1,""line"":1},{""col"":7,""line"":1}],""marker"":""."",""name"":""listItem"",""principal"":[{""location"":[{""col"":3,""line"":1},{""col"":7,""line"":1}],""name"":""text"",""type"":""string"",""value"":""rusty""}],""type"":""block""},{""location"":[{""col"":1,""line"":2},{""col"":7,""line"":2}],""marker"":""."",""name"":""listItem"",""principal"":[{""location"":[{""col"":3,""line"":2},{""col"":7,""line"":2}],""name"":""text"",""type"":""string"",""value"":""water""}],""type"":""block""},{""location"":[{""col"":1,""line"":3},{""col"":9,""line"":3}],""marker"":""."",""name"":""listItem"",""principal"":[{""location"":[{""col"":3,""line"":3},{""col"":9,""line"":3}],""name"":""text"",""type"":""string"",""value"":""is cool""}],""type"":""block""},{""location"":[{""col"":1,""line"":4},{""col"":10,""line"":4}],""marker"":""."",""name"":""listItem"",""principal"":[{""location"":[{""col"":3,""line"":4},{""col"":10,""line"":4}],""name"":""text"",""type"":""string"",""value"":""to drink""}],""type"":""block""}],""location"":[{""col"":1,""line"":1},{""col"":10,""line"":4}],""marker"":""."",""name"":""list"",""type"":""block"",""variant"":""ordered""}],""location"":[{""col"":1,""line"":1},{""col"":10,""line"":4}],""name"":""document"",""type"":""block""}") = true.
Proof. vm_compute. reflexivity. Qed.

Example fixture_blocks_ordered_list :
  check_json (bs "tests/data/blocks") (bs ". rusty
") (bs "{""blocks"":[{""items"":[{""location"":[{""col"":1,""line"":1},{""col"":7,""line"":1}],""marker"":""."",""name"":""listItem"",""principal"":[{""location"":[{""col"":3,""line"":1},{""col"":7,""line"":1}],""name"":""text"",""type"":""string"",""value"":""rusty""}],""type"":""block""}],""location"":[{""col"":1,""line"":1},{""col"":7,""line"":1}],""marker"":""."",""name"":""list"",""type"":""block"",""variant"":""ordered""}],""location"":[{""col"":1,""line"":1},{""col"":7,""line"":1}],""name"":""document"",""type"":""block""}") = true.
Proof. vm_compute. reflexivity. Qed.

Example fixture_blocks_para_internal_line_break :
  check_json (bs "tests/data/blocks") (bs "This is just a test to see if things get combined. For example, this should all
be one inline.
") (bs "{""blocks"":[{""inlines"":[{""location"":[{""col"":1,""line"":1},{""col"":14,""line"":2}],""name"":""text"",""type"":""string"",""value"":""This is just a test to see if things get combined. For example, this should all\nbe one inline.""}],""location"":[{""col"":1,""line"":1},{""col"":14,""line"":2}],""name"":""paragraph"",""type"":""block""}],""location"":[{""col"":1,""line"":1},{""col"":14,""line"":2}],""name"":""document"",""type"":""block""}") = true.
Proof. vm_compute. reflexivity. Qed.

Example fixture_blocks_para_single_line :
  check_json (bs "tests/data/blocks") (bs "A paragraph may consist of a single line.
") (bs "{""blocks"":[{""inlines"":[{""location"":[{""col"":1,""line"":1},{""col"":41,""line"":1}],""name"":""text"",""type"":""string"",""value"":""A paragraph may consist of a single line.""}],""location"":[{""col"":1,""line"":1},{""col"":41,""line"":1}],""name"":""paragraph"",""type"":""block""}],""location"":[{""col"":1,""line"":1},{""col"":41,""line"":1}],""name"":""document"",""type"":""block""}") = true.
Proof. vm_compute. reflexivity. Qed.

Example fixture_blocks_para_two_paras_line_between :
  check_json (bs "tests/data/blocks") (bs "This document has two paragraphs.


Paragraphs may be separated by one or more empty lines.
") (bs "{""blocks"":[{""inlines"":[{""location"":[{""col"":1,""line"":1},{""col"":33,""line"":1}],""name"":""text"",""type"":""string"",""value"":""This document has two paragraphs.""}],""location"":[{""col"":1,""line"":1},{""col"":33,""line"":1}],""name"":""paragraph"",""type"":""block""},{""inlines"":[{""location"":[{""col"":1,""line"":4},{""col"":55,""line"":4}],""name"":""text"",""type"":""string"",""value"":""Paragraphs may be separated by one or more empty lines.""}],""location"":[{""col"":1,""line"":4},{""col"":55,""line"":4}],""name"":""paragraph"",""type"":""block""}],""location"":[{""col"":1,""line"":1},{""col"":55,""line"":4}],""name"":""document"",""type"":""block""}") = true.
Proof. vm_compute. reflexivity. Qed.

Example fixture_blocks_quotes_no_delimiter :
  check_json (bs "tests/data/blocks") (bs "[quote]
Whoever said ""may you live in interesting times"" was overly optimistic.
") (bs "{""blocks"":[{""blocks"":[{""inlines"":[{""location"":[{""col"":1,""line"":2},{""col"":71,""line"":2}],""name"":""text"",""type"":""string"",""value"":""Whoever said \""may you live in interesting times\"" was overly optimistic.""}],""location"":[{""col"":1,""line"":2},{""col"":71,""line"":2}],""name"":""paragraph"",""type"":""block""}],""form"":""delimited"",""location"":[{""col"":1,""line"":2},{""col"":71,""line"":2}],""name"":""quote"",""type"":""block""}],""location"":[{""col"":1,""line"":1},{""col"":71,""line"":2}],""name"":""document"",""type"":""block""}") = true.
Proof. vm_compute. reflexivity. Qed.

Example fixture_blocks_table_cols_implicit :
  check_json (bs "tests/data/blocks") (bs "|===

|Cell in column 1, row 1 |Cell in column 2, row 1 
|Cell in column 1, row 2 |Cell in column 2, row 2
|Cell in column 1, row 3 |Cell in column 2, row 3 
|===
") (bs "{""blocks"":[{""blocks"":[{""inlines"":[{""location"":[{""col"":2,""line"":3},{""col"":25,""line"":3}],""name"":""text"",""type"":""string"",""value"":""Cell in column 1, row 1 ""}],""location"":[{""col"":1,""line"":3},{""col"":25,""line"":3}],""name"":""tableCell"",""node_type"":""block""},{""inlines"":[{""location"":[{""col"":27,""line"":3},{""col"":50,""line"":3}],""name"":""text"",""type"":""string"",""value"":""Cell in column 2, row 1 ""}],""location"":[{""col"":26,""line"":3},{""col"":50,""line"":3}],""name"":""tableCell"",""node_type"":""block""},{""inlines"":[{""location"":[{""col"":2,""line"":4},{""col"":25,""line"":4}],""name"":""text"",""type"":""string"",""value"":""Cell in column 1, row 2 ""}],""location"":[{""col"":1,""line"":4},{""col"":25,""line"":4}],""name"":""tableCell"",""node_type"":""block""},{""inlines"":[{""location"":[{""col"":27,""line"":4},{""col"":49,""line"":4}],""name"":""text"",""type"":""string"",""value"":""Cell in column 2, row 2""}],""location"":[{""col"":26,""line"":4},{""col"":49,""line"":4}],""name"":""tableCell"",""node_type"":""block""},{""inlines"":[{""location"":[{""col"":2,""line"":5},{""col"":25,""line"":5}],""name"":""text"",""type"":""string"",""value"":""Cell in column 1, row 3 ""}],""location"":[{""col"":1,""line"":5},{""col"":25,""line"":5}],""name"":""tableCell"",""node_type"":""block""},{""inlines"":[{""location"":[{""col"":27,""line"":5},{""col"":50,""line"":5}],""name"":""text"",""type"":""string"",""value"":""Cell in column 2, row 3 ""}],""location"":[{""col"":26,""line"":5},{""col"":50,""line"":5}],""name"":""tableCell"",""node_type"":""block""}],""delimiter"":""|==="",""form"":""delimited"",""location"":[{""col"":1,""line"":1},{""col"":4,""line"":6}],""metadata"":{""attributes"":{""cols"":""2""},""location"":[],""options"":[],""roles"":[]},""name"":""table"",""type"":""block""}],""location"":[{""col"":1,""line"":1},{""col"":4,""line"":6}],""name"":""document"",""type"":""block""}") = true.
Proof. vm_compute. reflexivity. Qed.

Example fixture_blocks_table_cols_star_header_opt :
  check_json (bs "tests/data/blocks") (bs "[cols=""2*"",options=""header""]
|===
|Column 1, header row
|Column 2, header row

|Cell in column 1, row 2
|Cell in column 2, row 2

|Cell in column 1, row 3
|Cell in column 2, row 3
|===
") (bs "{""blocks"":[{""blocks"":[{""inlines"":[{""location"":[{""col"":2,""line"":3},{""col"":21,""line"":3}],""name"":""text"",""type"":""string"",""value"":""Column 1, header row""}],""location"":[{""col"":1,""line"":3},{""col"":21,""line"":3}],""name"":""tableCell"",""node_type"":""block""},{""inlines"":[{""location"":[{""col"":2,""line"":4},{""col"":21,""line"":4}],""name"":""text"",""type"":""string"",""value"":""Column 2, header row""}],""location"":[{""col"":1,""line"":4},{""col"":21,""line"":4}],""name"":""tableCell"",""node_type"":""block""},{""inlines"":[{""location"":[{""col"":2,""line"":6},{""col"":24,""line"":6}],""name"":""text"",""type"":""string"",""value"":""Cell in column 1, row 2""}],""location"":[{""col"":1,""line"":6},{""col"":24,""line"":6}],""name"":""tableCell"",""node_type"":""block""},{""inlines"":[{""location"":[{""col"":2,""line"":7},{""col"":24,""line"":7}],""name"":""text"",""type"":""string"",""value"":""Cell in column 2, row 2""}],""location"":[{""col"":1,""line"":7},{""col"":24,""line"":7}],""name"":""tableCell"",""node_type"":""block""},{""inlines"":[{""location"":[{""col"":2,""line"":9},{""col"":24,""line"":9}],""name"":""text"",""type"":""string"",""value"":""Cell in column 1, row 3""}],""location"":[{""col"":1,""line"":9},{""col"":24,""line"":9}],""name"":""tableCell"",""node_type"":""block""},{""inlines"":[{""location"":[{""col"":2,""line"":10},{""col"":24,""line"":10}],""name"":""text"",""type"":""string"",""value"":""Cell in column 2, row 3""}],""location"":[{""col"":1,""line"":10},{""col"":24,""line"":10}],""name"":""tableCell"",""node_type"":""block""}],""delimiter"":""|==="",""form"":""delimited"",""location"":[{""col"":1,""line"":2},{""col"":4,""line"":11}],""metadata"":{""attributes"":{""cols"":""2"",""options"":""header""},""location"":[{""col"":1,""line"":1},{""col"":28,""line"":1}],""options"":[],""roles"":[]},""name"":""table"",""type"":""block""}],""location"":[{""col"":1,""line"":1},{""col"":4,""line"":11}],""name"":""document"",""type"":""block""}") = true.
Proof. vm_compute. reflexivity. Qed.

Example fixture_blocks_table_header_implicit :
  check_json (bs "tests/data/blocks") (bs "[cols=""1,1""]
|===
|Column 1, header row |Column 2, header row

|Cell in column 1, row 2
|Cell in column 2, row 2

|Cell in column 1, row 3
|Cell in column 2, row 3
|===
") (bs "{""blocks"":[{""blocks"":[{""inlines"":[{""location"":[{""col"":2,""line"":3},{""col"":22,""line"":3}],""name"":""text"",""type"":""string"",""value"":""Column 1, header row ""}],""location"":[{""col"":1,""line"":3},{""col"":22,""line"":3}],""name"":""tableCell"",""node_type"":""block""},{""inlines"":[{""location"":[{""col"":24,""line"":3},{""col"":43,""line"":3}],""name"":""text"",""type"":""string"",""value"":""Column 2, header row""}],""location"":[{""col"":23,""line"":3},{""col"":43,""line"":3}],""name"":""tableCell"",""node_type"":""block""},{""inlines"":[{""location"":[{""col"":2,""line"":5},{""col"":24,""line"":5}],""name"":""text"",""type"":""string"",""value"":""Cell in column 1, row 2""}],""location"":[{""col"":1,""line"":5},{""col"":24,""line"":5}],""name"":""tableCell"",""node_type"":""block""},{""inlines"":[{""location"":[{""col"":2,""line"":6},{""col"":24,""line"":6}],""name"":""text"",""type"":""string"",""value"":""Cell in column 2, row 2""}],""location"":[{""col"":1,""line"":6},{""col"":24,""line"":6}],""name"":""tableCell"",""node_type"":""block""},{""inlines"":[{""location"":[{""col"":2,""line"":8},{""col"":24,""line"":8}],""name"":""text"",""type"":""string"",""value"":""Cell in column 1, row 3""}],""location"":[{""col"":1,""line"":8},{""col"":24,""line"":8}],""name"":""tableCell"",""node_type"":""block""},{""inlines"":[{""location"":[{""col"":2,""line"":9},{""col"":24,""line"":9}],""name"":""text"",""type"":""string"",""value"":""Cell in column 2, row 3""}],""location"":[{""col"":1,""line"":9},{""col"":24,""line"":9}],""name"":""tableCell"",""node_type"":""block""}],""delimiter"":""|==="",""form"":""delimited"",""location"":[{""col"":1,""line"":2},{""col"":4,""line"":10}],""metadata"":{""attributes"":{""cols"":""2""},""location"":[{""col"":1,""line"":1},{""col"":12,""line"":1}],""options"":[""header""],""roles"":[]},""name"":""table"",""type"":""block""}],""location"":[{""col"":1,""line"":1},{""col"":4,""line"":10}],""name"":""document"",""type"":""block""}") = true.
Proof. vm_compute. reflexivity. Qed.

Example fixture_blocks_table_simple :
  check_json (bs "tests/data/blocks") (bs "[cols=""1,1""]
|===
|Cell in *column* 1, *row* 1 
|Cell in column 2, row 1 

|Cell in column 1, row 2
|Cell in column 2, row 2

|Cell in column 1, row 3
|Cell in column 2, row 3 
|===
") (bs "{""blocks"":[{""blocks"":[{""inlines"":[{""location"":[{""col"":2,""line"":3},{""col"":9,""line"":3}],""name"":""text"",""type"":""string"",""value"":""Cell in ""},{""form"":""constrained"",""inlines"":[{""location"":[{""col"":11,""line"":3},{""col"":16,""line"":3}],""name"":""text"",""type"":""string"",""value"":""column""}],""location"":[{""col"":10,""line"":3},{""col"":17,""line"":3}],""name"":""span"",""type"":""inline"",""variant"":""strong""},{""location"":[{""col"":18,""line"":3},{""col"":21,""line"":3}],""name"":""text"",""type"":""string"",""value"":"" 1, ""},{""form"":""constrained"",""inlines"":[{""location"":[{""col"":23,""line"":3},{""col"":25,""line"":3}],""name"":""text"",""type"":""string"",""value"":""row""}],""location"":[{""col"":22,""line"":3},{""col"":26,""line"":3}],""name"":""span"",""type"":""inline"",""variant"":""strong""},{""location"":[{""col"":27,""line"":3},{""col"":29,""line"":3}],""name"":""text"",""type"":""string"",""value"":"" 1 ""}],""location"":[{""col"":1,""line"":3},{""col"":29,""line"":3}],""name"":""tableCell"",""node_type"":""block""},{""inlines"":[{""location"":[{""col"":2,""line"":4},{""col"":25,""line"":4}],""name"":""text"",""type"":""string"",""value"":""Cell in column 2, row 1 ""}],""location"":[{""col"":1,""line"":4},{""col"":25,""line"":4}],""name"":""tableCell"",""node_type"":""block""},{""inlines"":[{""location"":[{""col"":2,""line"":6},{""col"":24,""line"":6}],""name"":""text"",""type"":""string"",""value"":""Cell in column 1, row 2""}],""location"":[{""col"":1,""line"":6},{""col"":24,""line"":6}],""name"":""tableCell"",""node_type"":""block""},{""inlines"":[{""location"":[{""col"":2,""line"":7},{""col"":24,""line"":7}],""name"":""text"",""type"":""string"",""value"":""Cell in column 2, row 2""}],""location"":[{""col"":1,""line"":7},{""col"":24,""line"":7}],""name"":""tableCell"",""node_type"":""block""},{""inlines"":[{""location"":[{""col"":2,""line"":9},{""col"":24,""line"":9}],""name"":""text"",""type"":""string"",""value"":""Cell in column 1, row 3""}],""location"":[{""col"":1,""line"":9},{""col"":24,""line"":9}],""name"":""tableCell"",""node_type"":""block""},{""inlines"":[{""location"":[{""col"":2,""line"":10},{""col"":25,""line"":10}],""name"":""text"",""type"":""string"",""value"":""Cell in column 2, row 3 ""}],""location"":[{""col"":1,""line"":10},{""col"":25,""line"":10}],""name"":""tableCell"",""node_type"":""block""}],""delimiter"":""|==="",""form"":""delimited"",""location"":[{""col"":1,""line"":2},{""col"":4,""line"":11}],""metadata"":{""attributes"":{""cols"":""2""},""location"":[{""col"":1,""line"":1},{""col"":12,""line"":1}],""options"":[],""roles"":[]},""name"":""table"",""type"":""block""}],""location"":[{""col"":1,""line"":1},{""col"":4,""line"":11}],""name"":""document"",""type"":""block""}") = true.
Proof. vm_compute. reflexivity. Qed.

Example fixture_blocks_table_with_caption_id :
  check_json (bs "tests/data/blocks") (bs "[[example_table]]
.Some table caption
[options=""header""]
|===
|Col 1 |Col 2 | Col 3
|Col 1 |Col 2 | Col 3
|===
") (bs "{""blocks"":[{""blocks"":[{""inlines"":[{""location"":[{""col"":2,""line"":5},{""col"":7,""line"":5}],""name"":""text"",""type"":""string"",""value"":""Col 1 ""}],""location"":[{""col"":1,""line"":5},{""col"":7,""line"":5}],""name"":""tableCell"",""node_type"":""block""},{""inlines"":[{""location"":[{""col"":9,""line"":5},{""col"":14,""line"":5}],""name"":""text"",""type"":""string"",""value"":""Col 2 ""}],""location"":[{""col"":8,""line"":5},{""col"":14,""line"":5}],""name"":""tableCell"",""node_type"":""block""},{""inlines"":[{""location"":[{""col"":16,""line"":5},{""col"":21,""line"":5}],""name"":""text"",""type"":""string"",""value"":"" Col 3""}],""location"":[{""col"":15,""line"":5},{""col"":21,""line"":5}],""name"":""tableCell"",""node_type"":""block""},{""inlines"":[{""location"":[{""col"":2,""line"":6},{""col"":7,""line"":6}],""name"":""text"",""type"":""string"",""value"":""Col 1 ""}],""location"":[{""col"":1,""line"":6},{""col"":7,""line"":6}],""name"":""tableCell"",""node_type"":""block""},{""inlines"":[{""location"":[{""col"":9,""line"":6},{""col"":14,""line"":6}],""name"":""text"",""type"":""string"",""value"":""Col 2 ""}],""location"":[{""col"":8,""line"":6},{""col"":14,""line"":6}],""name"":""tableCell"",""node_type"":""block""},{""inlines"":[{""location"":[{""col"":16,""line"":6},{""col"":21,""line"":6}],""name"":""text"",""type"":""string"",""value"":"" Col 3""}],""location"":[{""col"":15,""line"":6},{""col"":21,""line"":6}],""name"":""tableCell"",""node_type"":""block""}],""delimiter"":""|==="",""form"":""delimited"",""location"":[{""col"":1,""line"":4},{""col"":4,""line"":7}],""metadata"":{""attributes"":{""cols"":""3"",""id"":""example_table"",""options"":""header""},""location"":[{""col"":1,""line"":1},{""col"":17,""line"":1}],""options"":[""header""],""roles"":[]},""name"":""table"",""title"":[{""location"":[{""col"":2,""line"":2},{""col"":19,""line"":2}],""name"":""text"",""type"":""string"",""value"":""Some table caption""}],""type"":""block""}],""location"":[{""col"":1,""line"":1},{""col"":4,""line"":7}],""name"":""document"",""type"":""block""}") = true.
Proof. vm_compute. reflexivity. Qed.

Example fixture_blocks_unordered_list_complex_open_block :
  check_json (bs "tests/data/blocks") (bs "* item
+
--
foo
--
") (bs "{""blocks"":[{""items"":[{""blocks"":[{""blocks"":[{""inlines"":[{""location"":[{""col"":1,""line"":4},{""col"":3,""line"":4}],""name"":""text"",""type"":""string"",""value"":""foo""}],""location"":[{""col"":1,""line"":4},{""col"":3,""line"":4}],""name"":""paragraph"",""type"":""block""}],""delimiter"":""--"",""form"":""delimited"",""location"":[{""col"":1,""line"":3},{""col"":2,""line"":5}],""name"":""open"",""type"":""block""}],""location"":[{""col"":1,""line"":1},{""col"":2,""line"":5}],""marker"":""*"",""name"":""listItem"",""principal"":[{""location"":[{""col"":3,""line"":1},{""col"":6,""line"":1}],""name"":""text"",""type"":""string"",""value"":""item""}],""type"":""block""}],""location"":[{""col"":1,""line"":1},{""col"":2,""line"":5}],""marker"":""*"",""name"":""list"",""type"":""block"",""variant"":""unordered""}],""location"":[{""col"":1,""line"":1},{""col"":2,""line"":5}],""name"":""document"",""type"":""block""}") = true.
Proof. vm_compute. reflexivity. Qed.

Example fixture_blocks_unordered_list_complex :
  check_json (bs "tests/data/blocks") (bs "* rusty
* water
* is cool
* to drink
  I hear
+
A paragraph may consist of a single line.
") (bs "{""blocks"":[{""items"":[{""location"":[{""col"":1,""line"":1},{""col"":7,""line"":1}],""marker"":""*"",""name"":""listItem"",""principal"":[{""location"":[{""col"":3,""line"":1},{""col"":7,""line"":1}],""name"":""text"",""type"":""string"",""value"":""rusty""}],""type"":""block""},{""location"":[{""col"":1,""line"":2},{""col"":7,""line"":2}],""marker"":""*"",""name"":""listItem"",""principal"":[{""location"":[{""col"":3,""line"":2},{""col"":7,""line"":2}],""name"":""text"",""type"":""string"",""value"":""water""}],""type"":""block""},{""location"":[{""col"":1,""line"":3},{""col"":9,""line"":3}],""marker"":""*"",""name"":""listItem"",""principal"":[{""location"":[{""col"":3,""line"":3},{""col"":9,""line"":3}],""name"":""text"",""type"":""string"",""value"":""is cool""}],""type"":""block""},{""blocks"":[{""inlines"":[{""location"":[{""col"":1,""line"":7},{""col"":41,""line"":7}],""name"":""text"",""type"":""string"",""value"":""A paragraph may consist of a single line.""}],""location"":[{""col"":1,""line"":7},{""col"":41,""line"":7}],""name"":""paragraph"",""type"":""block""}],""location"":[{""col"":1,""line"":4},{""col"":41,""line"":7}],""marker"":""*"",""name"":""listItem"",""principal"":[{""location"":[{""col"":3,""line"":4},{""col"":8,""line"":5}],""name"":""text"",""type"":""string"",""value"":""to drink\n  I hear""}],""type"":""block""}],""location"":[{""col"":1,""line"":1},{""col"":41,""line"":7}],""marker"":""*"",""name"":""list"",""type"":""block"",""variant"":""unordered""}],""location"":[{""col"":1,""line"":1},{""col"":41,""line"":7}],""name"":""document"",""type"":""block""}") = true.
Proof. vm_compute. reflexivity. Qed.

Example fixture_blocks_unordered_list_many_items :
  check_json (bs "tests/data/blocks") (bs "* rusty
* water
* is cool
* to drink



") (bs "{""blocks"":[{""items"":[{""location"":[{""col"":1,""line"":1},{""col"":7,""line"":1}],""marker"":""*"",""name"":""listItem"",""principal"":[{""location"":[{""col"":3,""line"":1},{""col"":7,""line"":1}],""name"":""text"",""type"":""string"",""value"":""rusty""}],""type"":""block""},{""location"":[{""col"":1,""line"":2},{""col"":7,""line"":2}],""marker"":""*"",""name"":""listItem"",""principal"":[{""location"":[{""col"":3,""line"":2},{""col"":7,""line"":2}],""name"":""text"",""type"":""string"",""value"":""water""}],""type"":""block""},{""location"":[{""col"":1,""line"":3},{""col"":9,""line"":3}],""marker"":""*"",""name"":""listItem"",""principal"":[{""location"":[{""col"":3,""line"":3},{""col"":9,""line"":3}],""name"":""text"",""type"":""string"",""value"":""is cool""}],""type"":""block""},{""location"":[{""col"":1,""line"":4},{""col"":10,""line"":4}],""marker"":""*"",""name"":""listItem"",""principal"":[{""location"":[{""col"":3,""line"":4},{""col"":10,""line"":4}],""name"":""text"",""type"":""string"",""value"":""to drink""}],""type"":""block""}],""location"":[{""col"":1,""line"":1},{""col"":10,""line"":4}],""marker"":""*"",""name"":""list"",""type"":""block"",""variant"":""unordered""}],""location"":[{""col"":1,""line"":1},{""col"":10,""line"":4}],""name"":""document"",""type"":""block""}") = true.
Proof. vm_compute. reflexivity. Qed.

Example fixture_blocks_unordered_list :
  check_json (bs "tests/data/blocks") (bs "* rusty
") (bs "{""blocks"":[{""items"":[{""location"":[{""col"":1,""line"":1},{""col"":7,""line"":1}],""marker"":""*"",""name"":""listItem"",""principal"":[{""location"":[{""col"":3,""line"":1},{""col"":7,""line"":1}],""name"":""text"",""type"":""string"",""value"":""rusty""}],""type"":""block""}],""location"":[{""col"":1,""line"":1},{""col"":7,""line"":1}],""marker"":""*"",""name"":""list"",""type"":""block"",""variant"":""unordered""}],""location"":[{""col"":1,""line"":1},{""col"":7,""line"":1}],""name"":""document"",""type"":""block""}") = true.
Proof. vm_compute. reflexivity. Qed.

Example fixture_blocks_verse :
  check_json (bs "tests/data/blocks") (bs "[verse]
____
And, as I am an honest Puck,
If we have unearned luck
Now to 'scape the serpent's tongue,
We will make amends ere long;
Else the Puck a liar call;
So, good night unto you all.
____
") (bs "{""blocks"":[{""delimiter"":""____"",""form"":""delimited"",""inlines"":[{""location"":[{""col"":1,""line"":3},{""col"":25,""line"":5}],""name"":""text"",""type"":""string"",""value"":""And, as I am an honest Puck,\nIf we have unearned luck\nNow to 'scape the serpent""},{""location"":[{""col"":26,""line"":5},{""col"":26,""line"":5}],""name"":""charref"",""type"":""string"",""value"":""&#8217;""},{""location"":[{""col"":27,""line"":5},{""col"":28,""line"":8}],""name"":""text"",""type"":""string"",""value"":""s tongue,\nWe will make amends ere long;\nElse the Puck a liar call;\nSo, good night unto you all.""}],""location"":[{""col"":1,""line"":2},{""col"":4,""line"":9}],""name"":""verse"",""type"":""block""}],""location"":[{""col"":1,""line"":1},{""col"":4,""line"":9}],""name"":""document"",""type"":""block""}") = true.
Proof. vm_compute. reflexivity. Qed.

Example fixture_documents_nested_includes :
  check_json (bs "tests/data/documents") (bs "Here is include:

include::../blocks/include.adoc[]

And after.
") (bs "{""blocks"":[{""inlines"":[{""location"":[{""col"":1,""line"":1},{""col"":16,""line"":1}],""name"":""text"",""type"":""string"",""value"":""Here is include:""}],""location"":[{""col"":1,""line"":1},{""col"":16,""line"":1}],""name"":""paragraph"",""type"":""block""},{""inlines"":[{""location"":[{""col"":1,""file"":[""../blocks/include.adoc""],""line"":1},{""col"":44,""file"":[""../blocks/include.adoc""],""line"":1}],""name"":""text"",""type"":""string"",""value"":""Here is a paragraph, followed by an include.""}],""location"":[{""col"":1,""file"":[""../blocks/include.adoc""],""line"":1},{""col"":44,""file"":[""../blocks/include.adoc""],""line"":1}],""name"":""paragraph"",""type"":""block""},{""blocks"":[{""inlines"":[{""location"":[{""col"":1,""file"":[""../blocks/include.adoc"",""nested-headings-multiple.adoc""],""line"":3},{""col"":8,""file"":[""../blocks/include.adoc"",""nested-headings-multiple.adoc""],""line"":3}],""name"":""text"",""type"":""string"",""value"":""Contents""}],""location"":[{""col"":1,""file"":[""../blocks/include.adoc"",""nested-headings-multiple.adoc""],""line"":3},{""col"":8,""file"":[""../blocks/include.adoc"",""nested-headings-multiple.adoc""],""line"":3}],""name"":""paragraph"",""type"":""block""},{""blocks"":[{""inlines"":[{""location"":[{""col"":1,""file"":[""../blocks/include.adoc"",""nested-headings-multiple.adoc""],""line"":7},{""col"":18,""file"":[""../blocks/include.adoc"",""nested-headings-multiple.adoc""],""line"":7}],""name"":""text"",""type"":""string"",""value"":""Contents of nested""}],""location"":[{""col"":1,""file"":[""../blocks/include.adoc"",""nested-headings-multiple.adoc""],""line"":7},{""col"":18,""file"":[""../blocks/include.adoc"",""nested-headings-multiple.adoc""],""line"":7}],""name"":""paragraph"",""type"":""block""}],""level"":2,""location"":[{""col"":1,""file"":[""../blocks/include.adoc"",""nested-headings-multiple.adoc""],""line"":5},{""col"":18,""file"":[""../blocks/include.adoc"",""nested-headings-multiple.adoc""],""line"":7}],""name"":""section"",""title"":[{""location"":[{""col"":5,""file"":[""../blocks/include.adoc"",""nested-headings-multiple.adoc""],""line"":5},{""col"":24,""file"":[""../blocks/include.adoc"",""nested-headings-multiple.adoc""],""line"":5}],""name"":""text"",""type"":""string"",""value"":""Nested Section Title""}],""type"":""block""},{""blocks"":[{""inlines"":[{""location"":[{""col"":1,""file"":[""../blocks/include.adoc"",""nested-headings-multiple.adoc""],""line"":11},{""col"":32,""file"":[""../blocks/include.adoc"",""nested-headings-multiple.adoc""],""line"":11}],""name"":""text"",""type"":""string"",""value"":""Contents of nested at same level""}],""location"":[{""col"":1,""file"":[""../blocks/include.adoc"",""nested-headings-multiple.adoc""],""line"":11},{""col"":32,""file"":[""../blocks/include.adoc"",""nested-headings-multiple.adoc""],""line"":11}],""name"":""paragraph"",""type"":""block""}],""level"":2,""location"":[{""col"":1,""file"":[""../blocks/include.adoc"",""nested-headings-multiple.adoc""],""line"":9},{""col"":32,""file"":[""../blocks/include.adoc"",""nested-headings-multiple.adoc""],""line"":11}],""name"":""section"",""title"":[{""location"":[{""col"":5,""file"":[""../blocks/include.adoc"",""nested-headings-multiple.adoc""],""line"":9},{""col"":24,""file"":[""../blocks/include.adoc"",""nested-headings-multiple.adoc""],""line"":9}],""name"":""text"",""type"":""string"",""value"":""Nested Section Title""}],""type"":""block""}],""level"":1,""location"":[{""col"":1,""file"":[""../blocks/include.adoc"",""nested-headings-multiple.adoc""],""line"":1},{""col"":32,""file"":[""../blocks/include.adoc"",""nested-headings-multiple.adoc""],""line"":11}],""name"":""section"",""title"":[{""location"":[{""col"":4,""file"":[""../blocks/include.adoc"",""nested-headings-multiple.adoc""],""line"":1},{""col"":16,""file"":[""../blocks/include.adoc"",""nested-headings-multiple.adoc""],""line"":1}],""name"":""text"",""type"":""string"",""value"":""Section Title""}],""type"":""block""},{""inlines"":[{""location"":[{""col"":1,""file"":[""../blocks/include.adoc""],""line"":6},{""col"":54,""file"":[""../blocks/include.adoc""],""line"":6}],""name"":""text"",""type"":""string"",""value"":""And then some final content back in the original file.""}],""location"":[{""col"":1,""file"":[""../blocks/include.adoc""],""line"":6},{""col"":54,""file"":[""../blocks/include.adoc""],""line"":6}],""name"":""paragraph"",""type"":""block""},{""inlines"":[{""location"":[{""col"":1,""line"":5},{""col"":10,""line"":5}],""name"":""text"",""type"":""string"",""value"":""And after.""}],""location"":[{""col"":1,""line"":5},{""col"":10,""line"":5}],""name"":""paragraph"",""type"":""block""}],""location"":[{""col"":1,""line"":1},{""col"":10,""line"":5}],""name"":""document"",""type"":""block""}") = true.
Proof. vm_compute. reflexivity. Qed.

Example fixture_documents_references_include_fig :
  check_json (bs "tests/data/documents") (bs "This is a reference to a figure in an included file, namely <<image_id>>.

include::../blocks/image-block-figure.adoc[]
") (bs "{""blocks"":[{""inlines"":[{""location"":[{""col"":1,""line"":1},{""col"":60,""line"":1}],""name"":""text"",""type"":""string"",""value"":""This is a reference to a figure in an included file, namely ""},{""inlines"":[{""location"":[{""col"":2,""file"":[""../blocks/image-block-figure.adoc""],""line"":2},{""col"":13,""file"":[""../blocks/image-block-figure.adoc""],""line"":2}],""name"":""text"",""type"":""string"",""value"":""Figure Title""}],""location"":[{""col"":61,""line"":1},{""col"":72,""line"":1}],""name"":""ref"",""target"":""image_id"",""type"":""inline"",""variant"":""xref""},{""location"":[{""col"":73,""line"":1},{""col"":73,""line"":1}],""name"":""text"",""type"":""string"",""value"":"".""}],""location"":[{""col"":1,""line"":1},{""col"":73,""line"":1}],""name"":""paragraph"",""type"":""block""},{""caption"":[{""location"":[{""col"":2,""file"":[""../blocks/image-block-figure.adoc""],""line"":2},{""col"":13,""file"":[""../blocks/image-block-figure.adoc""],""line"":2}],""name"":""text"",""type"":""string"",""value"":""Figure Title""}],""form"":""macro"",""location"":[{""col"":1,""file"":[""../blocks/image-block-figure.adoc""],""line"":3},{""col"":26,""file"":[""../blocks/image-block-figure.adoc""],""line"":3}],""metadata"":{""attributes"":{""id"":""image_id""},""location"":[{""col"":1,""file"":[""../blocks/image-block-figure.adoc""],""line"":1},{""col"":12,""file"":[""../blocks/image-block-figure.adoc""],""line"":1}],""options"":[],""roles"":[]},""name"":""image"",""target"":""path/to/image.png"",""type"":""block""}],""location"":[{""col"":1,""line"":1},{""col"":26,""file"":[""../blocks/image-block-figure.adoc""],""line"":3}],""name"":""document"",""type"":""block""}") = true.
Proof. vm_compute. reflexivity. Qed.

Example fixture_documents_references_missing :
  check_json (bs "tests/data/documents") (bs "This is a <<missing_reference>>.
") (bs "{""blocks"":[{""inlines"":[{""location"":[{""col"":1,""line"":1},{""col"":10,""line"":1}],""name"":""text"",""type"":""string"",""value"":""This is a ""},{""inlines"":[],""location"":[{""col"":11,""line"":1},{""col"":31,""line"":1}],""name"":""ref"",""target"":""missing_reference"",""type"":""inline"",""variant"":""xref""},{""location"":[{""col"":32,""line"":1},{""col"":32,""line"":1}],""name"":""text"",""type"":""string"",""value"":"".""}],""location"":[{""col"":1,""line"":1},{""col"":32,""line"":1}],""name"":""paragraph"",""type"":""block""}],""location"":[{""col"":1,""line"":1},{""col"":32,""line"":1}],""name"":""document"",""type"":""block""}") = true.
Proof. vm_compute. reflexivity. Qed.

Example fixture_documents_references_titles :
  check_json (bs "tests/data/documents") (bs "This is a reference to <<uuid>>.

[[uuid]]
== Some Title

Content.
") (bs "{""blocks"":[{""inlines"":[{""location"":[{""col"":1,""line"":1},{""col"":23,""line"":1}],""name"":""text"",""type"":""string"",""value"":""This is a reference to ""},{""inlines"":[{""location"":[{""col"":4,""line"":4},{""col"":13,""line"":4}],""name"":""text"",""type"":""string"",""value"":""Some Title""}],""location"":[{""col"":24,""line"":1},{""col"":31,""line"":1}],""name"":""ref"",""target"":""uuid"",""type"":""inline"",""variant"":""xref""},{""location"":[{""col"":32,""line"":1},{""col"":32,""line"":1}],""name"":""text"",""type"":""string"",""value"":"".""}],""location"":[{""col"":1,""line"":1},{""col"":32,""line"":1}],""name"":""paragraph"",""type"":""block""},{""blocks"":[{""inlines"":[{""location"":[{""col"":1,""line"":6},{""col"":8,""line"":6}],""name"":""text"",""type"":""string"",""value"":""Content.""}],""location"":[{""col"":1,""line"":6},{""col"":8,""line"":6}],""name"":""paragraph"",""type"":""block""}],""level"":1,""location"":[{""col"":1,""line"":4},{""col"":8,""line"":6}],""metadata"":{""attributes"":{""id"":""uuid""},""location"":[{""col"":1,""line"":3},{""col"":8,""line"":3}],""options"":[],""roles"":[]},""name"":""section"",""title"":[{""location"":[{""col"":4,""line"":4},{""col"":13,""line"":4}],""name"":""text"",""type"":""string"",""value"":""Some Title""}],""type"":""block""}],""location"":[{""col"":1,""line"":1},{""col"":8,""line"":6}],""name"":""document"",""type"":""block""}") = true.
Proof. vm_compute. reflexivity. Qed.

Example fixture_documents_title_dangling_span :
  check_json (bs "tests/data/documents") (bs "= This is Document #1

Content.
") (bs "{""attributes"":{},""blocks"":[{""inlines"":[{""location"":[{""col"":1,""line"":3},{""col"":8,""line"":3}],""name"":""text"",""type"":""string"",""value"":""Content.""}],""location"":[{""col"":1,""line"":3},{""col"":8,""line"":3}],""name"":""paragraph"",""type"":""block""}],""header"":{""location"":[{""col"":1,""line"":1},{""col"":21,""line"":1}],""title"":[{""location"":[{""col"":3,""line"":1},{""col"":21,""line"":1}],""name"":""text"",""type"":""string"",""value"":""This is Document #1""}]},""location"":[{""col"":1,""line"":1},{""col"":8,""line"":3}],""name"":""document"",""type"":""block""}") = true.
Proof. vm_compute. reflexivity. Qed.

Example fixture_documents_title_only :
  check_json (bs "tests/data/documents") (bs "= This is Just a Title
") (bs "{""attributes"":{},""blocks"":[],""header"":{""location"":[{""col"":1,""line"":1},{""col"":22,""line"":1}],""title"":[{""location"":[{""col"":3,""line"":1},{""col"":22,""line"":1}],""name"":""text"",""type"":""string"",""value"":""This is Just a Title""}]},""location"":[{""col"":1,""line"":1},{""col"":22,""line"":1}],""name"":""document"",""type"":""block""}") = true.
Proof. vm_compute. reflexivity. Qed.

Example fixture_inlines_attribute_ref :
  check_json (bs "tests/data/inlines") (bs ":cat: George

{cat}
") (bs "{""blocks"":[{""inlines"":[{""location"":[{""col"":1,""line"":3},{""col"":6,""line"":3}],""name"":""text"",""type"":""string"",""value"":""George""}],""location"":[{""col"":1,""line"":3},{""col"":6,""line"":3}],""name"":""paragraph"",""type"":""block""}],""location"":[{""col"":1,""line"":1},{""col"":6,""line"":3}],""name"":""document"",""type"":""block""}") = true.
Proof. vm_compute. reflexivity. Qed.

Example fixture_inlines_charrefs :
  check_json (bs "tests/data/inlines") (bs "bar &mdash; foo.
") (bs "{""blocks"":[{""inlines"":[{""location"":[{""col"":1,""line"":1},{""col"":4,""line"":1}],""name"":""text"",""type"":""string"",""value"":""bar ""},{""location"":[{""col"":5,""line"":1},{""col"":11,""line"":1}],""name"":""charref"",""type"":""string"",""value"":""&mdash;""},{""location"":[{""col"":12,""line"":1},{""col"":16,""line"":1}],""name"":""text"",""type"":""string"",""value"":"" foo.""}],""location"":[{""col"":1,""line"":1},{""col"":16,""line"":1}],""name"":""paragraph"",""type"":""block""}],""location"":[{""col"":1,""line"":1},{""col"":16,""line"":1}],""name"":""document"",""type"":""block""}") = true.
Proof. vm_compute. reflexivity. Qed.

Example fixture_inlines_cross_ref :
  check_json (bs "tests/data/inlines") (bs "This is a <<cross_ref>>.
") (bs "{""blocks"":[{""inlines"":[{""location"":[{""col"":1,""line"":1},{""col"":10,""line"":1}],""name"":""text"",""type"":""string"",""value"":""This is a ""},{""inlines"":[],""location"":[{""col"":11,""line"":1},{""col"":23,""line"":1}],""name"":""ref"",""target"":""cross_ref"",""type"":""inline"",""variant"":""xref""},{""location"":[{""col"":24,""line"":1},{""col"":24,""line"":1}],""name"":""text"",""type"":""string"",""value"":"".""}],""location"":[{""col"":1,""line"":1},{""col"":24,""line"":1}],""name"":""paragraph"",""type"":""block""}],""location"":[{""col"":1,""line"":1},{""col"":24,""line"":1}],""name"":""document"",""type"":""block""}") = true.
Proof. vm_compute. reflexivity. Qed.

Example fixture_inlines_document_header :
  check_json (bs "tests/data/inlines") (bs "= Document *Title*

Text
") (bs "{""attributes"":{},""blocks"":[{""inlines"":[{""location"":[{""col"":1,""line"":3},{""col"":4,""line"":3}],""name"":""text"",""type"":""string"",""value"":""Text""}],""location"":[{""col"":1,""line"":3},{""col"":4,""line"":3}],""name"":""paragraph"",""type"":""block""}],""header"":{""location"":[{""col"":1,""line"":1},{""col"":18,""line"":1}],""title"":[{""location"":[{""col"":3,""line"":1},{""col"":11,""line"":1}],""name"":""text"",""type"":""string"",""value"":""Document ""},{""form"":""constrained"",""inlines"":[{""location"":[{""col"":13,""line"":1},{""col"":17,""line"":1}],""name"":""text"",""type"":""string"",""value"":""Title""}],""location"":[{""col"":12,""line"":1},{""col"":18,""line"":1}],""name"":""span"",""type"":""inline"",""variant"":""strong""}]},""location"":[{""col"":1,""line"":1},{""col"":4,""line"":3}],""name"":""document"",""type"":""block""}") = true.
Proof. vm_compute. reflexivity. Qed.

Example fixture_inlines_footnote :
  check_json (bs "tests/data/inlines") (bs "Test.footnote:[Footnote.]
") (bs "{""blocks"":[{""inlines"":[{""location"":[{""col"":1,""line"":1},{""col"":5,""line"":1}],""name"":""text"",""type"":""string"",""value"":""Test.""},{""form"":""constrained"",""inlines"":[{""location"":[{""col"":16,""line"":1},{""col"":24,""line"":1}],""name"":""text"",""type"":""string"",""value"":""Footnote.""}],""location"":[{""col"":6,""line"":1},{""col"":25,""line"":1}],""name"":""span"",""type"":""inline"",""variant"":""footnote""}],""location"":[{""col"":1,""line"":1},{""col"":25,""line"":1}],""name"":""paragraph"",""type"":""block""}],""location"":[{""col"":1,""line"":1},{""col"":25,""line"":1}],""name"":""document"",""type"":""block""}") = true.
Proof. vm_compute. reflexivity. Qed.

Example fixture_inlines_image :
  check_json (bs "tests/data/inlines") (bs "Here might be an emoji image: image:path/to/emoji.png[].
") (bs "{""blocks"":[{""inlines"":[{""location"":[{""col"":1,""line"":1},{""col"":30,""line"":1}],""name"":""text"",""type"":""string"",""value"":""Here might be an emoji image: ""},{""inlines"":[],""location"":[{""col"":31,""line"":1},{""col"":55,""line"":1}],""name"":""ref"",""target"":""path/to/emoji.png"",""type"":""inline"",""variant"":""image""},{""location"":[{""col"":56,""line"":1},{""col"":56,""line"":1}],""name"":""text"",""type"":""string"",""value"":"".""}],""location"":[{""col"":1,""line"":1},{""col"":56,""line"":1}],""name"":""paragraph"",""type"":""block""}],""location"":[{""col"":1,""line"":1},{""col"":56,""line"":1}],""name"":""document"",""type"":""block""}") = true.
Proof. vm_compute. reflexivity. Qed.

Example fixture_inlines_inline_class :
  check_json (bs "tests/data/inlines") (bs "[.cat]#George#
") (bs "{""blocks"":[{""inlines"":[{""form"":""constrained"",""inlines"":[{""location"":[{""col"":8,""line"":1},{""col"":13,""line"":1}],""name"":""text"",""type"":""string"",""value"":""George""}],""location"":[{""col"":7,""line"":1},{""col"":14,""line"":1}],""metadata"":{""attributes"":{},""location"":[{""col"":1,""line"":1},{""col"":6,""line"":1}],""options"":[],""roles"":[""cat""]},""name"":""span"",""type"":""inline"",""variant"":""mark""}],""location"":[{""col"":7,""line"":1},{""col"":14,""line"":1}],""name"":""paragraph"",""type"":""block""}],""location"":[{""col"":1,""line"":1},{""col"":14,""line"":1}],""name"":""document"",""type"":""block""}") = true.
Proof. vm_compute. reflexivity. Qed.

Example fixture_inlines_inline_markup_edge_cases :
  check_json (bs "tests/data/inlines") (bs """#"" for the thematic breaks was too much, maybe use a ""~"" instead, or ""•"",
or just use white space.
") (bs "{""blocks"":[{""inlines"":[{""location"":[{""col"":1,""line"":1},{""col"":24,""line"":2}],""name"":""text"",""type"":""string"",""value"":""\""#\"" for the thematic breaks was too much, maybe use a \""~\"" instead, or \""•\"",\nor just use white space.""}],""location"":[{""col"":1,""line"":1},{""col"":24,""line"":2}],""name"":""paragraph"",""type"":""block""}],""location"":[{""col"":1,""line"":1},{""col"":24,""line"":2}],""name"":""document"",""type"":""block""}") = true.
Proof. vm_compute. reflexivity. Qed.

Example fixture_inlines_links :
  check_json (bs "tests/data/inlines") (bs "This is a http://example.com[link].

This is a http://example.com[] with no interior text.

This is a http://example.com with no macro designation.
") (bs "{""blocks"":[{""inlines"":[{""location"":[{""col"":1,""line"":1},{""col"":10,""line"":1}],""name"":""text"",""type"":""string"",""value"":""This is a ""},{""inlines"":[{""location"":[{""col"":30,""line"":1},{""col"":33,""line"":1}],""name"":""text"",""type"":""string"",""value"":""link""}],""location"":[{""col"":11,""line"":1},{""col"":34,""line"":1}],""name"":""ref"",""target"":""http://example.com"",""type"":""inline"",""variant"":""link""},{""location"":[{""col"":35,""line"":1},{""col"":35,""line"":1}],""name"":""text"",""type"":""string"",""value"":"".""}],""location"":[{""col"":1,""line"":1},{""col"":35,""line"":1}],""name"":""paragraph"",""type"":""block""},{""inlines"":[{""location"":[{""col"":1,""line"":3},{""col"":10,""line"":3}],""name"":""text"",""type"":""string"",""value"":""This is a ""},{""inlines"":[],""location"":[{""col"":11,""line"":3},{""col"":30,""line"":3}],""name"":""ref"",""target"":""http://example.com"",""type"":""inline"",""variant"":""link""},{""location"":[{""col"":31,""line"":3},{""col"":53,""line"":3}],""name"":""text"",""type"":""string"",""value"":"" with no interior text.""}],""location"":[{""col"":1,""line"":3},{""col"":53,""line"":3}],""name"":""paragraph"",""type"":""block""},{""inlines"":[{""location"":[{""col"":1,""line"":5},{""col"":10,""line"":5}],""name"":""text"",""type"":""string"",""value"":""This is a ""},{""inlines"":[],""location"":[{""col"":11,""line"":5},{""col"":28,""line"":5}],""name"":""ref"",""target"":""http://example.com"",""type"":""inline"",""variant"":""link""},{""location"":[{""col"":29,""line"":5},{""col"":55,""line"":5}],""name"":""text"",""type"":""string"",""value"":"" with no macro designation.""}],""location"":[{""col"":1,""line"":5},{""col"":55,""line"":5}],""name"":""paragraph"",""type"":""block""}],""location"":[{""col"":1,""line"":1},{""col"":55,""line"":5}],""name"":""document"",""type"":""block""}") = true.
Proof. vm_compute. reflexivity. Qed.

Example fixture_inlines_quote_replacements :
  check_json (bs "tests/data/inlines") (bs "This should have ""`typographers quotes`"" around it.

This should have '`single quotes.`'
") (bs "{""blocks"":[{""inlines"":[{""location"":[{""col"":1,""line"":1},{""col"":51,""line"":1}],""name"":""text"",""type"":""string"",""value"":""This should have “typographers quotes” around it.""}],""location"":[{""col"":1,""line"":1},{""col"":51,""line"":1}],""name"":""paragraph"",""type"":""block""},{""inlines"":[{""location"":[{""col"":1,""line"":3},{""col"":35,""line"":3}],""name"":""text"",""type"":""string"",""value"":""This should have ‘single quotes.’""}],""location"":[{""col"":1,""line"":3},{""col"":35,""line"":3}],""name"":""paragraph"",""type"":""block""}],""location"":[{""col"":1,""line"":1},{""col"":35,""line"":3}],""name"":""document"",""type"":""block""}") = true.
Proof. vm_compute. reflexivity. Qed.

Example fixture_inlines_single_word :
  check_json (bs "tests/data/inlines") (bs "George
") (bs "{""blocks"":[{""inlines"":[{""location"":[{""col"":1,""line"":1},{""col"":6,""line"":1}],""name"":""text"",""type"":""string"",""value"":""George""}],""location"":[{""col"":1,""line"":1},{""col"":6,""line"":1}],""name"":""paragraph"",""type"":""block""}],""location"":[{""col"":1,""line"":1},{""col"":6,""line"":1}],""name"":""document"",""type"":""block""}") = true.
Proof. vm_compute. reflexivity. Qed.

Example fixture_inlines_span_inside_spans_mixed :
  check_json (bs "tests/data/inlines") (bs "*_This_ shouldn't be a problem!* 
") (bs "{""blocks"":[{""inlines"":[{""form"":""constrained"",""inlines"":[{""form"":""constrained"",""inlines"":[{""location"":[{""col"":3,""line"":1},{""col"":6,""line"":1}],""name"":""text"",""type"":""string"",""value"":""This""}],""location"":[{""col"":2,""line"":1},{""col"":7,""line"":1}],""name"":""span"",""type"":""inline"",""variant"":""emphasis""},{""location"":[{""col"":8,""line"":1},{""col"":31,""line"":1}],""name"":""text"",""type"":""string"",""value"":"" shouldn't be a problem!""}],""location"":[{""col"":1,""line"":1},{""col"":32,""line"":1}],""name"":""span"",""type"":""inline"",""variant"":""strong""},{""location"":[{""col"":33,""line"":1},{""col"":33,""line"":1}],""name"":""text"",""type"":""string"",""value"":"" ""}],""location"":[{""col"":1,""line"":1},{""col"":33,""line"":1}],""name"":""paragraph"",""type"":""block""}],""location"":[{""col"":1,""line"":1},{""col"":33,""line"":1}],""name"":""document"",""type"":""block""}") = true.
Proof. vm_compute. reflexivity. Qed.

Example fixture_inlines_span_inside_spans :
  check_json (bs "tests/data/inlines") (bs "*_foo_*

**_foo_**

**__foo__**
") (bs "{""blocks"":[{""inlines"":[{""form"":""constrained"",""inlines"":[{""form"":""constrained"",""inlines"":[{""location"":[{""col"":3,""line"":1},{""col"":5,""line"":1}],""name"":""text"",""type"":""string"",""value"":""foo""}],""location"":[{""col"":2,""line"":1},{""col"":6,""line"":1}],""name"":""span"",""type"":""inline"",""variant"":""emphasis""}],""location"":[{""col"":1,""line"":1},{""col"":7,""line"":1}],""name"":""span"",""type"":""inline"",""variant"":""strong""}],""location"":[{""col"":1,""line"":1},{""col"":7,""line"":1}],""name"":""paragraph"",""type"":""block""},{""inlines"":[{""form"":""unconstrained"",""inlines"":[{""form"":""constrained"",""inlines"":[{""location"":[{""col"":4,""line"":3},{""col"":6,""line"":3}],""name"":""text"",""type"":""string"",""value"":""foo""}],""location"":[{""col"":3,""line"":3},{""col"":7,""line"":3}],""name"":""span"",""type"":""inline"",""variant"":""emphasis""}],""location"":[{""col"":1,""line"":3},{""col"":9,""line"":3}],""name"":""span"",""type"":""inline"",""variant"":""strong""}],""location"":[{""col"":1,""line"":3},{""col"":9,""line"":3}],""name"":""paragraph"",""type"":""block""},{""inlines"":[{""form"":""unconstrained"",""inlines"":[{""form"":""unconstrained"",""inlines"":[{""location"":[{""col"":5,""line"":5},{""col"":7,""line"":5}],""name"":""text"",""type"":""string"",""value"":""foo""}],""location"":[{""col"":3,""line"":5},{""col"":9,""line"":5}],""name"":""span"",""type"":""inline"",""variant"":""emphasis""}],""location"":[{""col"":1,""line"":5},{""col"":11,""line"":5}],""name"":""span"",""type"":""inline"",""variant"":""strong""}],""location"":[{""col"":1,""line"":5},{""col"":11,""line"":5}],""name"":""paragraph"",""type"":""block""}],""location"":[{""col"":1,""line"":1},{""col"":11,""line"":5}],""name"":""document"",""type"":""block""}") = true.
Proof. vm_compute. reflexivity. Qed.

Example fixture_inlines_super_subscript :
  check_json (bs "tests/data/inlines") (bs "^Super^ and ~sub~. And water: H~2~O.
") (bs "{""blocks"":[{""inlines"":[{""form"":""constrained"",""inlines"":[{""location"":[{""col"":2,""line"":1},{""col"":6,""line"":1}],""name"":""text"",""type"":""string"",""value"":""Super""}],""location"":[{""col"":1,""line"":1},{""col"":7,""line"":1}],""name"":""span"",""type"":""inline"",""variant"":""superscript""},{""location"":[{""col"":8,""line"":1},{""col"":12,""line"":1}],""name"":""text"",""type"":""string"",""value"":"" and ""},{""form"":""constrained"",""inlines"":[{""location"":[{""col"":14,""line"":1},{""col"":16,""line"":1}],""name"":""text"",""type"":""string"",""value"":""sub""}],""location"":[{""col"":13,""line"":1},{""col"":17,""line"":1}],""name"":""span"",""type"":""inline"",""variant"":""subscript""},{""location"":[{""col"":18,""line"":1},{""col"":31,""line"":1}],""name"":""text"",""type"":""string"",""value"":"". And water: H""},{""form"":""constrained"",""inlines"":[{""location"":[{""col"":33,""line"":1},{""col"":33,""line"":1}],""name"":""text"",""type"":""string"",""value"":""2""}],""location"":[{""col"":32,""line"":1},{""col"":34,""line"":1}],""name"":""span"",""type"":""inline"",""variant"":""subscript""},{""location"":[{""col"":35,""line"":1},{""col"":36,""line"":1}],""name"":""text"",""type"":""string"",""value"":""O.""}],""location"":[{""col"":1,""line"":1},{""col"":36,""line"":1}],""name"":""paragraph"",""type"":""block""}],""location"":[{""col"":1,""line"":1},{""col"":36,""line"":1}],""name"":""document"",""type"":""block""}") = true.
Proof. vm_compute. reflexivity. Qed.

Example fixture_headings_1 :
  check_json (bs "") (bs "== Section Title

Contents
") (bs "{""blocks"":[{""blocks"":[{""inlines"":[{""location"":[{""col"":1,""line"":3},{""col"":8,""line"":3}],""name"":""text"",""type"":""string"",""value"":""Contents""}],""location"":[{""col"":1,""line"":3},{""col"":8,""line"":3}],""name"":""paragraph"",""type"":""block""}],""level"":1,""location"":[{""col"":1,""line"":1},{""col"":8,""line"":3}],""name"":""section"",""title"":[{""location"":[{""col"":4,""line"":1},{""col"":16,""line"":1}],""name"":""text"",""type"":""string"",""value"":""Section Title""}],""type"":""block""}],""location"":[{""col"":1,""line"":1},{""col"":8,""line"":3}],""name"":""document"",""type"":""block""}") = true.
Proof. vm_compute. reflexivity. Qed.

Example fixture_headings_2 :
  check_json (bs "") (bs "=== Section Title

Contents
") (bs "{""blocks"":[{""blocks"":[{""inlines"":[{""location"":[{""col"":1,""line"":3},{""col"":8,""line"":3}],""name"":""text"",""type"":""string"",""value"":""Contents""}],""location"":[{""col"":1,""line"":3},{""col"":8,""line"":3}],""name"":""paragraph"",""type"":""block""}],""level"":2,""location"":[{""col"":1,""line"":1},{""col"":8,""line"":3}],""name"":""section"",""title"":[{""location"":[{""col"":5,""line"":1},{""col"":17,""line"":1}],""name"":""text"",""type"":""string"",""value"":""Section Title""}],""type"":""block""}],""location"":[{""col"":1,""line"":1},{""col"":8,""line"":3}],""name"":""document"",""type"":""block""}") = true.
Proof. vm_compute. reflexivity. Qed.

Example fixture_headings_3 :
  check_json (bs "") (bs "==== Section Title

Contents
") (bs "{""blocks"":[{""blocks"":[{""inlines"":[{""location"":[{""col"":1,""line"":3},{""col"":8,""line"":3}],""name"":""text"",""type"":""string"",""value"":""Contents""}],""location"":[{""col"":1,""line"":3},{""col"":8,""line"":3}],""name"":""paragraph"",""type"":""block""}],""level"":3,""location"":[{""col"":1,""line"":1},{""col"":8,""line"":3}],""name"":""section"",""title"":[{""location"":[{""col"":6,""line"":1},{""col"":18,""line"":1}],""name"":""text"",""type"":""string"",""value"":""Section Title""}],""type"":""block""}],""location"":[{""col"":1,""line"":1},{""col"":8,""line"":3}],""name"":""document"",""type"":""block""}") = true.
Proof. vm_compute. reflexivity. Qed.

Example fixture_headings_4 :
  check_json (bs "") (bs "===== Section Title

Contents
") (bs "{""blocks"":[{""blocks"":[{""inlines"":[{""location"":[{""col"":1,""line"":3},{""col"":8,""line"":3}],""name"":""text"",""type"":""string"",""value"":""Contents""}],""location"":[{""col"":1,""line"":3},{""col"":8,""line"":3}],""name"":""paragraph"",""type"":""block""}],""level"":4,""location"":[{""col"":1,""line"":1},{""col"":8,""line"":3}],""name"":""section"",""title"":[{""location"":[{""col"":7,""line"":1},{""col"":19,""line"":1}],""name"":""text"",""type"":""string"",""value"":""Section Title""}],""type"":""block""}],""location"":[{""col"":1,""line"":1},{""col"":8,""line"":3}],""name"":""document"",""type"":""block""}") = true.
Proof. vm_compute. reflexivity. Qed.

Example fixture_delimited_sidebar :
  check_json (bs "") (bs "****
* why
* a list
* who knows
****
") (bs "{""blocks"":[{""blocks"":[{""items"":[{""location"":[{""col"":1,""line"":2},{""col"":5,""line"":2}],""marker"":""*"",""name"":""listItem"",""principal"":[{""location"":[{""col"":3,""line"":2},{""col"":5,""line"":2}],""name"":""text"",""type"":""string"",""value"":""why""}],""type"":""block""},{""location"":[{""col"":1,""line"":3},{""col"":8,""line"":3}],""marker"":""*"",""name"":""listItem"",""principal"":[{""location"":[{""col"":3,""line"":3},{""col"":8,""line"":3}],""name"":""text"",""type"":""string"",""value"":""a list""}],""type"":""block""},{""location"":[{""col"":1,""line"":4},{""col"":11,""line"":4}],""marker"":""*"",""name"":""listItem"",""principal"":[{""location"":[{""col"":3,""line"":4},{""col"":11,""line"":4}],""name"":""text"",""type"":""string"",""value"":""who knows""}],""type"":""block""}],""location"":[{""col"":1,""line"":2},{""col"":11,""line"":4}],""marker"":""*"",""name"":""list"",""type"":""block"",""variant"":""unordered""}],""delimiter"":""****"",""form"":""delimited"",""location"":[{""col"":1,""line"":1},{""col"":4,""line"":5}],""name"":""sidebar"",""type"":""block""}],""location"":[{""col"":1,""line"":1},{""col"":4,""line"":5}],""name"":""document"",""type"":""block""}") = true.
Proof. vm_compute. reflexivity. Qed.

Example fixture_delimited_example :
  check_json (bs "") (bs "====
* why
* a list
* who knows
====
") (bs "{""blocks"":[{""blocks"":[{""items"":[{""location"":[{""col"":1,""line"":2},{""col"":5,""line"":2}],""marker"":""*"",""name"":""listItem"",""principal"":[{""location"":[{""col"":3,""line"":2},{""col"":5,""line"":2}],""name"":""text"",""type"":""string"",""value"":""why""}],""type"":""block""},{""location"":[{""col"":1,""line"":3},{""col"":8,""line"":3}],""marker"":""*"",""name"":""listItem"",""principal"":[{""location"":[{""col"":3,""line"":3},{""col"":8,""line"":3}],""name"":""text"",""type"":""string"",""value"":""a list""}],""type"":""block""},{""location"":[{""col"":1,""line"":4},{""col"":11,""line"":4}],""marker"":""*"",""name"":""listItem"",""principal"":[{""location"":[{""col"":3,""line"":4},{""col"":11,""line"":4}],""name"":""text"",""type"":""string"",""value"":""who knows""}],""type"":""block""}],""location"":[{""col"":1,""line"":2},{""col"":11,""line"":4}],""marker"":""*"",""name"":""list"",""type"":""block"",""variant"":""unordered""}],""delimiter"":""===="",""form"":""delimited"",""location"":[{""col"":1,""line"":1},{""col"":4,""line"":5}],""name"":""example"",""type"":""block""}],""location"":[{""col"":1,""line"":1},{""col"":4,""line"":5}],""name"":""document"",""type"":""block""}") = true.
Proof. vm_compute. reflexivity. Qed.

Example fixture_delimited_quote :
  check_json (bs "") (bs "____
* why
* a list
* who knows
____
") (bs "{""blocks"":[{""blocks"":[{""items"":[{""location"":[{""col"":1,""line"":2},{""col"":5,""line"":2}],""marker"":""*"",""name"":""listItem"",""principal"":[{""location"":[{""col"":3,""line"":2},{""col"":5,""line"":2}],""name"":""text"",""type"":""string"",""value"":""why""}],""type"":""block""},{""location"":[{""col"":1,""line"":3},{""col"":8,""line"":3}],""marker"":""*"",""name"":""listItem"",""principal"":[{""location"":[{""col"":3,""line"":3},{""col"":8,""line"":3}],""name"":""text"",""type"":""string"",""value"":""a list""}],""type"":""block""},{""location"":[{""col"":1,""line"":4},{""col"":11,""line"":4}],""marker"":""*"",""name"":""listItem"",""principal"":[{""location"":[{""col"":3,""line"":4},{""col"":11,""line"":4}],""name"":""text"",""type"":""string"",""value"":""who knows""}],""type"":""block""}],""location"":[{""col"":1,""line"":2},{""col"":11,""line"":4}],""marker"":""*"",""name"":""list"",""type"":""block"",""variant"":""unordered""}],""delimiter"":""____"",""form"":""delimited"",""location"":[{""col"":1,""line"":1},{""col"":4,""line"":5}],""name"":""quote"",""type"":""block""}],""location"":[{""col"":1,""line"":1},{""col"":4,""line"":5}],""name"":""document"",""type"":""block""}") = true.
Proof. vm_compute. reflexivity. Qed.

Example fixture_delimited_open :
  check_json (bs "") (bs "--
* why
* a list
* who knows
--
") (bs "{""blocks"":[{""blocks"":[{""items"":[{""location"":[{""col"":1,""line"":2},{""col"":5,""line"":2}],""marker"":""*"",""name"":""listItem"",""principal"":[{""location"":[{""col"":3,""line"":2},{""col"":5,""line"":2}],""name"":""text"",""type"":""string"",""value"":""why""}],""type"":""block""},{""location"":[{""col"":1,""line"":3},{""col"":8,""line"":3}],""marker"":""*"",""name"":""listItem"",""principal"":[{""location"":[{""col"":3,""line"":3},{""col"":8,""line"":3}],""name"":""text"",""type"":""string"",""value"":""a list""}],""type"":""block""},{""location"":[{""col"":1,""line"":4},{""col"":11,""line"":4}],""marker"":""*"",""name"":""listItem"",""principal"":[{""location"":[{""col"":3,""line"":4},{""col"":11,""line"":4}],""name"":""text"",""type"":""string"",""value"":""who knows""}],""type"":""block""}],""location"":[{""col"":1,""line"":2},{""col"":11,""line"":4}],""marker"":""*"",""name"":""list"",""type"":""block"",""variant"":""unordered""}],""delimiter"":""--"",""form"":""delimited"",""location"":[{""col"":1,""line"":1},{""col"":2,""line"":5}],""name"":""open"",""type"":""block""}],""location"":[{""col"":1,""line"":1},{""col"":2,""line"":5}],""name"":""document"",""type"":""block""}") = true.
Proof. vm_compute. reflexivity. Qed.

Example fixture_delimited_spaced :
  check_json (bs "") (bs "****

content

****
") (bs "{""blocks"":[{""blocks"":[{""inlines"":[{""location"":[{""col"":1,""line"":3},{""col"":7,""line"":3}],""name"":""text"",""type"":""string"",""value"":""content""}],""location"":[{""col"":1,""line"":3},{""col"":7,""line"":3}],""name"":""paragraph"",""type"":""block""}],""delimiter"":""****"",""form"":""delimited"",""location"":[{""col"":1,""line"":1},{""col"":4,""line"":5}],""name"":""sidebar"",""type"":""block""}],""location"":[{""col"":1,""line"":1},{""col"":4,""line"":5}],""name"":""document"",""type"":""block""}") = true.
Proof. vm_compute. reflexivity. Qed.

Example fixture_admonition_NOTE :
  check_json (bs "") (bs "NOTE: Notice me!

A paragraph may follow, and should be its own block.
") (bs "{""blocks"":[{""blocks"":[{""inlines"":[{""location"":[{""col"":7,""line"":1},{""col"":16,""line"":1}],""name"":""text"",""type"":""string"",""value"":""Notice me!""}],""location"":[{""col"":7,""line"":1},{""col"":16,""line"":1}],""name"":""paragraph"",""type"":""block""}],""delimiter"":""NOTE: "",""form"":""delimited"",""location"":[{""col"":1,""line"":1},{""col"":16,""line"":1}],""name"":""admonition"",""type"":""block"",""variant"":""note""},{""inlines"":[{""location"":[{""col"":1,""line"":3},{""col"":52,""line"":3}],""name"":""text"",""type"":""string"",""value"":""A paragraph may follow, and should be its own block.""}],""location"":[{""col"":1,""line"":3},{""col"":52,""line"":3}],""name"":""paragraph"",""type"":""block""}],""location"":[{""col"":1,""line"":1},{""col"":52,""line"":3}],""name"":""document"",""type"":""block""}") = true.
Proof. vm_compute. reflexivity. Qed.

Example fixture_admonition_TIP :
  check_json (bs "") (bs "TIP: Notice me!

A paragraph may follow, and should be its own block.
") (bs "{""blocks"":[{""blocks"":[{""inlines"":[{""location"":[{""col"":6,""line"":1},{""col"":15,""line"":1}],""name"":""text"",""type"":""string"",""value"":""Notice me!""}],""location"":[{""col"":6,""line"":1},{""col"":15,""line"":1}],""name"":""paragraph"",""type"":""block""}],""delimiter"":""TIP: "",""form"":""delimited"",""location"":[{""col"":1,""line"":1},{""col"":15,""line"":1}],""name"":""admonition"",""type"":""block"",""variant"":""tip""},{""inlines"":[{""location"":[{""col"":1,""line"":3},{""col"":52,""line"":3}],""name"":""text"",""type"":""string"",""value"":""A paragraph may follow, and should be its own block.""}],""location"":[{""col"":1,""line"":3},{""col"":52,""line"":3}],""name"":""paragraph"",""type"":""block""}],""location"":[{""col"":1,""line"":1},{""col"":52,""line"":3}],""name"":""document"",""type"":""block""}") = true.
Proof. vm_compute. reflexivity. Qed.

Example fixture_admonition_IMPORTANT :
  check_json (bs "") (bs "IMPORTANT: Notice me!

A paragraph may follow, and should be its own block.
") (bs "{""blocks"":[{""blocks"":[{""inlines"":[{""location"":[{""col"":12,""line"":1},{""col"":21,""line"":1}],""name"":""text"",""type"":""string"",""value"":""Notice me!""}],""location"":[{""col"":12,""line"":1},{""col"":21,""line"":1}],""name"":""paragraph"",""type"":""block""}],""delimiter"":""IMPORTANT: "",""form"":""delimited"",""location"":[{""col"":1,""line"":1},{""col"":21,""line"":1}],""name"":""admonition"",""type"":""block"",""variant"":""important""},{""inlines"":[{""location"":[{""col"":1,""line"":3},{""col"":52,""line"":3}],""name"":""text"",""type"":""string"",""value"":""A paragraph may follow, and should be its own block.""}],""location"":[{""col"":1,""line"":3},{""col"":52,""line"":3}],""name"":""paragraph"",""type"":""block""}],""location"":[{""col"":1,""line"":1},{""col"":52,""line"":3}],""name"":""document"",""type"":""block""}") = true.
Proof. vm_compute. reflexivity. Qed.

Example fixture_admonition_CAUTION :
  check_json (bs "") (bs "CAUTION: Notice me!

A paragraph may follow, and should be its own block.
") (bs "{""blocks"":[{""blocks"":[{""inlines"":[{""location"":[{""col"":10,""line"":1},{""col"":19,""line"":1}],""name"":""text"",""type"":""string"",""value"":""Notice me!""}],""location"":[{""col"":10,""line"":1},{""col"":19,""line"":1}],""name"":""paragraph"",""type"":""block""}],""delimiter"":""CAUTION: "",""form"":""delimited"",""location"":[{""col"":1,""line"":1},{""col"":19,""line"":1}],""name"":""admonition"",""type"":""block"",""variant"":""caution""},{""inlines"":[{""location"":[{""col"":1,""line"":3},{""col"":52,""line"":3}],""name"":""text"",""type"":""string"",""value"":""A paragraph may follow, and should be its own block.""}],""location"":[{""col"":1,""line"":3},{""col"":52,""line"":3}],""name"":""paragraph"",""type"":""block""}],""location"":[{""col"":1,""line"":1},{""col"":52,""line"":3}],""name"":""document"",""type"":""block""}") = true.
Proof. vm_compute. reflexivity. Qed.

Example fixture_admonition_WARNING :
  check_json (bs "") (bs "WARNING: Notice me!

A paragraph may follow, and should be its own block.
") (bs "{""blocks"":[{""blocks"":[{""inlines"":[{""location"":[{""col"":10,""line"":1},{""col"":19,""line"":1}],""name"":""text"",""type"":""string"",""value"":""Notice me!""}],""location"":[{""col"":10,""line"":1},{""col"":19,""line"":1}],""name"":""paragraph"",""type"":""block""}],""delimiter"":""WARNING: "",""form"":""delimited"",""location"":[{""col"":1,""line"":1},{""col"":19,""line"":1}],""name"":""admonition"",""type"":""block"",""variant"":""warning""},{""inlines"":[{""location"":[{""col"":1,""line"":3},{""col"":52,""line"":3}],""name"":""text"",""type"":""string"",""value"":""A paragraph may follow, and should be its own block.""}],""location"":[{""col"":1,""line"":3},{""col"":52,""line"":3}],""name"":""paragraph"",""type"":""block""}],""location"":[{""col"":1,""line"":1},{""col"":52,""line"":3}],""name"":""document"",""type"":""block""}") = true.
Proof. vm_compute. reflexivity. Qed.

Example fixture_span_single_word_emphasis :
  check_json (bs "") (bs "_cat_
") (bs "{""blocks"":[{""inlines"":[{""form"":""constrained"",""inlines"":[{""location"":[{""col"":2,""line"":1},{""col"":4,""line"":1}],""name"":""text"",""type"":""string"",""value"":""cat""}],""location"":[{""col"":1,""line"":1},{""col"":5,""line"":1}],""name"":""span"",""type"":""inline"",""variant"":""emphasis""}],""location"":[{""col"":1,""line"":1},{""col"":5,""line"":1}],""name"":""paragraph"",""type"":""block""}],""location"":[{""col"":1,""line"":1},{""col"":5,""line"":1}],""name"":""document"",""type"":""block""}") = true.
Proof. vm_compute. reflexivity. Qed.

Example fixture_span_chars_between_emphasis :
  check_json (bs "") (bs "_The garbage's funnel_
") (bs "{""blocks"":[{""inlines"":[{""form"":""constrained"",""inlines"":[{""location"":[{""col"":2,""line"":1},{""col"":21,""line"":1}],""name"":""text"",""type"":""string"",""value"":""The garbage&#8217;s funnel""}],""location"":[{""col"":1,""line"":1},{""col"":22,""line"":1}],""name"":""span"",""type"":""inline"",""variant"":""emphasis""}],""location"":[{""col"":1,""line"":1},{""col"":22,""line"":1}],""name"":""paragraph"",""type"":""block""}],""location"":[{""col"":1,""line"":1},{""col"":22,""line"":1}],""name"":""document"",""type"":""block""}") = true.
Proof. vm_compute. reflexivity. Qed.

Example fixture_span_many_words_emphasis :
  check_json (bs "") (bs "This is a _two word_ killer sentence.
") (bs "{""blocks"":[{""inlines"":[{""location"":[{""col"":1,""line"":1},{""col"":10,""line"":1}],""name"":""text"",""type"":""string"",""value"":""This is a ""},{""form"":""constrained"",""inlines"":[{""location"":[{""col"":12,""line"":1},{""col"":19,""line"":1}],""name"":""text"",""type"":""string"",""value"":""two word""}],""location"":[{""col"":11,""line"":1},{""col"":20,""line"":1}],""name"":""span"",""type"":""inline"",""variant"":""emphasis""},{""location"":[{""col"":21,""line"":1},{""col"":37,""line"":1}],""name"":""text"",""type"":""string"",""value"":"" killer sentence.""}],""location"":[{""col"":1,""line"":1},{""col"":37,""line"":1}],""name"":""paragraph"",""type"":""block""}],""location"":[{""col"":1,""line"":1},{""col"":37,""line"":1}],""name"":""document"",""type"":""block""}") = true.
Proof. vm_compute. reflexivity. Qed.

Example fixture_span_across_newline_emphasis :
  check_json (bs "") (bs "_cool
cat_
") (bs "{""blocks"":[{""inlines"":[{""form"":""constrained"",""inlines"":[{""location"":[{""col"":2,""line"":1},{""col"":3,""line"":2}],""name"":""text"",""type"":""string"",""value"":""cool\ncat""}],""location"":[{""col"":1,""line"":1},{""col"":4,""line"":2}],""name"":""span"",""type"":""inline"",""variant"":""emphasis""}],""location"":[{""col"":1,""line"":1},{""col"":4,""line"":2}],""name"":""paragraph"",""type"":""block""}],""location"":[{""col"":1,""line"":1},{""col"":4,""line"":2}],""name"":""document"",""type"":""block""}") = true.
Proof. vm_compute. reflexivity. Qed.

Example fixture_dangling_front_emphasis :
  check_json (bs "") (bs "_cat") (bs "{""blocks"":[{""inlines"":[{""location"":[{""col"":1,""line"":1},{""col"":4,""line"":1}],""name"":""text"",""type"":""string"",""value"":""_cat""}],""location"":[{""col"":1,""line"":1},{""col"":4,""line"":1}],""name"":""paragraph"",""type"":""block""}],""location"":[{""col"":1,""line"":1},{""col"":4,""line"":1}],""name"":""document"",""type"":""block""}") = true.
Proof. vm_compute. reflexivity. Qed.

Example fixture_dangling_end_emphasis :
  check_json (bs "") (bs "cat_") (bs "{""blocks"":[{""inlines"":[{""location"":[{""col"":1,""line"":1},{""col"":4,""line"":1}],""name"":""text"",""type"":""string"",""value"":""cat_""}],""location"":[{""col"":1,""line"":1},{""col"":4,""line"":1}],""name"":""paragraph"",""type"":""block""}],""location"":[{""col"":1,""line"":1},{""col"":4,""line"":1}],""name"":""document"",""type"":""block""}") = true.
Proof. vm_compute. reflexivity. Qed.

Example fixture_span_single_word_strong :
  check_json (bs "") (bs "*cat*
") (bs "{""blocks"":[{""inlines"":[{""form"":""constrained"",""inlines"":[{""location"":[{""col"":2,""line"":1},{""col"":4,""line"":1}],""name"":""text"",""type"":""string"",""value"":""cat""}],""location"":[{""col"":1,""line"":1},{""col"":5,""line"":1}],""name"":""span"",""type"":""inline"",""variant"":""strong""}],""location"":[{""col"":1,""line"":1},{""col"":5,""line"":1}],""name"":""paragraph"",""type"":""block""}],""location"":[{""col"":1,""line"":1},{""col"":5,""line"":1}],""name"":""document"",""type"":""block""}") = true.
Proof. vm_compute. reflexivity. Qed.

Example fixture_span_chars_between_strong :
  check_json (bs "") (bs "*The garbage's funnel*
") (bs "{""blocks"":[{""inlines"":[{""form"":""constrained"",""inlines"":[{""location"":[{""col"":2,""line"":1},{""col"":21,""line"":1}],""name"":""text"",""type"":""string"",""value"":""The garbage&#8217;s funnel""}],""location"":[{""col"":1,""line"":1},{""col"":22,""line"":1}],""name"":""span"",""type"":""inline"",""variant"":""strong""}],""location"":[{""col"":1,""line"":1},{""col"":22,""line"":1}],""name"":""paragraph"",""type"":""block""}],""location"":[{""col"":1,""line"":1},{""col"":22,""line"":1}],""name"":""document"",""type"":""block""}") = true.
Proof. vm_compute. reflexivity. Qed.

Example fixture_span_many_words_strong :
  check_json (bs "") (bs "This is a *two word* killer sentence.
") (bs "{""blocks"":[{""inlines"":[{""location"":[{""col"":1,""line"":1},{""col"":10,""line"":1}],""name"":""text"",""type"":""string"",""value"":""This is a ""},{""form"":""constrained"",""inlines"":[{""location"":[{""col"":12,""line"":1},{""col"":19,""line"":1}],""name"":""text"",""type"":""string"",""value"":""two word""}],""location"":[{""col"":11,""line"":1},{""col"":20,""line"":1}],""name"":""span"",""type"":""inline"",""variant"":""strong""},{""location"":[{""col"":21,""line"":1},{""col"":37,""line"":1}],""name"":""text"",""type"":""string"",""value"":"" killer sentence.""}],""location"":[{""col"":1,""line"":1},{""col"":37,""line"":1}],""name"":""paragraph"",""type"":""block""}],""location"":[{""col"":1,""line"":1},{""col"":37,""line"":1}],""name"":""document"",""type"":""block""}") = true.
Proof. vm_compute. reflexivity. Qed.

Example fixture_span_across_newline_strong :
  check_json (bs "") (bs "*cool
cat*
") (bs "{""blocks"":[{""inlines"":[{""form"":""constrained"",""inlines"":[{""location"":[{""col"":2,""line"":1},{""col"":3,""line"":2}],""name"":""text"",""type"":""string"",""value"":""cool\ncat""}],""location"":[{""col"":1,""line"":1},{""col"":4,""line"":2}],""name"":""span"",""type"":""inline"",""variant"":""strong""}],""location"":[{""col"":1,""line"":1},{""col"":4,""line"":2}],""name"":""paragraph"",""type"":""block""}],""location"":[{""col"":1,""line"":1},{""col"":4,""line"":2}],""name"":""document"",""type"":""block""}") = true.
Proof. vm_compute. reflexivity. Qed.

Example fixture_dangling_front_strong :
  check_json (bs "") (bs "*cat") (bs "{""blocks"":[{""inlines"":[{""location"":[{""col"":1,""line"":1},{""col"":4,""line"":1}],""name"":""text"",""type"":""string"",""value"":""*cat""}],""location"":[{""col"":1,""line"":1},{""col"":4,""line"":1}],""name"":""paragraph"",""type"":""block""}],""location"":[{""col"":1,""line"":1},{""col"":4,""line"":1}],""name"":""document"",""type"":""block""}") = true.
Proof. vm_compute. reflexivity. Qed.

Example fixture_dangling_end_strong :
  check_json (bs "") (bs "cat*") (bs "{""blocks"":[{""inlines"":[{""location"":[{""col"":1,""line"":1},{""col"":4,""line"":1}],""name"":""text"",""type"":""string"",""value"":""cat*""}],""location"":[{""col"":1,""line"":1},{""col"":4,""line"":1}],""name"":""paragraph"",""type"":""block""}],""location"":[{""col"":1,""line"":1},{""col"":4,""line"":1}],""name"":""document"",""type"":""block""}") = true.
Proof. vm_compute. reflexivity. Qed.

Example fixture_span_single_word_code :
  check_json (bs "") (bs "`cat`
") (bs "{""blocks"":[{""inlines"":[{""form"":""constrained"",""inlines"":[{""location"":[{""col"":2,""line"":1},{""col"":4,""line"":1}],""name"":""text"",""type"":""string"",""value"":""cat""}],""location"":[{""col"":1,""line"":1},{""col"":5,""line"":1}],""name"":""span"",""type"":""inline"",""variant"":""code""}],""location"":[{""col"":1,""line"":1},{""col"":5,""line"":1}],""name"":""paragraph"",""type"":""block""}],""location"":[{""col"":1,""line"":1},{""col"":5,""line"":1}],""name"":""document"",""type"":""block""}") = true.
Proof. vm_compute. reflexivity. Qed.

Example fixture_span_chars_between_code :
  check_json (bs "") (bs "`The garbage's funnel`
") (bs "{""blocks"":[{""inlines"":[{""form"":""constrained"",""inlines"":[{""location"":[{""col"":2,""line"":1},{""col"":21,""line"":1}],""name"":""text"",""type"":""string"",""value"":""The garbage&#8217;s funnel""}],""location"":[{""col"":1,""line"":1},{""col"":22,""line"":1}],""name"":""span"",""type"":""inline"",""variant"":""code""}],""location"":[{""col"":1,""line"":1},{""col"":22,""line"":1}],""name"":""paragraph"",""type"":""block""}],""location"":[{""col"":1,""line"":1},{""col"":22,""line"":1}],""name"":""document"",""type"":""block""}") = true.
Proof. vm_compute. reflexivity. Qed.

Example fixture_span_many_words_code :
  check_json (bs "") (bs "This is a `two word` killer sentence.
") (bs "{""blocks"":[{""inlines"":[{""location"":[{""col"":1,""line"":1},{""col"":10,""line"":1}],""name"":""text"",""type"":""string"",""value"":""This is a ""},{""form"":""constrained"",""inlines"":[{""location"":[{""col"":12,""line"":1},{""col"":19,""line"":1}],""name"":""text"",""type"":""string"",""value"":""two word""}],""location"":[{""col"":11,""line"":1},{""col"":20,""line"":1}],""name"":""span"",""type"":""inline"",""variant"":""code""},{""location"":[{""col"":21,""line"":1},{""col"":37,""line"":1}],""name"":""text"",""type"":""string"",""value"":"" killer sentence.""}],""location"":[{""col"":1,""line"":1},{""col"":37,""line"":1}],""name"":""paragraph"",""type"":""block""}],""location"":[{""col"":1,""line"":1},{""col"":37,""line"":1}],""name"":""document"",""type"":""block""}") = true.
Proof. vm_compute. reflexivity. Qed.

Example fixture_span_across_newline_code :
  check_json (bs "") (bs "`cool
cat`
") (bs "{""blocks"":[{""inlines"":[{""form"":""constrained"",""inlines"":[{""location"":[{""col"":2,""line"":1},{""col"":3,""line"":2}],""name"":""text"",""type"":""string"",""value"":""cool\ncat""}],""location"":[{""col"":1,""line"":1},{""col"":4,""line"":2}],""name"":""span"",""type"":""inline"",""variant"":""code""}],""location"":[{""col"":1,""line"":1},{""col"":4,""line"":2}],""name"":""paragraph"",""type"":""block""}],""location"":[{""col"":1,""line"":1},{""col"":4,""line"":2}],""name"":""document"",""type"":""block""}") = true.
Proof. vm_compute. reflexivity. Qed.

Example fixture_dangling_front_code :
  check_json (bs "") (bs "`cat") (bs "{""blocks"":[{""inlines"":[{""location"":[{""col"":1,""line"":1},{""col"":4,""line"":1}],""name"":""text"",""type"":""string"",""value"":""`cat""}],""location"":[{""col"":1,""line"":1},{""col"":4,""line"":1}],""name"":""paragraph"",""type"":""block""}],""location"":[{""col"":1,""line"":1},{""col"":4,""line"":1}],""name"":""document"",""type"":""block""}") = true.
Proof. vm_compute. reflexivity. Qed.

Example fixture_dangling_end_code :
  check_json (bs "") (bs "cat`") (bs "{""blocks"":[{""inlines"":[{""location"":[{""col"":1,""line"":1},{""col"":4,""line"":1}],""name"":""text"",""type"":""string"",""value"":""cat`""}],""location"":[{""col"":1,""line"":1},{""col"":4,""line"":1}],""name"":""paragraph"",""type"":""block""}],""location"":[{""col"":1,""line"":1},{""col"":4,""line"":1}],""name"":""document"",""type"":""block""}") = true.
Proof. vm_compute. reflexivity. Qed.

Example fixture_span_single_word_mark :
  check_json (bs "") (bs "#cat#
") (bs "{""blocks"":[{""inlines"":[{""form"":""constrained"",""inlines"":[{""location"":[{""col"":2,""line"":1},{""col"":4,""line"":1}],""name"":""text"",""type"":""string"",""value"":""cat""}],""location"":[{""col"":1,""line"":1},{""col"":5,""line"":1}],""name"":""span"",""type"":""inline"",""variant"":""mark""}],""location"":[{""col"":1,""line"":1},{""col"":5,""line"":1}],""name"":""paragraph"",""type"":""block""}],""location"":[{""col"":1,""line"":1},{""col"":5,""line"":1}],""name"":""document"",""type"":""block""}") = true.
Proof. vm_compute. reflexivity. Qed.

Example fixture_span_chars_between_mark :
  check_json (bs "") (bs "#The garbage's funnel#
") (bs "{""blocks"":[{""inlines"":[{""form"":""constrained"",""inlines"":[{""location"":[{""col"":2,""line"":1},{""col"":21,""line"":1}],""name"":""text"",""type"":""string"",""value"":""The garbage&#8217;s funnel""}],""location"":[{""col"":1,""line"":1},{""col"":22,""line"":1}],""name"":""span"",""type"":""inline"",""variant"":""mark""}],""location"":[{""col"":1,""line"":1},{""col"":22,""line"":1}],""name"":""paragraph"",""type"":""block""}],""location"":[{""col"":1,""line"":1},{""col"":22,""line"":1}],""name"":""document"",""type"":""block""}") = true.
Proof. vm_compute. reflexivity. Qed.

Example fixture_span_many_words_mark :
  check_json (bs "") (bs "This is a #two word# killer sentence.
") (bs "{""blocks"":[{""inlines"":[{""location"":[{""col"":1,""line"":1},{""col"":10,""line"":1}],""name"":""text"",""type"":""string"",""value"":""This is a ""},{""form"":""constrained"",""inlines"":[{""location"":[{""col"":12,""line"":1},{""col"":19,""line"":1}],""name"":""text"",""type"":""string"",""value"":""two word""}],""location"":[{""col"":11,""line"":1},{""col"":20,""line"":1}],""name"":""span"",""type"":""inline"",""variant"":""mark""},{""location"":[{""col"":21,""line"":1},{""col"":37,""line"":1}],""name"":""text"",""type"":""string"",""value"":"" killer sentence.""}],""location"":[{""col"":1,""line"":1},{""col"":37,""line"":1}],""name"":""paragraph"",""type"":""block""}],""location"":[{""col"":1,""line"":1},{""col"":37,""line"":1}],""name"":""document"",""type"":""block""}") = true.
Proof. vm_compute. reflexivity. Qed.

Example fixture_span_across_newline_mark :
  check_json (bs "") (bs "#cool
cat#
") (bs "{""blocks"":[{""inlines"":[{""form"":""constrained"",""inlines"":[{""location"":[{""col"":2,""line"":1},{""col"":3,""line"":2}],""name"":""text"",""type"":""string"",""value"":""cool\ncat""}],""location"":[{""col"":1,""line"":1},{""col"":4,""line"":2}],""name"":""span"",""type"":""inline"",""variant"":""mark""}],""location"":[{""col"":1,""line"":1},{""col"":4,""line"":2}],""name"":""paragraph"",""type"":""block""}],""location"":[{""col"":1,""line"":1},{""col"":4,""line"":2}],""name"":""document"",""type"":""block""}") = true.
Proof. vm_compute. reflexivity. Qed.

Example fixture_dangling_front_mark :
  check_json (bs "") (bs "#cat") (bs "{""blocks"":[{""inlines"":[{""location"":[{""col"":1,""line"":1},{""col"":4,""line"":1}],""name"":""text"",""type"":""string"",""value"":""#cat""}],""location"":[{""col"":1,""line"":1},{""col"":4,""line"":1}],""name"":""paragraph"",""type"":""block""}],""location"":[{""col"":1,""line"":1},{""col"":4,""line"":1}],""name"":""document"",""type"":""block""}") = true.
Proof. vm_compute. reflexivity. Qed.

Example fixture_dangling_end_mark :
  check_json (bs "") (bs "cat#") (bs "{""blocks"":[{""inlines"":[{""location"":[{""col"":1,""line"":1},{""col"":4,""line"":1}],""name"":""text"",""type"":""string"",""value"":""cat#""}],""location"":[{""col"":1,""line"":1},{""col"":4,""line"":1}],""name"":""paragraph"",""type"":""block""}],""location"":[{""col"":1,""line"":1},{""col"":4,""line"":1}],""name"":""document"",""type"":""block""}") = true.
Proof. vm_compute. reflexivity. Qed.
