# Design

A machine-checked model of `asciidocr` 0.1.14 (pinned in /repo) in Rocq/Coq
8.16.1, and proofs about it.  The model is a total, executable Gallina program
that follows the Rust code function by function; every definition cites the
file and lines it stands for.

## Layers

| file | stands for |
|------|------------|
| `Base.v` | outcomes (`Ok`/`Err`/`Panic`/`Hang`/`Exit`), byte strings, the parts of `std` used |
| `World.v` | the environment: file system, overflow checks, Unicode tables |
| `Location.v`, `Token.v` | `graph/nodes.rs` (Location), `scanner/tokens.rs`, `errors.rs` |
| `Scanner.v` | `scanner/mod.rs`, all of it |
| `Meta.v` | `graph/metadata.rs`, `utils.rs` |
| `Inline.v`, `Block.v`, `Asg.v` | `graph/inlines.rs`, `graph/blocks.rs`, `graph/lists.rs`, `graph/asg.rs` |
| `Parser.v` | `parser.rs`, all of it |
| `Json.v` | the `serde` serialisation of the graph |
| `Html.v` | `backends/htmls.rs` and the HTMLBook Tera templates, without white space |
| `Tera.v` | the part of the template language the templates use: reading of sources, values, filters, loops, macros |
| `Templates.v` | the sources of the five templates, character by character |
| `Docx.v` | `backends/docx/*.rs` |
| `Cli.v` | `bin/asciidocr/*.rs`, `backends/mod.rs` |
| `Fixtures*.v` | the repository's own fixtures, run through the model by `vm_compute` (tests of the model, not proofs) |
| `Spec*.v` | specifications, written without the model's helpers |
| `*Lemmas.v`, `*Proofs.v`, `Scan*.v`, `Inv.v`, `Runs.v`, `TreeInd.v`, `DocGraph.v`, `Article*.v`, `Script*.v` | lemmas |
| `Properties*.v` | the theorems named in MANIFEST.json, each closed by `exact`, followed by `Print Assumptions`, beside `Example`s showing a non-trivial instance |

| properties | specification | lemmas | theorems |
|------------|---------------|--------|----------|
| C01-C03, C06-C08 | `SpecScan` | `ScanLemmas` `ScanFacts` `ScanMain` `ScanMain2` `ScanProofs` | `PropertiesScan` |
| C66 | `SpecLex` | `ScanView` `ScanLex` `ScanGrammar` | `PropertiesLex` |
| C67 | `SpecLex` | `ScanComplete` | `PropertiesLex` |
| C68 | `SpecLex` | `ScanWhole` | `PropertiesLex` |
| C04, C05, C41, C42, C50, C61 | `SpecScan` | `ScanFail` `ScanFail2` `ScanPanic` `ScanLine` | `PropertiesScanFail` |
| C43 | `SpecStart` | `ScanStart` | `PropertiesStart` |
| C09, C10 | `SpecLoc` | `LocProofs` | `PropertiesLoc` |
| C14, C18, C20, C25, C39, C44 | `SpecGraph` `SpecInclude` | `GraphLemmas` `Inv` `GraphProofs` | `PropertiesGraph` |
| C11, C17 | `SpecDoc` | `ScanDoc` `DocProofs` `DocGraph` | `PropertiesDoc` |
| C15, C16, C45 | `SpecLevel` | `LevelProofs` | `PropertiesLevel` |
| C12, C13 | `SpecVerbatim` | `VerbatimProofs` | `PropertiesVerbatim` |
| C32, C33 | `SpecHtml` | `TreeInd` `HtmlProofs` | `PropertiesHtml` |
| C34-C36, C57 | `SpecDocx` `SpecText` | `DocxProofs` `TextProofs` `CharrefProofs` | `PropertiesDocx` |
| C58, C59 | `SpecJson` | `JsonProofs` | `PropertiesJson` |
| C37, C46, C47 | `SpecCli` | `CliProofs` | `PropertiesCli` |
| C26-C29, C48, C60 | `SpecMeta` | `MetaProofs` | `PropertiesMeta` |
| C21, C24, C38, C49 | `SpecRun` `SpecXref` | `Runs` `RunProofs` `XrefProofs` | `PropertiesRun` |
| C30, C31 | `SpecWords` `SpecNotes` | `WordProofs` `NoteProofs` | `PropertiesText` |
| C22, C23, C51 | `SpecSelect` | `SelectProofs` | `PropertiesSelect` |
| C19 | `SpecLists` | `ListProofs` | `PropertiesLists` |
| C40 | `SpecPanic` | `PanicProofs` | `PropertiesPanic` |
| C52 | `SpecArticle` | `ArticleScan` `ArticleGraph` `ArticleText` `ArticleProofs` `ArticleWhole` `ArticleCheck` | `PropertiesArticle` |
| C53, C54 | `SpecArticleHtml` `SpecCli` | `ArticleHtml` | `PropertiesArticleHtml` |
| C55, C56 | `SpecArticleDocx` `SpecCli` | `ArticleDocx` | `PropertiesArticleDocx` |
| C62, C63 | `SpecSections` `SpecHtmlText` | `SectionsProofs` | `PropertiesSections` |
| C64, C65 | `SpecHtmlText` `SpecDocxText` | `HtmlText` `DocxText` | `PropertiesShown` |
| C69 | `SpecLex` `SpecScript` | `ScriptWords` `ScriptText` `ScriptLocs` `ScriptDecor` `ScriptGraph` `ScriptBlocks` `ScriptRefs` `LastBlind` `ScriptCells` `ScriptWhole` `ScriptCheck` | `PropertiesScript` |
| C70, C71 | `SpecScriptHtml` `SpecScriptJson` `SpecCli` | `ScriptHtml` `ReadScript` | `PropertiesScriptHtml` |
| C72 | `SpecIds` | `IdProofs` | `PropertiesScriptHtml` |
| C73–C76 | `SpecNest` | `NestProofs` | `PropertiesNest` |
| C77, C78 | `SpecTable` `SpecScriptHtml` | `ScriptTables` `TableProofs` | `PropertiesTable` |
| C79 | `SpecListing` `SpecSelect` | `ListingProofs` | `PropertiesListing` |
| C80 | `SpecCut` `SpecScript` `SpecScriptHtml` | `CutProofs` `CutHtml` (examples: `CutCheck`) | `PropertiesCut` |
| C81 | `SpecRead` `SpecJson` | `ReadProofs` | `PropertiesRead` |
| C82 | `SpecScriptJson` `SpecRead` `SpecScript` | `ReadScript` | `PropertiesRead` |
| C36, every graph | `SpecDocx` `SpecPage` | `StyleProofs` | `PropertiesPage` |
| C83, C85 | `SpecPage` `SpecDocx` `SpecCli` | `PageProofs` `PageScript` | `PropertiesPage` |
| C84 | `SpecScriptPage` `SpecPage` `SpecScript` | `PageScript` | `PropertiesPage` |
| C86 | `SpecHtmlPage` `SpecScriptHtml` `SpecScript` | `HtmlPage` `ScriptHtml` | `PropertiesHtmlPage` |
| C87 | `SpecOutcome` `SpecHtmlPage` `SpecRead` `SpecPage` `SpecCli` | `OutcomeProofs` `HtmlPage` | `PropertiesHtmlPage` |
| C88 | `SpecTemplates` `SpecHtmlPage` `SpecScriptHtml` | `TeraProofs` `TemplateProofs` `LaidProofs` `LaidBlocks` `LaidKinds` `LaidPage` `LaidSpread` `LaidScript` | `PropertiesTemplates` |
| C89 | `SpecAttrs` `SpecMeta` | `AttrProofs` | `PropertiesAttrs` |
| C90 | `SpecEnd` `SpecScript` | `EndProofs` `EndHtml` | `PropertiesEnd` |
| C91 | `SpecJoin` `SpecLex` | `JoinProofs` | `PropertiesJoin` |
| C92 | `SpecGrow` `SpecJoin` | `GrowProofs` | `PropertiesGrow` |
| C93 | `SpecResolve` | `ResolveProofs` `UnreadProofs` | `PropertiesResolve` |
| C94 | `SpecDepth` | `DepthProofs` | `PropertiesDepth` |
| C95 | `SpecPlace` `SpecResolve` | `PlaceProofs` `MovedProofs` `PlaceExample` | `PropertiesPlace` |
| C28, every list without quotes | `SpecAttrs` `SpecMeta` | `AcceptProofs` | `PropertiesAttrs` |

`SpecPath` says which file a directive names; `SpecInclude`, `SpecRun`, `SpecSelect`,
`SpecListing` and `SpecCut` use it.

The model is validated by replaying the repository's fixtures: 100 source/JSON
pairs and 27 source/HTML pairs evaluate to the expected output inside Coq
(generated by `tools/gen_fixtures.py`).

## Outcomes

Every function that can go wrong returns `res E A`:
`Ok a`; `Err e`, an error value handed to the caller; `Panic`, a Rust panic
(slice out of range or inside a character, `todo!()`, `unwrap()` on `None`,
overflow in a checked build); `Hang`, a loop or recursion that never ends;
`Exit`, a call of `std::process::exit`.  Loops whose Rust form terminates are
structural or have fuel that is proved sufficient; `parse` takes a fuel that
bounds the nesting of includes and table cells, and running out of it is `Hang`.

## Trusted base

* The Coq kernel (`coqchk` run over the build once).
* What `Print Assumptions` prints under each theorem.  No theorem depends on an
  axiom: each prints "Closed under the global context".  No axioms are declared
  in this development.  (A listing of all axioms in the loaded library context
  also shows seven entries `Coq.ssr.ssrunder.Under_rel.*`.  They are parameters of
  a module type in the standard library's ssreflect support, which is loaded with
  the arithmetic decision procedures.  No theorem uses them.)
* The correspondence between the model and the Rust code, which is by reading.
  The fixtures above test it.

Simplifications made by the model, all noted in the comments as well:

* `usize`/`i64` counters that only count bytes, lines or blocks are unbounded
  naturals.  `i8` level offsets and `i32` line numbers of includes are bounded
  and wrap or panic as the build profile says (`w_checked`).
* A `HashMap` is an association list without duplicate keys.  Iteration order
  is treated in C26.
* The three regular expressions are hand-translated into recursive functions.
* `char::is_alphanumeric`, the class `\w` and `to_lowercase` on non-ASCII text are
  fields of `world` (any function); canonicalisation of paths and reading of files too.
* Logging, timing, memory exhaustion and stack depth are not modelled (unbounded
  recursion is `Hang`).
* Tera: `Html.v` gives the HTML without white space between tags, as the repository's
  own HTML tests compare it, as a list of pieces (tags and text).  `Tera.v` is an
  interpreter for the template language (Tera 1.20, features "builtins"), written from
  its documentation, and `Templates.v` holds the sources of the templates; C88 proves
  that the two agree on every graph.  So `Html.v` is not trusted; `Tera.v` is.
* docx: the tree of paragraphs, runs, tables, styles and numberings handed to
  `docx-rs` is modelled, not the zip/XML writing inside that crate.
* The CLI is modelled after argument parsing by `clap`.

Not modelled: the insides of docx-rs, serde, clap, and image decoding (the
outcome of loading an image is a parameter).

## Properties

Where a property as stated turns out to be false of the code, the counterexample
is proved as a theorem named `..._refuted` and the strongest restriction found
is proved as `..._partial`; the property keeps its full wording in
`properties.jsonl` and counts as partial.

| id | modelled by | plan |
|----|-------------|------|
| C01 | `scan`, all branches | each successful `scan_token` yields the slice it advanced over; induction over `collect` |
| C02 | `next`, `collect` | every token advances the cursor; fuel `length+2` suffices |
| C03 | `scan` | line/column invariant; false after tokens containing a newline: refuted + partial |
| C04 | `Hang` outcomes of `scan` | refuted (unclosed macros); partial: hang only after an opener with no closer behind it |
| C05 | `Panic` outcomes of `scan` | refuted; partial: list of all causes |
| C06 | `add_heading` | direct, both directions |
| C07 | `scan_delim` | direct, both directions |
| C08 | `validate`, all CharRef branches | case analysis with an independent table |
| C09 | `reconcile` | sorting specification (least/greatest, permutation) |
| C10 | `loc_cmp` | order laws; antisymmetry refuted (file names ignored) |
| C11 | scanner+parser | scanner lemma for plain lines, then a simulation of the parser loop |
| C12 | pass-through mode of the parser | loop invariant on the open literal |
| C13 | comment tokens/blocks | non-interference between two token streams |
| C14 | block stack, graph | state invariant preserved by every parser step |
| C15 | `get_heading_level` | arithmetic; refuted at the ends of `i8` |
| C16 | `parse_level_offset`, `parse_include` | refuted (absolute `+n`, leaking offsets); characterisation |
| C17 | `parse_attribute`, `parse_attribute_reference` | refuted for values with a colon; partial otherwise |
| C18 | `push_block` | block invariant; second half refuted |
| C19 | `push_block`, list handling | refuted (continuations); partial without them |
| C20 | locations everywhere | block invariant; refuted for empty attribute values |
| C21 | `consolidate` | refuted for nested references; partial for top-level inlines |
| C22 | `extract_page_ranges`, include filter | refuted for open ranges not last; partial for well-formed selections |
| C23 | include filter | refuted for nested tags; partial for one tag |
| C24 | fuel of `parse` | refuted (self-include); partial: enough fuel exists without includes |
| C25 | `p_files` | state invariant; refuted inside table cells |
| C26 | association lists up to permutation | refuted for JSON text; proved for graph/HTML |
| C27 | `add_metadata_from_other` | refuted for roles; partial |
| C28 | `process_attributes` | refuted; partial: accepted exactly, for lists without quotes |
| C29 | `extract_attributes` | refuted for names that are suffixes of others; partial |
| C30 | `standardize_footnotes` | refuted for sections; partial for flat documents |
| C31 | `word_count` | refuted; partial |
| C32 | `render_htmlbook` | independent tag checker on the output |
| C33 | `render_htmlbook` | refuted; partial |
| C34 | `docx_table` | refuted (last row); exact characterisation |
| C35 | `runs_with_variant` | refuted; partial; the text of the runs for all inlines |
| C36 | style table | refuted for thematic breaks; partial: exactly these, for every graph |
| C37 | `run` | refuted for inputs with the output's extension; partial |
| C38 | `Exit` outcomes | refuted; partial |
| C39 | end of `parse` | invariant of the final state |
| C40 | `Panic` outcomes of the parser | refuted nine ways; partial: a class of token sequences closed under a state invariant |
| C41 | `Hang` outcomes of `scan` | exact: hangs iff an opener without closer is reached |
| C42 | `scan` | consequence of C04/C05 for documents without openers |
| C43 | every branch of `scan_token` | case analysis: the spelling of each kind of token |
| C44 | association lists | invariant of every metadata and attribute map in the graph |
| C45 | `parse_attribute`, `parse_level_offset` | exact function of value and offset |
| C46 | `run` | case analysis; docx refuted |
| C47 | `run` | case analysis against an independent destination and source |
| C48 | `html_document`, `render_docx` | renderings invariant under permutation of attribute lists |
| C49 | fuel of `parse` | no nested scan, no hang; with C42 for source text |
| C50 | `sc_line` | line invariant, exact away from tag tokens |
| C51 | include filter | the loop is the tag filter after the line filter |
| C52 | scanner and parser | a grammar of articles with their spelling and meaning; one simulation lemma per kind of block, composed over the whole source |
| C53 | `render_htmlbook` | HTML written front to back from the pieces; equal to rendering the nested blocks |
| C54 | `run` | C53 carried through the command |
| C55 | `render_docx` | one paragraph per piece of text with its style; simulation of the writer by (style, break due, lists so far); locations and nesting of sections do not matter |
| C57 | `value_or_refd_char` | refuted (numbers, names outside the table, nbsp, ndash); exactly the rest of the table is replaced (`C57_exact_partial`) |
| C58 | `render_json` | grammar of RFC 8259 as a relation; the printer satisfies it; prefix determinism gives unambiguity; names by the attribute invariant |
| C59 | `json_of_asg` | field lookup gives back every shown component |
| C60 | `process_attributes`, `parse_attribute` | last pair of a name by induction from the right; refuted for block anchors |
| C61 | `Panic` outcomes of `scan` | both directions, one lemma per construct; loops by induction on fuel |
| C62 | parser, `asg_push_block` | corollary of C52 for articles; refuted for references, links, footnotes, images, includes |
| C63 | parser | corollary of C52 for articles, with the text written from the pieces; refuted for block titles |
| C64 | `html_document` | a reader that drops tags, applied to the bytes; induction over inlines and blocks |
| C65 | `render_docx` | simulation of the writer: runs appended and line break flag; induction over blocks |
| C66 | `scan_token` | views of the branch tests on `before ++ c :: rest`; one lemma per branch; loops by induction on fuel |
| C67 | `scan_token` | the same views read backwards: each clause of the grammar makes its branch test true and the earlier ones false; loops computed exactly |
| C68 | `next`, `collect` | C66 and C67 with literals and errors by a walk over `scan_token`; induction over the token list in both directions |
| C69 | scanner and parser | documents given by their tokens (C68 relates them to the source); text with nested marks, links, references, images, footnotes, quotes, passed text; attribute lines and anchors before blocks; cross references filled with titles; description lists, verses, continued list items, listings with callouts; tables, whose cells are sources given by their tokens (the parser of a cell looks at its last token only for its type, by simulation with itself); one simulation lemma per kind of element and block; sections ended by macros by a flag in the page |
| C70 | `render_htmlbook` | locations do not matter; text of every block written from the block; the blocks of scripts are among those covered |
| C71 | `run` | C70 and the word count of C82 carried through the command |
| C72 | `html_document` | identifiers of tags collected by induction on the blocks, against an inductive description of what shows one |
| C73 | parser | refuted for every pair of delimited blocks and every text; the blocks made are computed exactly by the simulation of C69 |
| C74 | parser | holds at the end of the document; before another item and before a blank line the outcome (wrong blocks, an error) is computed exactly |
| C75 | parser | refuted; the stack of open lists is described by a tower, by induction on the items, then emptied into the graph |
| C76 | parser | refuted; the terms of C69, which may now span lines |
| C77 | parser | refuted (header, cells without blanks, one column, letters); exact for a document that is a table, by C69 |
| C78 | `html_table` | refuted (one column, header, one cell); rows by an invariant on the cells left in a row; rectangles by induction on the rows |
| C79 | parser | refuted (arrow, blank line, tag directive, fence); exact texts by induction on the directives, what a directive takes in by C51 |
| C80 | parser, HTML | refuted (section, line break, title); exact blocks and HTML by induction on the files, each with the steps of C69, also for directives that ask for lines or tags (the parts asked for are given by `SpecSelect`, their words taken from the scanned file); equal to the document in one file when seamless |
| C81 | `json_of_asg`, `render_json` | a reader that looks members up by name; each kind of node by computation on its members, then induction over inlines and blocks |
| C82 | `run`, `word_count` | C69 and C81 carried through the command; the count from C31 |
| C83 | `render_docx`, `run` | the graph flattened to a list of events; style, page break and list number of a paragraph are functions of the events before it; invariant of the writer, induction over blocks; the loop over table cells by rows |
| C84 | `run` | C69 and C83 carried through the command |
| C85 | `docx_list_start`, `docx_list_item` | from C83 |
| C86 | `render_htmlbook` | the only failure is a panic, so it holds of a graph iff it holds of some table met; induction over blocks, rows as in C78 |
| C87 | `run` | C81, C83 and C86 carried through the command |
| C88 | `render_templates`, `render_htmlbook` | each macro of the templates is run symbolically on the JSON of a block or inline, with calls of macros as hypotheses; induction over the graph gives a depth of calls that suffices; the exact text is related to that of C86 by deleting white space, or by white space next to tags |
| C89 | `new_block_meta_from_token`, `add_metadata_from_token`, `target_and_attrs_from_token` | the matches of the pattern for quoted attributes are found and struck out one by one, the rest split at commas; then induction over the items with their places |
| C90 | `parse_loop`, `parse`, `render_htmlbook` | the state of the parser before the last blank line is classified for each kind of block; from such states, closing the blocks at the blank line and then at the end gives the same graph as closing them at the end; C69 gives the graph with the blank line |
| C91 | `scan_token`, `next`, `collect` | on the grammar of C68: every token type keeps its place when text is added after a newline, except a link that reaches the end; the places behind a newline look alike to the grammar |
| C92 | `token_into`, `parse_include`, `parse_table_cell`, `parse_loop`, `parse_with`, `asg_push_block`, `push_block`, `asg_add_header` | every parser function is a list of additions to the graph and a result that are the same for all graphs (`logs`); then what a list of additions does to the blocks |
| C93 | `check_target`, `parse_block_image`, every parser function, `parse`, `run` | every parser function gives, for the two values of the flag, the same state but for the flag, or the first ends with a missing file; then the command by cases on the backend; for sources without include directives, every step is the same in two surroundings that differ in files |
| C94 | fuel of `token_into`, `parse_include`, `parse_table_cell`, `parse` | the results are ordered (giving up below all); every function is monotone in what it calls; induction on the depth, on the length of cells for the bound |
| C95 | `resolve_target`, `parse_include`, `parse_block_image`, every parser function, `parse` | every function but two gives the same state for all directories of origin (`moved`); includes and pictures by the premise; induction on the depth |
| C56 | `render_docx` | refuted (style of a list stays); holds after a heading, admonition or delimited block |

## Wrong programs

`seeded/LOG.jsonl` records edits of the model that a realistic bug would make.
Each was made in a scratch copy outside this repository and the whole
development was rebuilt.  A lemma whose proof no longer goes through is admitted in
the scratch copy and the build continued, so that `Print Assumptions` under
each property theorem tells whether that theorem depends on a broken lemma.
`theorems_failed` lists those, `first_failures` the lemmas that broke first.
`theorems_tightened` names the statements changed here because they survived an
edit that makes their English claim false.
