{"id": "C01", "title": "Scanner loses no source text", "statement": "If iterating a Scanner over a source finishes without error and meets no include tag directive, then concatenating the lexemes of the yielded tokens in order gives back exactly the source, byte for byte.", "quantifier": "every source string (all bytes, all lengths) whose scan finishes and has no tag::/end:: directive token", "why_tests_cant": "The number of markup combinations is unbounded; a test compares the tokens of a handful of strings and cannot rule out one branch of the scanner that skips or repeats a byte.", "anchors": ["src/scanner/mod.rs: Scanner::next, scan_token, add_token, add_text_until_next_markup", "src/scanner/tokens.rs: Token"]}
{"id": "C02", "title": "Scanner iteration is finite and ends in exactly one Eof", "statement": "Every token yielded before the last covers at least one byte of the source, so a finished scan of n bytes yields at most n+1 items; exactly one Eof token is yielded, it is the last item, and the iterator returns None ever after.", "quantifier": "every source string whose scan does not fail", "why_tests_cant": "Progress is a loop-variant argument over all branches of the scanner; a test can only show that particular inputs end.", "anchors": ["src/scanner/mod.rs: Iterator::next, scan_token, is_at_end"]}
{"id": "C03", "title": "Token positions point at the token", "statement": "For every token of a finished scan, slicing the source at the token's line and columns gives the token's lexeme: line is one more than the number of newlines before it, startcol is one more than the number of bytes since the last newline and endcol is startcol plus the length minus one.", "quantifier": "every source string and every token of its scan", "why_tests_cant": "Positions are accumulated over the whole history of the scan; an error in one branch shows only in documents that pass through it earlier.", "anchors": ["src/scanner/mod.rs: scan_token, add_token, add_tag, Scanner.line, startcol", "src/scanner/tokens.rs: Token::first_location, last_location"]}
{"id": "C04", "title": "Scanner never hangs", "statement": "For every source string, asking the Scanner for its next item returns in finite time.", "quantifier": "every source string", "why_tests_cant": "A hang needs a particular construct left open up to the end of input; the space of unterminated constructs at end of input is not covered by fixtures.", "anchors": ["src/scanner/mod.rs: scan_token (attribute lines), add_block_image, add_inline_image, add_include, add_inline_style, add_tag"]}
{"id": "C05", "title": "Scanner never panics", "statement": "For every valid UTF-8 source string, iterating the Scanner yields tokens or errors but never panics.", "quantifier": "every UTF-8 source string", "why_tests_cant": "Panics come from byte indexing at the end of input and from slicing inside multi-byte characters; they need specific adjacency of markup with end of input or non-ASCII text.", "anchors": ["src/scanner/mod.rs: starts_attr, starts_charref, starts_attribute_reference, add_heading, add_table_cell, add_link, add_cross_reference, add_block_anchor, peeks_ahead"]}
{"id": "C06", "title": "Heading markers are recognised exactly", "statement": "At the start of a line, a run of n equals signs followed by a space scans as the heading token of level n for n from 1 to 5 with that exact lexeme, and as an error for n of 6 or more.", "quantifier": "every n, every text before (ending a line) and after the marker", "why_tests_cant": "n and the surrounding document are unbounded.", "anchors": ["src/scanner/mod.rs: scan_token '=' branch, add_heading"]}
{"id": "C07", "title": "Block delimiters are recognised exactly", "statement": "A line at the start of a line consisting of exactly four equal delimiter characters scans as the delimiter token of that character; text in which no delimiter, heading, list, attribute or table marker occurs never yields a block token.", "quantifier": "every delimiter character, every document around it", "why_tests_cant": "Recognition depends on lookbehind and lookahead around arbitrary positions, including both ends of the input.", "anchors": ["src/scanner/mod.rs: scan_token, starts_repeated_char_line", "src/scanner/tokens.rs: TokenType::block_from_char"]}
{"id": "C08", "title": "Typographic replacements come from a fixed table", "statement": "Every character-reference token of a scan has as text either its own &name; source spelling or the entity the documented table assigns to its spelling; no other substitution is ever made.", "quantifier": "every source string and every CharRef token of its scan", "why_tests_cant": "Every branch that creates such a token has to be considered for all inputs.", "anchors": ["src/scanner/tokens.rs: Token::validate, Token::text", "src/scanner/mod.rs: handle_text_symbol_replacement_parens, starts_charref"]}
{"id": "C09", "title": "Reconciling locations gives the span", "statement": "Location::reconcile of any non-empty list of locations gives the least and the greatest location of the list (by include depth, line, column), independent of the order of the list, and reconciling a result again changes nothing.", "quantifier": "every list of locations, every permutation of it", "why_tests_cant": "Lists are arbitrary and the claim is about order independence.", "anchors": ["src/graph/nodes.rs: Location::reconcile, Ord for Location"]}
{"id": "C10", "title": "The order on locations is a lawful total order", "statement": "Comparison of locations is reflexive, transitive and total, and two locations compare as equal exactly when they are equal.", "quantifier": "every pair and triple of locations", "why_tests_cant": "Laws quantify over all pairs and triples; tests sample pairs.", "anchors": ["src/graph/nodes.rs: Ord for Location, PartialOrd, PartialEq"]}
{"id": "C11", "title": "Plain paragraphs come through unchanged", "statement": "A document made of paragraphs of plain text lines separated by blank lines parses into exactly one paragraph block per paragraph, in order, whose text is the lines joined by newlines and whose location is the first and last character of the paragraph.", "quantifier": "every non-empty list of non-empty lists of plain lines", "why_tests_cant": "The number and shape of paragraphs is unbounded and the parser carries state from one to the next.", "anchors": ["src/parser.rs: Parser::parse, parse_text, parse_new_line_char, add_inlines_to_block_stack", "src/scanner/mod.rs: add_text_until_next_markup"]}
{"id": "C12", "title": "Verbatim blocks preserve their content", "statement": "For a listing, literal or passthrough block the text of the block is exactly the source text between its delimiters, whatever markup it contains, apart from include directives and callouts in listings.", "quantifier": "every sequence of tokens between the two delimiters", "why_tests_cant": "Content is arbitrary; every markup token has to be passed through unchanged.", "anchors": ["src/parser.rs: token_into (open_parse_after_as_text_type), pass_text_through, parse_delimited_leaf_block"]}
{"id": "C13", "title": "Comments leave no trace", "statement": "The content of a comment block, and of a comment line, contributes nothing to the parsed graph: the graph is the same whatever the comment says.", "quantifier": "every comment content and every document around it", "why_tests_cant": "Non-interference quantifies over pairs of documents.", "anchors": ["src/parser.rs: token_into (CommentBlock, Comment)", "src/graph/blocks.rs"]}
{"id": "C14", "title": "Sections nest strictly", "statement": "In every successfully parsed document each section has a level within the supported range, and every section directly inside a section has a strictly greater level than its parent.", "quantifier": "every document that parses", "why_tests_cant": "The tree is built incrementally from arbitrary heading sequences and from include files; only an invariant over all states settles it.", "anchors": ["src/parser.rs: parse_section_headings, get_heading_level, add_last_to_block_stack_or_graph", "src/graph/blocks.rs: Block::push_block, takes_block_of_type", "src/graph/asg.rs: Asg::push_block"]}
{"id": "C15", "title": "Heading level offsets are exact or refused", "statement": "The level of a section is exactly the number of equals signs minus one plus the current level offset when that lies within the supported range, and otherwise parsing fails with HeadingOffsetError; it never wraps or clamps silently.", "quantifier": "every heading token and every level offset", "why_tests_cant": "The offset is any integer a document sets, including values that do not fit the counter.", "anchors": ["src/parser.rs: get_heading_level, parse_level_offset"]}
{"id": "C16", "title": "Level offsets are relative and scoped", "statement": "Relative offsets (+n, -n) add to the current offset and an offset given on an include directive is in force only for that include.", "quantifier": "every sequence of offset settings and includes", "why_tests_cant": "It is a property of histories.", "anchors": ["src/parser.rs: parse_level_offset, parse_include"]}
{"id": "C17", "title": "Attribute values substitute faithfully", "statement": "After a document attribute line :name: value, a reference {name} in later text yields exactly the value; an undefined reference yields its source spelling.", "quantifier": "every name and value, every later position", "why_tests_cant": "Names and values are arbitrary strings.", "anchors": ["src/parser.rs: parse_attribute, parse_attribute_reference"]}
{"id": "C18", "title": "Tables contain only cells", "statement": "In every parsed document each table block contains table cells and nothing else, and table cells occur only inside tables.", "quantifier": "every document that parses", "why_tests_cant": "An invariant over all documents.", "anchors": ["src/parser.rs: parse_table_cell, push_block_to_stack", "src/graph/blocks.rs: Block::push_block, takes_block_of_type"]}
{"id": "C19", "title": "Lists contain only their items", "statement": "In every parsed document each ordered or unordered list contains list items only, and each description list contains description list items only; items occur nowhere else.", "quantifier": "every document that parses", "why_tests_cant": "An invariant over all documents and continuation states.", "anchors": ["src/parser.rs: parse_unordered_list_item, add_list_item, push_block_to_stack", "src/graph/blocks.rs: Block::push_block", "src/graph/lists.rs"]}
{"id": "C20", "title": "Every node's location is an ordered span", "statement": "In every parsed document every location list has at most two entries, and with two the first is not after the second.", "quantifier": "every document that parses and every node", "why_tests_cant": "Locations are merged along arbitrary construction histories.", "anchors": ["src/graph/blocks.rs: consolidate_locations, add_locations", "src/graph/inlines.rs: consolidate_locations", "src/graph/nodes.rs: Location::reconcile, destructure_inline_locations"]}
{"id": "C21", "title": "Cross references get their target's title", "statement": "After parsing, every cross reference without its own text whose target is the id of a titled block in the document carries that title as its text.", "quantifier": "every document that parses and every cross reference in it", "why_tests_cant": "References may occur at any depth and before or after their target.", "anchors": ["src/graph/asg.rs: consolidate_xrefs", "src/graph/blocks.rs: id_hashes, inlines_mut"]}
{"id": "C22", "title": "Include line selection is exact", "statement": "With lines=..., the lines of the included file that reach the document are exactly those whose number is in the union of the given ranges, an open range reaching to the end of the file.", "quantifier": "every line selection string and every included file", "why_tests_cant": "Range strings and files are unbounded.", "anchors": ["src/utils.rs: extract_page_ranges", "src/parser.rs: parse_include"]}
{"id": "C23", "title": "Include tag selection is exact", "statement": "With tag(s)=..., the content reaching the document is exactly the content between the tag and end directives of the selected tags.", "quantifier": "every tag set and every included token sequence", "why_tests_cant": "It is a filter automaton over arbitrary token sequences.", "anchors": ["src/parser.rs: parse_include", "src/scanner/tokens.rs: Token::tag"]}
{"id": "C24", "title": "Includes terminate", "statement": "Parsing a document with include directives finishes for every collection of files.", "quantifier": "every collection of files, including files including each other", "why_tests_cant": "Cycles are a property of the whole file graph.", "anchors": ["src/parser.rs: parse_include, token_into"]}
{"id": "C25", "title": "Include nesting is tracked faithfully", "statement": "While the content of an included file is parsed, locations carry the chain of files that led there; after the include the chain is as before.", "quantifier": "every document and collection of files", "why_tests_cant": "History property over nested includes.", "anchors": ["src/parser.rs: parse_include, resolve_target, file_stack"]}
{"id": "C26", "title": "Parsing does not depend on hash order", "statement": "The graph and the rendered output are the same whatever iteration order the hash maps choose.", "quantifier": "every iteration order of every attribute map", "why_tests_cant": "Hash order is chosen at random at run time; tests see one order at a time.", "anchors": ["src/graph/metadata.rs: ElementMetadata::add_metadata_from_other", "src/graph/asg.rs: consolidate_xrefs", "src/backends/jsons.rs"]}
{"id": "C27", "title": "Merging metadata keeps everything", "statement": "Adding block metadata to a block keeps the block's own attributes, options and roles and adds all incoming ones, incoming attributes winning on equal keys.", "quantifier": "every pair of metadata", "why_tests_cant": "Arbitrary maps and lists.", "anchors": ["src/graph/metadata.rs: ElementMetadata::add_metadata_from_other"]}
{"id": "C28", "title": "Any attribute list is accepted", "statement": "Processing an element attribute list [..] never panics, whatever text stands between the brackets.", "quantifier": "every attribute list text", "why_tests_cant": "Panics need unusual strings: lone quotes, non-ASCII text, too many positions.", "anchors": ["src/graph/metadata.rs: process_attributes, process_attribute, simplify_cols", "src/utils.rs: extract_attributes, key_values_from_named_attribute"]}
{"id": "C29", "title": "Named attributes parse to their values", "statement": "An attribute list of named attributes name=\"value\" gives exactly the map from names to values, whatever the order and whatever commas and spaces the quoted values contain.", "quantifier": "every list of names and values without quotes", "why_tests_cant": "Arbitrary names and values.", "anchors": ["src/utils.rs: extract_attributes, key_values_from_named_attribute", "src/graph/metadata.rs: process_attributes"]}
{"id": "C30", "title": "Footnote numbering is unique and consistent", "statement": "After standardize_footnotes every footnote definition has a number of its own, numbers run 1..n in document order, and each reference links to the definition with the same number.", "quantifier": "every graph", "why_tests_cant": "Numbering is threaded through a recursive traversal of arbitrary trees.", "anchors": ["src/graph/asg.rs: standardize_footnotes", "src/graph/blocks.rs: extract_footnote_definitions", "src/graph/inlines.rs: deconstruct_footnote"]}
{"id": "C31", "title": "Word count counts the words of the text", "statement": "word_count is the number of whitespace-separated words of the document's text, every block's text counted once, in document order, nothing dropped.", "quantifier": "every graph", "why_tests_cant": "Arbitrary trees.", "anchors": ["src/graph/asg.rs: all_text, word_count", "src/graph/blocks.rs: block_text"]}
{"id": "C32", "title": "HTMLBook output is well-formed", "statement": "For every graph whose texts contain no markup of their own, the HTMLBook rendering is a well-nested sequence of tags.", "quantifier": "every graph", "why_tests_cant": "Trees are arbitrary; templates branch on optional fields.", "anchors": ["templates/htmlbook/*.tera", "src/backends/htmls.rs: render_htmlbook"]}
{"id": "C33", "title": "Document text cannot inject HTML", "statement": "Text of the document appears in the HTMLBook output with its markup-significant characters escaped.", "quantifier": "every text", "why_tests_cant": "All strings.", "anchors": ["templates/htmlbook/inline.html.tera", "src/backends/htmls.rs"]}
{"id": "C34", "title": "Docx tables keep every cell", "statement": "The docx rendering of a table contains every cell of the table, in order, in rows of the table's column count.", "quantifier": "every table, every column count", "why_tests_cant": "Off-by-one effects depend on the number of cells modulo the number of columns.", "anchors": ["src/backends/docx/document.rs: add_table"]}
{"id": "C35", "title": "Docx runs carry exactly their own formatting", "statement": "In the docx rendering each piece of text is formatted with exactly the spans that enclose it in the graph.", "quantifier": "every tree of inline spans", "why_tests_cant": "Arbitrary nesting and siblings.", "anchors": ["src/backends/docx/document.rs: runs_from_inline, runs_from_inline_with_variant"]}
{"id": "C36", "title": "Docx references only styles it defines", "statement": "Every paragraph style used in the docx rendering is defined in the document's style table, and each style is defined once.", "quantifier": "every graph", "why_tests_cant": "Arbitrary sequences of blocks.", "anchors": ["src/backends/docx/document.rs", "src/backends/docx/styles.rs: DocumentStyles"]}
{"id": "C37", "title": "The command line never overwrites its input", "statement": "Running the command with an input file and default output never chooses the input file itself as the output file, and output goes to stdout exactly when asked.", "quantifier": "every combination of file name, output option, backend and stdout flag", "why_tests_cant": "The combination space includes all file names.", "anchors": ["src/bin/asciidocr/main.rs: run", "src/bin/asciidocr/cli.rs: read_output, read_input"]}
{"id": "C38", "title": "Parsing never terminates the process", "statement": "Parsing any document returns a result to the caller; it never exits the process.", "quantifier": "every document", "why_tests_cant": "Needs a table whose shape triggers it.", "anchors": ["src/graph/blocks.rs: consolidate_table_info"]}
{"id": "C39", "title": "Parsing a document twice gives the same graph", "statement": "A finished parse leaves nothing behind in the open-block and open-inline state: a successful parse ends with every block and inline it opened placed in the graph.", "quantifier": "every document that parses", "why_tests_cant": "Leftover state depends on arbitrary histories.", "anchors": ["src/parser.rs: Parser::parse, handle_dangling_spans, add_last_block_to_graph"]}
{"id": "C40", "title": "Parsing never panics on scanned tokens", "statement": "For every token sequence, parsing returns a graph or an error and never panics.", "quantifier": "every token sequence", "why_tests_cant": "Arbitrary sequences.", "anchors": ["src/parser.rs", "src/graph/blocks.rs", "src/graph/inlines.rs"]}
{"id": "C41", "title": "Scanner hangs exactly on unclosed constructs", "statement": "After any tokens yielded so far (none an include tag), the next call of the Scanner loops forever if and only if at this place starts an include, block image, inline image or inline style with no closing bracket in the rest of the source, or an attribute entry line not ended by a newline.", "quantifier": "every UTF-8 source and every point of its scan before an include tag", "why_tests_cant": "Both directions quantify over all sources; tests can only show single hanging inputs.", "anchors": ["src/scanner/mod.rs: scan_token, add_block_image, add_inline_image, add_include, add_inline_style"]}
{"id": "C42", "title": "Tame documents are always scanned to the end", "statement": "Every ASCII source whose last line ends with a newline and which contains none of include::, image:, [., [[, <<, tag:: and end:: is scanned to the end or to a reported error: no panic, no endless loop, no process exit.", "quantifier": "every such source", "why_tests_cant": "Safety of every input of an infinite class.", "anchors": ["src/scanner/mod.rs: Iterator for Scanner, scan_token and all of its branches"]}
{"id": "C43", "title": "Markup tokens come only from their spelling", "statement": "Where the Scanner yields a token of a markup type, the source at that place starts with one of the spellings documented for the type (for example { for an attribute reference, include:: for an include, << for a cross reference); hence a source in which no such spelling occurs yields no token of that type.", "quantifier": "every source string, every token yielded, every token type", "why_tests_cant": "The scanner has some sixty branches with one-byte and multi-byte look-ahead; a branch that fires on the wrong text shows only on the text nobody wrote a test for.", "anchors": ["src/scanner/mod.rs: Scanner::scan_token", "src/scanner/tokens.rs: TokenType"]}
{"id": "C45", "title": "Exactly what a leveloffset entry does", "statement": "For every attribute entry naming leveloffset whose value is v: decimal digits or a plus sign and digits denoting a number below 2^64 set the offset to that number cut to a signed byte; a minus sign and digits denoting at most 128 add the negative number to the offset, which panics on overflow when overflow checks are on and wraps otherwise; every other v is reported as an error.", "quantifier": "all values v, all parser states without an open verbatim block, both build modes", "why_tests_cant": "The value is free text and the current offset is one of 256, so the space of pairs is unbounded; the interesting cases are at overflow boundaries.", "anchors": ["src/parser.rs: parse_attribute, parse_level_offset"]}
{"id": "C46", "title": "Failing runs leave files untouched", "statement": "With the HTMLBook and JSON backends, a run of the command that does not succeed has created, truncated or written no file and printed no rendering.", "quantifier": "every input, arguments and environment", "why_tests_cant": "All ways of failing: unreadable input, parse errors, panics in parser or templates, unwritable output.", "anchors": ["src/bin/asciidocr/main.rs: run, render_string", "src/bin/asciidocr/cli.rs: read_input, read_output"]}
{"id": "C47", "title": "Successful runs write one rendering to one place", "statement": "A run of the command that succeeds writes the backend's rendering of the parsed input exactly once: to the output file, or to standard output when asked, and nowhere else.", "quantifier": "every input, arguments and environment", "why_tests_cant": "All combinations of backend, output option, flags and documents.", "anchors": ["src/bin/asciidocr/main.rs: run, render_string", "src/bin/asciidocr/cli.rs: read_output"]}
{"id": "C48", "title": "HTML and docx output do not depend on hash order", "statement": "Two graphs that differ only in the order of the entries of their attribute maps give the same HTML and the same docx output, and merging metadata gives maps with the same entries whatever the order of the incoming entries.", "quantifier": "every graph and every order of the entries of every attribute map in it", "why_tests_cant": "Hash order is chosen at random at run time; tests see one order at a time.", "anchors": ["src/graph/metadata.rs: ElementMetadata::add_metadata_from_other", "src/backends/htmls.rs", "src/backends/docx.rs"]}
{"id": "C49", "title": "Flat documents finish parsing", "statement": "Parsing a document without include directives and without '|' comes to an end and returns to the caller whenever the scanner finishes on it; the scanner finishes on every tame document (ASCII, last line ended, none of the constructs the scanner searches for without bound).", "quantifier": "every such document, every file system, nesting bound, origin and resolution mode", "why_tests_cant": "Tests show that particular documents finish; that no document of the class loops or exits the process is a statement about all of them.", "anchors": ["src/parser.rs", "src/graph/blocks.rs", "src/scanner/mod.rs"]}
{"id": "C50", "title": "The line of a token counts the line ends before it", "statement": "In every scan the line number of a token is one more than the number of newline tokens and tag directives yielded before it; so line numbers start at 1 and no line is skipped.", "quantifier": "every source text, every prefix of the token sequence", "why_tests_cant": "Arbitrary texts and token prefixes.", "anchors": ["src/scanner/mod.rs: add_token, next"]}
{"id": "C51", "title": "Lines are selected before tags", "statement": "When an include directive gives both lines and tags, the tokens taken in are those between the directives of the selected tags among the tokens on the selected lines, and nothing else of the file reaches the parser.", "quantifier": "every include directive with a usable line selection and unnested tags, every file", "why_tests_cant": "Arbitrary files and selections.", "anchors": ["src/parser.rs: parse_include"]}
{"id": "C52", "title": "Articles parse to the blocks they spell", "statement": "Take any article made of an optional title with attribute entries under it, and of headings of levels 1 to 4, paragraphs, flat ordered and unordered lists, listing, literal and passthrough blocks, example, sidebar, open and quote blocks holding paragraphs, lists and verbatim blocks, one-paragraph admonitions, thematic and page breaks, comment lines and blocks, and attribute entries, each followed by a blank line. Its text lines are plain text with attribute references and marked stretches (strong, emphasis, code, highlight, superscript, subscript) that do not touch each other; a title holds no references or super- or subscripts; an admonition or delimited block is not directly followed by a subsection. Parsing succeeds; the blocks are, up to locations, exactly those of the article in their order, each with its lines joined by newlines and every reference replaced by the value in force at that place; every section holds what follows it up to the next heading of its level or a higher one; comments and entries leave nothing behind; and the header title is the title.", "quantifier": "every article of the grammar: any number and order of pieces, any plain text", "why_tests_cant": "Unbounded documents; the combinations of blocks cannot be enumerated.", "anchors": ["src/parser.rs: parse, token_into_block", "src/scanner/mod.rs: scan_token"]}
{"id": "C53", "title": "The HTML of an article", "statement": "For every article of C52, parsing and then rendering HTML succeeds and gives exactly this text: the document head with the title; for every piece in order its element (p, ol/ul with li and p, pre, div, aside, blockquote, hr) around its text, with em, strong, code, span, sup and sub around the marked stretches and references replaced by the value in force; a heading closes the open sections of its level and below and opens a new one; all are closed at the end. White space between tags is not considered.", "quantifier": "every article of the grammar", "why_tests_cant": "Unbounded documents.", "anchors": ["src/backends/htmls.rs", "templates/htmlbook", "src/parser.rs: parse"]}
{"id": "C54", "title": "The command converts articles", "statement": "Started with the HTML backend on a file or standard input holding an article of C52, the command succeeds; its effects are exactly the word count, if asked for, and one write of the HTML text of C53 to its destination, provided the destination can be written.", "quantifier": "every article, every set of arguments with the HTML backend, every environment", "why_tests_cant": "Unbounded documents and environments.", "anchors": ["src/bin/asciidocr/main.rs: run", "src/bin/asciidocr/cli.rs"]}
{"id": "C55", "title": "Articles become docx paragraphs", "statement": "The docx output of an article of C52 consists of exactly the expected paragraphs in order: the title, headings, list items with the number of their list, text, verbatim blocks, admonition titles and texts and thematic breaks, each with its style, a page break before the paragraph after a page break, and one run per stretch of text with the properties of its mark, lines joined by single spaces. The command writes it to its destination.", "quantifier": "every article", "why_tests_cant": "Unbounded documents.", "anchors": ["src/backends/docx/document.rs: DocxWriter, add_block_to_doc, runs_from_inline", "src/backends/docx/mod.rs: render_docx", "src/bin/asciidocr/main.rs: run"]}
{"id": "C56", "title": "Ordinary paragraphs have the style Normal", "statement": "In the docx output a paragraph outside other blocks has the style Normal.", "quantifier": "every article and every paragraph in it", "why_tests_cant": "The style is state of the writer and depends on everything before the paragraph.", "anchors": ["src/backends/docx/document.rs: set_style, reset_style, add_list, add_block_to_doc"]}
{"id": "C57", "title": "Character references become their characters in docx", "statement": "In the docx output a character reference, by number or by name, is replaced by the character it stands for.", "quantifier": "every reference", "why_tests_cant": "The references are unboundedly many; the table has 43 entries.", "anchors": ["src/graph/substitutions.rs: CHARREF_MAP", "src/graph/inlines.rs: value_or_refd_char", "src/scanner/mod.rs: starts_charref", "src/scanner/tokens.rs: validate"]}
{"id": "C58", "title": "The JSON output is JSON", "statement": "For every graph the JSON output is a text of the JSON grammar (RFC 8259); a JSON text stands for one value only, so every conforming reader reads back exactly the value the serialisation describes; and for every parsed document no object has a name twice.", "quantifier": "every graph; every parsed document for the names", "why_tests_cant": "Texts with arbitrary bytes to escape, unbounded nesting.", "anchors": ["src/bin/asciidocr/main.rs: run", "src/graph/asg.rs: Asg", "src/graph/blocks.rs: Block", "src/graph/inlines.rs: Inline"]}
{"id": "C59", "title": "The JSON output determines the graph", "statement": "Two graphs give the same JSON output exactly when they agree in everything but the fields marked as not serialised (whether a span is open, the type and inline flag of metadata, the document id and the table of ids): nothing else of a graph is lost.", "quantifier": "every pair of graphs", "why_tests_cant": "A claim about all pairs of graphs; optional fields and shared names make collisions hard to rule out by example.", "anchors": ["src/graph/asg.rs: Asg", "src/graph/blocks.rs: Section, LeafBlock, ParentBlock, BlockMacro, TableCell, Break", "src/graph/lists.rs: List, ListItem, DList, DListItem", "src/graph/inlines.rs: InlineSpan, InlineRef, InlineLiteral", "src/graph/metadata.rs: ElementMetadata"]}
{"id": "C44", "title": "Attribute maps have one value per key", "statement": "In every parsed document the attributes of every block, span and reference, and those of the document, hold at most one value for each name.", "quantifier": "every document that parses and every metadata in it", "why_tests_cant": "Attributes are merged from several sources (block lines, macros, anchors, table options) in an order that depends on the document.", "anchors": ["src/graph/metadata.rs: ElementMetadata", "src/graph/blocks.rs: Block::add_metadata"]}
{"id": "C60", "title": "The last attribute of a name counts", "statement": "Of several attributes of the same name given for one block, in one attribute list or in several lines above it, and of several attribute entries of the same name, the last one gives the value; attributes of other names keep theirs.", "quantifier": "all attribute lists, metadata so far and attribute entries", "why_tests_cant": "Which value wins depends on every attribute that came before; tests look at single attributes.", "anchors": ["src/graph/metadata.rs: add_metadata_from_token, process_attributes", "src/parser.rs: parse_attribute"]}
{"id": "C61", "title": "Scanner panics exactly at nine kinds of construct", "statement": "In any UTF-8 source and before any include tag, the scanner panics at a place exactly when one of these starts there: an attribute entry, attribute reference or character reference that runs to the end of the source; a heading marker that ends the source or meets a non-ASCII character; a table cell or link whose text runs into a non-ASCII character before anything ends it; a cross reference or block anchor without its closing in ASCII; an include tag without its bracket.", "quantifier": "every UTF-8 source string, every place the scanner reaches", "why_tests_cant": "To say exactly where, both directions are needed for all sources: tests show single panics, not that there are no others.", "anchors": ["src/scanner/mod.rs: scan_token, starts_attr, starts_charref, starts_attribute_reference, add_heading, add_table_cell, add_link, add_cross_reference, add_block_anchor, add_tag"]}
{"id": "C62", "title": "A section keeps everything up to the next heading", "statement": "In a parsed graph, at every depth, no block other than a section follows a section: what follows a heading up to the next heading of its level or above is inside the section.", "quantifier": "every document", "why_tests_cant": "Whether a section is closed too early depends on what stands in its paragraphs; tests look at a few paragraphs.", "anchors": ["src/parser.rs: close_parent_after_push, token_into (NewLineChar, CrossRef, LinkMacro, FootnoteMacro, InlineImageMacro)", "src/graph/asg.rs: push_block"]}
{"id": "C63", "title": "No text is lost in parsing", "statement": "The texts of the parsed graph, in document order, are what the document says: every stretch of text once, with attribute references replaced and markup and comments left out.", "quantifier": "every document", "why_tests_cant": "Text can vanish at any combination of blocks; tests check the combinations someone thought of.", "anchors": ["src/parser.rs: token_into, parse_text, block_title", "src/graph/asg.rs"]}
{"id": "C64", "title": "The HTML shows the text of the graph", "statement": "Outside its tags the HTMLBook output consists of the texts of the graph, each once and in document order, and of nothing else.", "quantifier": "every graph", "why_tests_cant": "It is a statement about all trees of blocks and inlines, through five mutually recursive templates.", "anchors": ["templates/htmlbook/*.tera", "src/backends/htmls.rs"]}
{"id": "C65", "title": "The docx shows the text of the graph", "statement": "The runs of the docx output are the texts and line breaks of the graph, each once and in document order, with the labels of admonitions, thematic breaks and attributions in between.", "quantifier": "every graph", "why_tests_cant": "It is a statement about all trees of blocks and inlines; a test sees one tree, and the output is a zip file.", "anchors": ["src/backends/docx/document.rs"]}
{"id": "C66", "title": "Tokens follow a lexical grammar", "statement": "Each token covers a stretch of the source whose spelling and surroundings (what comes before and after, whether a line starts or ends there) are those a fixed grammar gives for its type; where no include tags come before, the stretch is the one right after the preceding tokens.", "quantifier": "every UTF-8 source, every token of every type", "why_tests_cant": "The grammar has some seventy clauses with conditions on unbounded text to both sides; tests sample a few spellings in a few surroundings.", "anchors": ["src/scanner/mod.rs:66-440", "src/scanner/mod.rs:486-656", "src/scanner/tokens.rs"]}
{"id": "C67", "title": "The lexical grammar is complete and unambiguous", "statement": "Where the tokens so far contain no include tag and the source continues with something the grammar calls markup (any of the token types but text, tags and the end), the scanner's next token is that markup, with that type and that spelling; a token is text exactly where the grammar has no markup; and the grammar never offers two kinds or lengths of markup at one place.", "quantifier": "every UTF-8 source, every place reached, every clause of the grammar", "why_tests_cant": "Absence of markup and precedence among some seventy clauses cannot be sampled; a missed test order shows up only on combinations of a clause with unbounded surroundings.", "anchors": ["src/scanner/mod.rs:66-440", "src/scanner/mod.rs:486-656", "src/scanner/mod.rs:658-850"]}
{"id": "C68", "title": "The scanner is exactly its lexical grammar", "statement": "For a source in which no include tag is met, scanning succeeds with a list of tokens exactly if the grammar divides the source into these tokens, with the literals, lines and columns that follow from the division; it panics, hangs or gives an error exactly if the grammar gets to a place where, respectively, a construct of the panicking kind, an unclosed construct or a heading of more than five equals signs starts. At each place reached, with or without tags to come, the next token is the one the grammar gives.", "quantifier": "every UTF-8 source, every list of source files", "why_tests_cant": "It is an equivalence over all sources and all outcomes; no finite set of inputs shows that nothing else can be produced.", "anchors": ["src/scanner/mod.rs:20-440", "src/scanner/mod.rs:486-850", "src/scanner/tokens.rs"]}
{"id": "C69", "title": "What the parser makes of a document given by its tokens", "statement": "If the tokens of a source are those of a script - maybe a title with attribute entries, then paragraphs, lists, lists whose items are continued by delimited blocks, callout lists, description lists, verse, verbatim and comment blocks, comments, attribute entries, headings, admonitions, breaks, titled block images, titled delimited blocks and titled tables, and maybe a last paragraph with or without a final newline, each with attribute lines and anchors before it, whose texts hold plain text, quotes, attribute and character references, styled and nested marks, links, cross references, images, footnotes, passed text, hard breaks, comment lines and addresses - then parsing succeeds, and the graph without its locations holds exactly the blocks and inlines that the script says, in the sections it says, the metadata it says and the title it says; the cells of a table, which are scanned on their own, hold the inlines that their tokens say; a cross reference to the identifier of a block holds the title of the last such block. A block whose text holds a link, reference, image or footnote ends the section it stands in.", "quantifier": "every UTF-8 source and every script whose words are its tokens, within the stated conditions on neighbouring elements; every world, fuel, origin and path resolution mode", "why_tests_cant": "The documents are unbounded in number, length and combination of elements; each test shows one combination.", "anchors": ["src/parser.rs:127-1515", "src/graph/asg.rs:80-145", "src/graph/blocks.rs", "src/graph/inlines.rs", "src/scanner/mod.rs:20-440", "src/graph/metadata.rs"]}
{"id": "C70", "title": "The HTML of a document given by its tokens", "statement": "If the tokens of a source are those of a script of C69 whose tables can be shown (the columns are told as a number from 1 to 2^63-1, and the header is complete), then parsing and rendering HTML succeed and give exactly this text: the document head with the title; every block of the script in order as its element with its class, identifier, language or kind, its title, its text and attribution, sections with the blocks they hold, tables with their header and rows; in the text strong, em, code, span, sup, sub, a, img, br and footnote elements around exactly what they mark. White space between tags is not considered.", "quantifier": "every UTF-8 source and every script whose words are its tokens; every world, fuel, origin and path resolution mode", "why_tests_cant": "Unbounded documents.", "anchors": ["src/backends/htmls.rs", "templates/htmlbook", "src/parser.rs: parse"]}
{"id": "C71", "title": "The command converts documents given by their tokens", "statement": "Started with the HTML backend on a file or standard input holding a source whose tokens are those of a script of C69 whose tables can be shown, the command succeeds; its effects are exactly the word count, if asked for, and one write of the HTML text of C70 to its destination, provided the destination can be written and the block images are found.", "quantifier": "every script, every set of arguments with the HTML backend, every environment", "why_tests_cant": "Unbounded documents and environments.", "anchors": ["src/bin/asciidocr/main.rs: run", "src/bin/asciidocr/cli.rs"]}
{"id": "C72", "title": "Identifiers of blocks become identifiers in the HTML", "statement": "Every identifier given to a block of the graph is the id attribute of a tag of the HTML output, so that references to it lead there.", "quantifier": "every graph that can be rendered", "why_tests_cant": "Blocks of all kinds at every depth; the fixtures hold few identifiers.", "anchors": ["templates/htmlbook/block.html.tera", "templates/htmlbook/leafblocks.html.tera", "src/backends/htmls.rs"]}
{"id": "C73", "title": "A delimited block in a delimited block is closed with it", "statement": "A document made of a delimited block holding a delimited block of another kind holding a paragraph, each closed by its own line, has one block, which holds one block, which holds the paragraph.", "quantifier": "every pair of different delimiters, every text of the paragraph", "why_tests_cant": "All texts and pairs of delimiters; the fixtures hold no block closed after an inner one.", "anchors": ["src/parser.rs: parse_delimited_parent_block", "src/parser.rs: add_to_block_stack_or_graph"]}
{"id": "C74", "title": "A paragraph attached to a list item belongs to the item", "statement": "A paragraph after a line with a single plus behind a list item becomes a block of that item, whether the document ends there, another item follows, or a blank line and a paragraph.", "quantifier": "every marker, every text of items and paragraphs", "why_tests_cant": "All texts; whether it works depends on what follows.", "anchors": ["src/parser.rs: parse_block_continuation", "src/parser.rs: parse_unordered_list_item", "src/parser.rs: parse_ordered_list_item"]}
{"id": "C75", "title": "Items of lists in lists keep their texts", "statement": "Items whose markers alternate between the two kinds of list open a list in the item before; every item has its own text.", "quantifier": "every number of items, every marker and text", "why_tests_cant": "Unbounded depth.", "anchors": ["src/parser.rs: parse_unordered_list_item", "src/parser.rs: parse_ordered_list_item", "src/parser.rs: add_last_block_to_graph"]}
{"id": "C76", "title": "The second line of a description belongs to it", "statement": "In a description list, a line of text after the description of a term continues the description, also when another term follows.", "quantifier": "every text of terms and descriptions", "why_tests_cant": "All texts; the fixtures have descriptions of one line before another term.", "anchors": ["src/parser.rs: parse_description_list_term"]}
{"id": "C77", "title": "A table is what is written between its fences", "statement": "A document that is a table holds one table block with the cells of the source in order; it has as many columns as the first row has cells, and a header exactly if a blank line stands under the first row and none above it.", "quantifier": "every title, every number of rows and cells, every text of the cells, every world, origin and resolution mode", "why_tests_cant": "Unbounded tables; the fixtures have three tables.", "anchors": ["src/parser.rs: parse_table", "src/parser.rs: parse_table_cell", "src/graph/blocks.rs: consolidate_table_info", "src/graph/metadata.rs: simplify_cols"]}
{"id": "C78", "title": "Each row of a table is a row of the HTML", "statement": "The HTML of a table has one row element for each row of the table, with the cells in order; the header stands in a row of the head of the table.", "quantifier": "every table, every number of columns, with and without header", "why_tests_cant": "Unbounded tables; the fixtures have three tables.", "anchors": ["templates/htmlbook/tables.html.tera", "src/backends/htmls.rs"]}
{"id": "C79", "title": "An include in a listing stands for the text of the file", "statement": "In a listing, each include directive stands for the text of the lines it selects of the file it names, byte for byte, and the text around it is kept.", "quantifier": "every listing with any number of directives, every file the scanner accepts, every selection of lines and tags, every world, origin and place between blocks", "why_tests_cant": "Unbounded texts and files; the fixtures include one file in a listing.", "anchors": ["src/parser.rs: parse_include", "src/parser.rs: token_into", "src/scanner/tokens.rs: Token::text"]}
{"id": "C80", "title": "A document cut into files is the document in one piece", "statement": "If parts of a document stand in other AsciiDoc files that include directives take in, at any depth, the graph and the HTML are those of the document in one file: the blocks of a file stand in place of its directive, the attributes set in it hold afterwards, and paths are relative to the file.", "quantifier": "every document given by its tokens as in C69, cut into any number of files at any depth at blank lines, every world, origin and amount of recursion that suffices", "why_tests_cant": "Unbounded documents and nesting of files; the fixtures have three includes between blocks, none nested.", "anchors": ["src/parser.rs: parse_include", "src/parser.rs: token_into", "src/parser.rs: parse", "src/parser.rs: resolve_target"]}
{"id": "C81", "title": "The JSON output can be read by the names of its members", "statement": "A reader that knows the graph only by the names of members - name and type tell the kind of a node, its parts stand under inlines, blocks, items, principal, terms, title, caption, target, level, marker, variant, form, delimiter, value, metadata and location - and that refuses unknown names and members, whatever their order, gets from the JSON text of a graph exactly what the graph shows. (The type of table cells is called node_type.)", "quantifier": "every graph; every value the text stands for", "why_tests_cant": "All graphs; the fixtures compare a few texts as wholes.", "anchors": ["src/graph/blocks.rs: Serialize", "src/graph/inlines.rs: Serialize", "src/graph/nodes.rs", "src/graph/lists.rs", "src/graph/metadata.rs", "src/graph/asg.rs", "src/bin/asciidocr/main.rs"]}
{"id": "C82", "title": "The command writes the JSON of documents given by their tokens", "statement": "Started with the JSON backend on a file or standard input holding a source whose tokens are those of a script of C69, the command succeeds; its effects are exactly the word count, if asked for, which is the number of words of the texts of the blocks run together, and one write of a JSON text to its destination, from which the reader of C81 gets the blocks and the title of the script.", "quantifier": "every script, every source with its tokens, every world, environment and arguments in which the source can be read and the destination written", "why_tests_cant": "All scripts; the tests of the command convert single files.", "anchors": ["src/bin/asciidocr/main.rs: run", "src/graph/asg.rs: word_count", "src/bin/asciidocr/cli.rs: read_input, read_output"]}
{"id": "C83", "title": "The docx file of any graph is known exactly", "statement": "For every graph the docx backend either fails with the first trouble met from front to back (an image that cannot be read, a cols attribute that is no number of 64 bits, two or more cells with no columns), or gives exactly: for each title, paragraph, item, attached block, term, label and attribution one paragraph, in order, with the style set last, the number of its list, a page break if one came since the paragraph before, and one run per text, in the format of all spans entered so far in the outermost span or reference; for each table its rows but the last; for each image a picture; the table of the styles in the order of first use; and one numbering, that of the first list with bullets. The command writes that file, or creates an empty one and panics.", "quantifier": "every graph, every outcome of reading images; every world, environment and arguments of the command", "why_tests_cant": "All graphs; the repository has no test of the docx output at all.", "anchors": ["src/backends/docx/document.rs: add_block_to_doc and all methods, runs_from_inline, runs_from_inline_with_variant", "src/backends/docx/styles.rs: style_id, generate", "src/backends/docx/mod.rs: render_docx", "src/bin/asciidocr/main.rs: run"]}
{"id": "C84", "title": "The command writes the docx file of documents given by their tokens", "statement": "For a source whose tokens are those of a script of C69, the docx file is the one C83 gives for the blocks and the title of the script; started with the docx backend, the command prints the word count if asked for, creates the file and writes it, or, if an image cannot be read or a table has no number of columns, creates it and panics.", "quantifier": "every script, every source with its tokens, every world, environment and arguments in which the source can be read and the destination written", "why_tests_cant": "All scripts; the repository has no test of the docx output.", "anchors": ["src/bin/asciidocr/main.rs: run", "src/backends/docx/document.rs: add_block_to_doc", "src/parser/mod.rs: parse"]}
{"id": "C85", "title": "Every numbering that a docx paragraph refers to is defined", "statement": "In the docx output each number that the paragraph of a list item refers to is the id of a numbering of the document.", "quantifier": "every graph that is rendered", "why_tests_cant": "All graphs; the repository has no test of the docx output.", "anchors": ["src/backends/docx/document.rs: add_list, add_list_item"]}
{"id": "C86", "title": "The HTML of any graph is known exactly", "statement": "For every graph the HTML backend either gives exactly one text, a function of its blocks and title (elements, classes, identifiers, titles, texts, attributions, tables with header and rows by the number of columns as the template engine reads it, blocks without a tag of their own as UNHANDLED), or panics; it panics if and only if a table that is met has no cols attribute, has a header and fewer cells than columns or a negative number of them, or has two or more cells and 0 columns, or an admonition that is met is of no kind. The same for documents given by their tokens (scripts), down to what the command prints or writes. White space between tags is not considered.", "quantifier": "every graph and world; every script, every source with its tokens, every environment and arguments", "why_tests_cant": "All graphs, among them those for which the templates fail.", "anchors": ["templates/htmlbook", "src/backends/htmls.rs: render_htmlbook", "src/bin/asciidocr/main.rs: run"]}
{"id": "C87", "title": "What the command does, completely", "statement": "Every run of the command reads its source or ends with nothing done (with a panic for standard input, an exit code for a file); if parsing fails, nothing is done and the failure is that of parsing; else the word count is printed if asked for, and then: HTML and JSON go to the destination (the JSON can be read back to the graph, the HTML is that of C86), with a panic if the file cannot be written or a table cannot be shown; docx goes to a file as C83 says, with an exit code for standard output or unresolved paths and a panic for anything else.", "quantifier": "every world, environment, arguments and fuel", "why_tests_cant": "All runs; the repository tests no run that fails.", "anchors": ["src/bin/asciidocr/main.rs: run, render_string", "src/bin/asciidocr/cli.rs: read_input, read_output"]}
{"id": "C88", "title": "The HTML is that of the templates", "statement": "The text that the template engine gives for the five HTMLBook templates and the JSON of a graph is known exactly, white space included; it panics iff a table cannot be shown. It agrees with the HTML of the other properties in every character that is not white space, and, unless there are pass blocks, in everything but white space before or after tags.", "quantifier": "every graph and world; from the source, every document given by its tokens as in C69", "why_tests_cant": "Unbounded graphs; the HTML tests compare 27 documents after removing white space.", "anchors": ["templates/htmlbook/htmlbook.html.tera", "templates/htmlbook/block.html.tera", "templates/htmlbook/inline.html.tera", "src/backends/htmls.rs: render_htmlbook"]}
{"id": "C89", "title": "What an attribute list stands for", "statement": "An attribute list, in brackets before a block or in an include directive or image macro, is read as follows. The attributes in quotes count first, then the comma-separated fields, of which those in quotes are empty. A field with an equals sign or bar is a name and a value, and the last value of a name counts; role gives its words; a first field that begins as source, quote or verse is the style; the other fields are the language, attribution, citation or positional attributes by their places. Nothing else changes, and the program panics exactly if a field is at a place that its style does not have or the third byte of the first field is inside a character.", "quantifier": "every list of attributes name=\"value\" (none the end of another) and fields without quotes, in any mix; any metadata before it; any target", "why_tests_cant": "Unbounded mixtures of names, values, places and styles.", "anchors": ["src/graph/metadata.rs: process_attributes, process_attribute", "src/utils.rs: extract_attributes, key_values_from_named_attribute, target_and_attrs_from_token"]}
{"id": "C90", "title": "The blank line after the last block does not count", "statement": "A document whose last block is followed by the end of its last line has the same blocks, title and HTML as with a blank line after that block.", "quantifier": "every script as in C69 without a last paragraph of its own, ended by any kind of block", "why_tests_cant": "Unbounded documents; the fixtures end in a few kinds of blocks, mostly with one line end.", "anchors": ["src/parser.rs: parse, parse_new_line_char", "src/graph/asg.rs: push_block"]}
{"id": "C91", "title": "The tokens of a source do not depend on the lines below it", "statement": "If a source ends a line and scans, then with any second source that scans put below it the tokens are those of the first source without its end marker followed by those of the second, exactly if the last token of the first is not a link without brackets. If that last token is a newline, the tokens of the second keep their columns and are moved down by the number of newline tokens of the first. If the second source makes the scanner panic, hang or fail, so do the two together.", "quantifier": "all UTF-8 first sources that end with a newline and second sources, with no include tag in either; all lists of files", "why_tests_cant": "Unbounded pairs of sources: some token types look ahead to a closing mark on a later line, so each of the 60 token types could be changed by what follows.", "anchors": ["src/scanner/mod.rs: scan_token, add_link, add_cross_reference, add_inline_style"]}
{"id": "C92", "title": "What is in the graph stays, and does not matter to what comes", "statement": "Whatever tokens come and in whatever state the parser is, the blocks already in the graph are still there afterwards, in the same order and unchanged until the texts of the cross references are filled in, except that the last one may have headings added at its end. With another graph the parser does the same and adds the same blocks, if both graphs end with a block no heading goes into. So what is written below two sources of as many lines that leave the parser in the same state stands for the same blocks or fails in the same way.", "quantifier": "all token lists, parser states, graphs, worlds and nesting depths; for sources, all UTF-8 sources that end a line without include tags and whose last token is not a link", "why_tests_cant": "It quantifies over every parser state and every graph, and over all that can still come; a test looks at one document, and a rare token that changed an earlier block would go unseen.", "anchors": ["src/parser.rs: token_into, parse_include, parse_table_cell, add_to_block_stack_or_graph, check_and_move_header", "src/graph/asg.rs: push_block, add_header", "src/graph/blocks.rs: push_block"]}
{"id": "C93", "title": "Not looking for the files of pictures changes nothing else", "statement": "Parsing with and without target resolution gives the same result, unless the parse with resolution ends with a target resolution error for a target that is not found. So a document that parses gives the same graph without resolution, the two agree where all files are found, and for HTML and JSON the command with -x does exactly what the command without it does, or the command without it wrote nothing and ended with such an error. For a source without include directives the command with -x does what the command without it does where every file is found. The files of include directives are looked for in any case, and docx refuses the option.", "quantifier": "all worlds, depths of includes, origins, sources and commands", "why_tests_cant": "The flag is read in one function but carried by a parser with twenty fields; that no other step depends on it is a statement about all sources", "anchors": ["src/parser.rs: new_no_target_resolution", "src/parser.rs: check_target", "src/parser.rs: parse_block_image", "src/bin/asciidocr/main.rs: run"]}
{"id": "C94", "title": "More depth changes nothing but giving up", "statement": "Includes and table cells are parsed by recursion. A parse that may recurse deeper gives the same result as one that may recurse less deep, unless the latter ran out of depth; two parses that do not run out agree. A source without include directives never needs more depth than its length, one without bars needs none. The command behaves likewise.", "quantifier": "all worlds, depths, origins and sources", "why_tests_cant": "That the depth is never visible in a result is a statement about all depths; documents that need much depth are not in any test", "anchors": ["src/parser.rs: token_into", "src/parser.rs: parse_include", "src/parser.rs: parse_table_cell", "src/parser.rs: parse"]}
{"id": "C95", "title": "A tree of documents can be moved", "statement": "Where a document and the files it names lie does not matter: from two directories, in two file systems, from which the same files are found along every chain of includes, a source parses to the same result, graph or error.", "quantifier": "all pairs of file systems and directories, depths, options and sources", "why_tests_cant": "File systems and chains of includes are unboundedly many; tests use one directory", "anchors": ["src/parser.rs: resolve_target", "src/parser.rs: parse_include", "src/parser.rs: check_target", "src/parser.rs: Parser::new"]}
