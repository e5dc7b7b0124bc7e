{"claims": [
{"property": "C01", "status": "proved", "theorems": ["C01_scan_lossless", "C01_stream_lossless"], "note": "all sources; no_tags is the property's own exception"},
{"property": "C02", "status": "proved", "theorems": ["C02_scan_finite"], "note": "all sources"},
{"property": "C03", "status": "partial", "theorems": ["C03_positions_refuted", "C03_positions_partial"], "note": "false as stated (tokens that swallow a newline); proved when earlier tokens do not span lines"},
{"property": "C04", "status": "partial", "theorems": ["C04_never_hangs_refuted", "C04_never_hangs_partial"], "note": "false as stated (unclosed image, include, inline style, attribute line); proved wherever no such construct starts, before any include tag"},
{"property": "C05", "status": "partial", "theorems": ["C05_never_panics_refuted", "C05_never_panics_partial"], "note": "false as stated; proved wherever none of the listed constructs starts, before any include tag; C61 shows that list to be exact"},
{"property": "C06", "status": "proved", "theorems": ["C06_heading_recognised"], "note": ""},
{"property": "C07", "status": "proved", "theorems": ["C07_delimiter_recognised", "C07_block_markers_only"], "note": ""},
{"property": "C08", "status": "proved", "theorems": ["C08_replacements_only"], "note": ""},
{"property": "C09", "status": "proved", "theorems": ["C09_reconcile_span", "C09_reconcile_perm", "C09_reconcile_perm_exact", "C09_reconcile_again"], "note": "Independence of order is up to include depth, line and column, which is what the order compares; exact when each depth has one file chain."},
{"property": "C10", "status": "partial", "theorems": ["C10_order_refuted", "C10_order_partial"], "note": "Equal exactly when equal is false (file names are ignored); all other order laws are proved."},
{"property": "C11", "status": "proved", "theorems": ["C11_paragraphs", "C11_lines"], "note": "Every list of lines, each blank or plain (SpecDoc.v says which texts are plain), with exact locations."},
{"property": "C12", "status": "partial", "theorems": ["C12_document_partial", "C12_block_partial", "C12_merged_refuted", "C12_scan_refuted"], "note": "For every document that is one listing, literal or passthrough block, and at every block position, whatever tokens the content scans to, the text is exactly the source between the delimiters. Refuted in general: text on the line before is merged into the block, and content that does not scan fails."},
{"property": "C13", "status": "partial", "theorems": ["C13_comment_block_partial", "C13_comment_line_partial", "C13_scan_refuted"], "note": "Two documents differing only in the tokens of a comment block parse to the same graph or error; a comment line leaves the parser state as it is. Refuted in general: comment content that does not scan fails the parse."},
{"property": "C14", "status": "proved", "theorems": ["C14_sections_nest"], "note": "For every parsed document, block at any depth."},
{"property": "C15", "status": "partial", "theorems": ["C15_heading_level_partial", "C15_panic_refuted"], "note": "Exact level (or error) of every heading token under every i8 offset, outside list continuations; refuted as stated because the sum overflows i8 and panics in a checked build."},
{"property": "C16", "status": "partial", "theorems": ["C16_plus_refuted", "C16_include_refuted", "C16_minus_partial"], "note": "Relative positive offsets replace instead of adding, and an include's offset stays in force after it (both refuted by witness); negative relative offsets do add."},
{"property": "C17", "status": "partial", "theorems": ["C17_substitution_refuted", "C17_same_as_name_refuted", "C17_substitution_partial"], "note": "False for values with a colon and for a value equal to the name. Proved for all documents of blank lines, attribute entries and lines of plain text with references."},
{"property": "C18", "status": "partial", "theorems": ["C18_tables_cells_partial", "C18_cells_refuted"], "note": "Tables contain only cells: proved. Cells only in tables: refuted by a cell line outside a table."},
{"property": "C19", "status": "partial", "theorems": ["C19_partial", "C19_list_refuted", "C19_item_refuted", "C19_no_list_refuted", "C19_dlist_refuted"], "note": "Proved for documents without block continuations, includes and table cells, without description lists beside delimited parent blocks, and with every list marker after a newline token. False in general: four refutations, one for each kind of failure."},
{"property": "C20", "status": "partial", "theorems": ["C20_at_most_two_partial", "C20_ordered_partial", "C20_ordered_refuted"], "note": "At most two entries: proved for all. Order: proved without attribute references, refuted with an empty attribute value."},
{"property": "C21", "status": "partial", "theorems": ["C21_partial", "C21_refuted", "C21_term_refuted"], "note": "False as stated: references in footnotes, list terms and captions stay empty. Proved for references standing in a block, against the last block with the id, for titles without references."},
{"property": "C22", "status": "partial", "theorems": ["C22_partial", "C22_refuted", "C22_order_refuted", "C22_zero_refuted"], "note": "False as stated (C22_refuted: an empty range selects everything; an open range that is not last is dropped; one from line 0 selects nothing). Proved: with an open range only at the end and from a line that exists, numbers below 2^31 - 1 and a nonempty selection, the tokens taken in are exactly those on the selected lines."},
{"property": "C23", "status": "partial", "theorems": ["C23_partial", "C23_refuted", "C23_hang_refuted"], "note": "False as stated (C23_refuted: a region inside a region is lost; C23_hang_refuted: an end directive that is not in a comment makes the scanner run on for ever). Proved: when the scanner yields well formed directives and those of the selected tags are not nested, exactly the tokens between them are taken in."},
{"property": "C24", "status": "partial", "theorems": ["C24_partial", "C24_refuted"], "note": "False as stated: a file including itself. Proved when include chains are bounded and the scanner finishes on every text met."},
{"property": "C25", "status": "partial", "theorems": ["C25_chains_partial", "C25_restored_partial", "C25_cells_refuted"], "note": "Every location carries a chain of files that was really followed, and the chain is empty afterwards; refuted that it is the chain of the file the text is from (table cells)."},
{"property": "C26", "status": "partial", "theorems": ["C26_partial", "C26_json_refuted"], "note": "HTML and docx are equal, the JSON value is equal up to the order of object members. The JSON text shows the order of the attribute maps (refuted)."},
{"property": "C27", "status": "partial", "theorems": ["C27_partial", "C27_refuted", "C27_options_refuted"], "note": "Attributes and options are merged as stated, own roles and everything else are kept. Incoming roles are dropped and incoming options are added to the roles (both refuted)."},
{"property": "C28", "status": "partial", "theorems": ["C28_partial", "C28_exact_partial", "C28_exact_added_partial", "C28_refuted", "C28_positions_refuted", "C28_quote_refuted"], "note": "Proved exactly for every list without quotes in the source: refused (panic) exactly when the specification's overdone says so, otherwise accepted, alone and merged into earlier metadata. Lists with quotes: see C89 and C28_quote_refuted. Non-ASCII first fields, a fourth position after quote, and a lone quote panic (refuted)."},
{"property": "C29", "status": "partial", "theorems": ["C29_partial", "C29_refuted", "C29_space_refuted"], "note": "Proved for distinct ASCII names and values without quote, newline or equals sign when no pair is the end of another. A pair that ends another, and a space after a comma, leave stray positional attributes (refuted)."},
{"property": "C30", "status": "partial", "theorems": ["C30_partial", "C30_refuted", "C30_title_refuted", "C30_break_refuted"], "note": "False as stated (C30_refuted: two definitions with the same id; footnotes in titles stay; a thematic break panics). Proved: when no footnote stands before a section, list or delimited block with footnotes in it, numbers run 1..n in document order, references link to their definitions and back, ids are distinct."},
{"property": "C31", "status": "partial", "theorems": ["C31_partial", "C31_exact", "C31_refuted", "C31_term_refuted"], "note": "False as stated (C31_refuted: texts are run together; terms and block titles are dropped). Proved: the exact count in terms of the glued texts, and the claim for separated texts with nothing dropped."},
{"property": "C32", "status": "proved", "theorems": ["C32_well_formed", "C32_well_nested"], "note": "For every graph whose texts have no <, > (and, where they become attribute values, no double quote): the output is in a grammar of well-nested elements, and a stack-based tag reader accepts it. White space between tags is not modelled."},
{"property": "C33", "status": "partial", "theorems": ["C33_partial", "C33_refuted"], "note": "False as stated: nothing is escaped (for every text, the text appears verbatim). Proved: with texts that need no escaping the only tags are the templates' own."},
{"property": "C34", "status": "partial", "theorems": ["C34_partial", "C34_refuted", "C34_one_column_refuted"], "note": "False as stated: the last row is never written, and with one column the first row has two cells. Proved: with two or more columns, all rows but the last, full and in order."},
{"property": "C35", "status": "partial", "theorems": ["C35_partial", "C35_text", "C35_refuted", "C35_superscript_refuted"], "note": "False as stated: formats leak to text after an inner span, sub-/superscript drops outer formats. Proved for inlines without these shapes. For all inlines: the text of every run is exactly its own, up to the treatment of newlines and character references (C35_text)."},
{"property": "C36", "status": "partial", "theorems": ["C36_partial", "C36_exact_partial", "C36_refuted"], "note": "False as stated for thematic breaks. Proved for every graph: style ids are unique, base styles defined, and every used style is defined except ThematicBreak, which is used exactly when a thematic break is written and never defined."},
{"property": "C37", "status": "partial", "theorems": ["C37_partial", "C37_default", "C37_stdout", "C37_destination", "C37_refuted"], "note": "False as stated for an input whose name already has the backend's extension. Proved: exactly those names are overwritten; output path, stdout exactly when asked, no other file touched."},
{"property": "C38", "status": "partial", "theorems": ["C38_partial", "C38_refuted", "C38_file_refuted"], "note": "False as stated: a table without cols whose first two cells are on different lines, or an included file that cannot be read. Proved when the included files can be read and no text met contains the table delimiter."},
{"property": "C39", "status": "partial", "theorems": ["C39_nothing_open_partial", "C39_twice_refuted", "C39_dropped_refuted"], "note": "No block or inline is left open. Refuted: parsing twice with one parser (level offset persists); text before a comment block is dropped."},
{"property": "C40", "status": "partial", "theorems": ["C40_partial", "C40_footnote_refuted", "C40_nested_refuted", "C40_continuation_refuted", "C40_wide_refuted", "C40_quote_refuted", "C40_verse_refuted", "C40_callout_refuted", "C40_offset_refuted", "C40_image_refuted"], "note": "Proved for sequences of ordinary tokens with unnested spans of words (no panic, exit or hang); false in general: nine panicking documents."},
{"property": "C41", "status": "proved", "theorems": ["C41_hangs_exactly"], "note": "exact: if and only if"},
{"property": "C42", "status": "proved", "theorems": ["C42_tame_scanned"], "note": ""},
{"property": "C43", "status": "proved", "theorems": ["C43_token_starts", "C43_no_opener_no_token"], "note": "Table of openers in SpecStart.v; proved for every token yielded, also of scans that later fail."},
{"property": "C44", "status": "proved", "theorems": ["C44_attributes_unique", "C44_document"], "note": "For all documents: metadata of blocks and inlines, and the attributes of the document."},
{"property": "C45", "status": "proved", "theorems": ["C45_offset_entry"], "note": ""},
{"property": "C46", "status": "proved", "theorems": ["C46_failed_run", "C46_docx_refuted"], "note": "For every world, fuel, environment and arguments. The docx backend is outside the statement; C46_docx_refuted shows it does truncate."},
{"property": "C47", "status": "proved", "theorems": ["C47_successful_run"], "note": "For every world, fuel, environment and arguments; the docx and JSON texts are represented by their model values."},
{"property": "C48", "status": "proved", "theorems": ["C48_html", "C48_docx", "C48_merge"], "note": ""},
{"property": "C49", "status": "proved", "theorems": ["C49_flat", "C49_tame"], "note": "Exact."},
{"property": "C50", "status": "proved", "theorems": ["C50_token_line"], "note": "Exact; no hypotheses."},
{"property": "C51", "status": "proved", "theorems": ["C51_lines_then_tags"], "note": "For line selections in the usable form and tags that are well formed and not nested (the cases in which C22 and C23 hold)."},
{"property": "C52", "status": "proved", "theorems": ["C52_articles", "C52_subsection_refuted", "C52_marks_refuted", "C52_title_refuted"], "note": "For articles of the grammar in SpecArticle.v; the conditions on it named in the property are needed: C52_subsection_refuted, C52_marks_refuted, C52_title_refuted."},
{"property": "C53", "status": "proved", "theorems": ["C53_html"], "note": "For articles of the grammar in SpecArticle.v; up to white space of the templates between tags."},
{"property": "C54", "status": "proved", "theorems": ["C54_run"], "note": "From parsed arguments (clap is not modelled)."},
{"property": "C55", "status": "proved", "theorems": ["C55_docx", "C55_run"], "note": "For every article of C52, from source text to the paragraphs of the docx value and through the command. What docx_rs makes of that value is not modelled."},
{"property": "C56", "status": "partial", "theorems": ["C56_refuted", "C56_normal_partial"], "note": "False as stated: lists, listings, literal blocks and thematic breaks leave their style behind (C56_refuted). C56_normal_partial: it holds when nothing since the last heading, admonition or delimited block other than an open block sets a style."},
{"property": "C57", "status": "partial", "theorems": ["C57_partial", "C57_exact_partial", "C57_refuted", "C57_name_refuted", "C57_ndash_refuted", "C57_nbsp_refuted"], "note": "False as stated: references by number in the source are scanned as text, names outside the table stay, nbsp becomes a space and ndash an em dash (each refuted). Proved for every other entry of the table, and that no other reference becomes its character."},
{"property": "C58", "status": "proved", "theorems": ["C58_json", "C58_one_value", "C58_names"], "note": "For all graphs, against the grammar of RFC 8259 restricted to natural numbers; the grammar is proved unambiguous."},
{"property": "C59", "status": "proved", "theorems": ["C59_shown"], "note": "For all pairs of graphs, in both directions."},
{"property": "C60", "status": "partial", "theorems": ["C60_list_partial", "C60_entry_partial", "C60_refuted"], "note": "proved for named attributes with quoted values (none of whose pairs ends another) added to any metadata, and for attribute entries; a second block anchor does not replace the first (refuted)"},
{"property": "C61", "status": "proved", "theorems": ["C61_panics_exactly"], "note": "Before any include tag, as C41."},
{"property": "C62", "status": "partial", "theorems": ["C62_partial", "C62_reference_refuted", "C62_link_refuted", "C62_footnote_refuted", "C62_image_refuted", "C62_include_refuted"], "note": "Holds for articles (C52). Refuted in general: a paragraph with a cross reference, a link, a footnote or an inline image closes the section around it at the next blank line, and text after an include is not in the included section."},
{"property": "C63", "status": "partial", "theorems": ["C63_partial", "C63_title_refuted", "C63_list_refuted", "C63_listing_refuted"], "note": "Holds for articles (C52). Refuted in general: a block title above a paragraph, list or verbatim block swallows all text after it up to the next block that takes a title."},
{"property": "C64", "status": "partial", "theorems": ["C64_partial", "C64_table_title_refuted", "C64_verse_refuted"], "note": "For every graph whose texts have no markup of their own and that has no titled table and no attribution on a verse, paragraph or table. Those are lost (refuted)."},
{"property": "C65", "status": "partial", "theorems": ["C65_partial", "C65_link_refuted", "C65_caption_refuted", "C65_quote_refuted", "C65_open_title_refuted"], "note": "For every graph without references lacking a text, image captions, tables, titles of quotes and open blocks, citations, and a few things attached to list items. The first kinds are lost (refuted); for tables see C34."},
{"property": "C66", "status": "proved", "theorems": ["C66_tokens_lexed", "C66_break_own_line_refuted", "C66_note_own_line_refuted", "C66_copyright_replaced_refuted"], "note": "full grammar of token spellings and contexts; the scanner yields only tokens of the grammar. Refuted: breaks and admonitions need not start a line; (C) between blanks is not replaced"},
{"property": "C67", "status": "proved", "theorems": ["C67_recognised", "C67_text_otherwise", "C67_unambiguous"], "note": "the scanner and the grammar agree for all token types but include tags"},
{"property": "C68", "status": "proved", "theorems": ["C68_next_token", "C68_errs_exactly", "C68_scan_is_grammar", "C68_succeeds", "C68_panics", "C68_hangs", "C68_errs", "C68_tagless", "C68_end_tag_refuted"], "note": "exact for all sources without include tags; after an include tag only C66 applies. An end tag whose name contains 'tag' becomes a start tag (C68_end_tag_refuted)"},
{"property": "C69", "status": "proved", "theorems": ["C69", "C69_marks_refuted", "C69_footnote_refuted", "C69_heading_refuted", "C69_subsection_refuted", "C69_section_refuted", "C69_bracket_refuted", "C69_anchor_refuted", "C69_attributes_refuted", "C69_image_role_refuted", "C69_break_refuted", "C69_position_refuted"], "note": "exact for the scripts of SpecScript; what the side conditions exclude or the specification shows is exhibited by the refuted variants: marks directly behind marks, marks after footnotes (panic), styled headings, subsections behind delimited blocks, paragraphs after a block with a macro, brackets behind links, the line break after an anchor, attributes going to a marked text, lost roles of images, attributes before breaks, counted positions. Not covered: attribute lines before paragraphs inside delimited blocks, marks inside verses, callouts in documents with icons, cells of several lines, includes, continuations by anything but delimited blocks or of first items"},
{"property": "C70", "status": "proved", "theorems": ["C70_html"], "note": "For scripts in the sense of SpecScript.v; up to white space of the templates between tags."},
{"property": "C71", "status": "proved", "theorems": ["C71_run"], "note": "From parsed arguments (clap is not modelled)."},
{"property": "C72", "status": "partial", "theorems": ["C72_refuted", "C72_ids_partial"], "note": "False: the identifiers of paragraphs, lists, verbatim and delimited blocks are not shown, so references to them lead nowhere (C72_refuted). Proved instead: the identifiers in the tags are exactly those of sections at any depth outside tables, and of block images not directly in an admonition."},
{"property": "C73", "status": "partial", "theorems": ["C73_refuted", "C73_exact_partial", "C73_never_partial"], "note": "False for every pair of delimiters and every text (C73_never_partial): the line closing the outer block opens a third one inside the inner one. The blocks made are given exactly."},
{"property": "C74", "status": "partial", "theorems": ["C74_refuted", "C74_end_partial", "C74_more_partial", "C74_more_never_partial", "C74_after_partial"], "note": "Holds at the end of the document (C74_end_partial). Before another item the paragraph joins the text of the item and the next item loses its text to a paragraph before the list, for all texts; before a blank line and another paragraph parsing fails whatever follows."},
{"property": "C75", "status": "partial", "theorems": ["C75_refuted", "C75_exact_partial", "C75_never_partial"], "note": "False whenever there are two items and the first has any text (C75_never_partial): all texts go to the last item. The blocks made are given exactly, for any number of items."},
{"property": "C76", "status": "partial", "theorems": ["C76_refuted", "C76_exact_partial"], "note": "False: the second line becomes the start of the next term. The blocks made are given exactly for descriptions of one further line before a last term."},
{"property": "C77", "status": "partial", "theorems": ["C77_header_refuted", "C77_cells_refuted", "C77_column_refuted", "C77_letter_refuted", "C77_exact_partial"], "note": "False: a first row of several cells directly under the fence is a header without a blank line below it; cells that are not preceded by a blank stay one cell; rows of one cell without a number of columns exit the program, a number of columns of one two-byte letter panics (refuted variants). Proved: the exact block for every document that is a table whose first row has several cells; tables inside larger documents by C69."},
{"property": "C78", "status": "partial", "theorems": ["C78_column_refuted", "C78_header_refuted", "C78_one_refuted", "C78_none_refuted", "C78_exact", "C78_fit", "C78_rows_partial"], "note": "False: the first row of a table of one column holds two cells, the header is no row, a header alone is followed by an empty row, tables of one cell or no columns panic. Proved: the exact HTML of every table whose columns are told and whose header is complete; tables without attributes are such; tables with as many cells in each row are shown row by row."},
{"property": "C79", "status": "partial", "theorems": ["C79_document_partial", "C79_block_partial", "C79_file_partial", "C79_arrow_refuted", "C79_blank_refuted", "C79_tag_refuted", "C79_fence_refuted"], "note": "False as stated: arrows and quotes in files of code are replaced by character references (C79_arrow_refuted), the final line break of the file gives a blank line (C79_blank_refuted), tag directives are shown and swallow their line break (C79_tag_refuted), a fence in an AsciiDoc file ends the listing (C79_fence_refuted). Proved: the exact texts of every listing with directives, alone in a document or at any place between blocks; a file without tag directives, character references and quotation marks is taken in byte for byte. Missing: callouts next to directives, listings in continuations."},
{"property": "C80", "status": "partial", "theorems": ["C80_blocks_partial", "C80_html_partial", "C80_same_partial", "C80_section_refuted", "C80_break_refuted", "C80_title_refuted"], "note": "False as stated: a section begun by a file ends with it unless one was open before (C80_section_refuted), without a blank line after a directive a line break comes before the next text (C80_break_refuted), and a document title in a file is an error (C80_title_refuted). Exact positive results: the blocks, title and HTML of every document in several files (sections as they are made), whole files or the lines and tagged regions that a directive asks for, and equality with the document in one file when no file begins a section outside of one and no macro ends a section. Not covered: leveloffset, directives inside of other blocks (listings: C79), files that end in a block other than a paragraph without a blank line."},
{"property": "C81", "status": "proved", "theorems": ["C81_read", "C81_order", "C81_type_refuted"], "note": "For all graphs; C81_type_refuted shows that cells lack the member type."},
{"property": "C82", "status": "proved", "theorems": ["C82_json", "C82_run"], "note": "For scripts in the sense of SpecScript.v; from parsed arguments (clap is not modelled). Places (locations) are left out here."},
{"property": "C83", "status": "proved", "theorems": ["C83_docx", "C83_run"], "note": "For all graphs. The value built with docx_rs; what docx_rs makes of it (XML, zip) and the visual properties of styles are not modelled. The text of a run is given up to the treatment of newlines and character references (relations of SpecDocx.v, under UTF-8)."},
{"property": "C84", "status": "proved", "theorems": ["C84_docx", "C84_run"], "note": "For scripts in the sense of SpecScript.v; from parsed arguments (clap is not modelled)."},
{"property": "C85", "status": "partial", "theorems": ["C85_partial", "C85_refuted", "C85_second_refuted"], "note": "False as stated: numbered lists and all lists with bullets but the first refer to numberings that are not defined. Proved for all graphs: the numbers referred to are those of the lists of the items, and exactly one numbering is defined, that of the first list with bullets, if there is one."},
{"property": "C86", "status": "proved", "theorems": ["C86_html", "C86_script", "C86_run"], "note": "For all graphs; up to white space of the templates between tags. What Rust reads as a fraction (f64) is part of the world."},
{"property": "C87", "status": "proved", "theorems": ["C87_run"], "note": "From parsed arguments (clap is not modelled); the result of parsing is that of the model's parse."},
{"property": "C88", "status": "proved", "theorems": ["C88_templates", "C88_same", "C88_script"], "note": "The interpreter for the template language (Tera.v) is trusted; the depth of macro calls is a bound that is proved to suffice from some number on."},
{"property": "C89", "status": "proved", "theorems": ["C89_list", "C89_added", "C89_directive", "C89_place_refuted"], "note": ""},
{"property": "C90", "status": "partial", "theorems": ["C90_blocks_partial", "C90_html_partial", "C90_same_partial", "C90_refuted", "C90_styled_refuted", "C90_line_refuted"], "note": "False as stated: without the blank line, the text of the only item of a list that does not start the document, or of the last item of a list if a word in it has a role, becomes a paragraph in the item (C90_refuted, C90_styled_refuted), and without the end of the line the title of a section becomes a paragraph (C90_line_refuted). Proved for documents that end in any other block: blocks, title and HTML are those of the script, and the same with and without the blank line."},
{"property": "C91", "status": "proved", "theorems": ["C91_joined_exactly", "C91_placed", "C91_lines", "C91_fails", "C91_unless_link_refuted", "C91_paragraph_refuted", "C91_line_numbers_refuted"], "note": "Exact for sources without include tags. A link at the end of a line does take the newline and the next word into its address, also over a blank line (C91_unless_link_refuted, C91_paragraph_refuted); a term marked at the end of its line is not counted as a line (C91_line_numbers_refuted)."},
{"property": "C92", "status": "proved", "theorems": ["C92_final", "C92_same", "C92_below", "C92_above", "C92_apart", "C92_any_graph_refuted", "C92_after_table_refuted"], "note": "All tokens, includes and table cells. The exceptions in the statement are needed: a heading goes into a section at the end of the graph (C92_any_graph_refuted), and after a table it is an error (C92_after_table_refuted)."},
{"property": "C93", "status": "proved", "theorems": ["C93_checked", "C93_graph", "C93_found", "C93_run", "C93_as_found", "C93_unread", "C93_run_as_found", "C93_docx_refuted", "C93_include_refuted"], "note": "Closed under the global context. The docx backend refuses the option (C93_docx_refuted) and include directives are resolved in any case (C93_include_refuted); these are the reasons for the premises."},
{"property": "C94", "status": "proved", "theorems": ["C94_more", "C94_same", "C94_enough", "C94_flat", "C94_run", "C94_enough_refuted"], "note": "Closed under the global context. With include directives the length of the source is no bound (C94_enough_refuted)."},
{"property": "C95", "status": "proved", "theorems": ["C95_moved", "C95_place_refuted"], "note": "Closed under the global context. Without the premise it is false (C95_place_refuted)."}
]}
