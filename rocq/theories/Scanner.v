(** * Scanner: /repo/src/scanner/mod.rs lines 9-838

    Bytes are examined one at a time and cast to [char] ([byte as char]), as in
    the code.  Loops [while p(self.peek()) { self.current += 1 }] are modelled
    by [advance]; where the Rust loop has no end-of-input test and the loop
    condition holds of ['\0'] (what [peek] returns past the end), running off
    the end is the outcome [Hang] (the loop would only stop by overflowing
    [usize]).  [peeks_ahead] is modelled without its slice panic, because at all
    its uses but those in [add_cross_reference] and [add_block_anchor] (which
    check it, see [boundary_loop]) the current position directly follows an
    ASCII byte and so is a character boundary.  What the iterator does after it
    has returned an [Err] is not modelled (the parser stops there). *)
From Verif Require Import Base Location Token.
Local Open Scope char_scope.
Local Open Scope nat_scope.

(** mod.rs 11-20 [struct Scanner] *)
Record scanner := mkSc {
  sc_src : bytes;
  sc_start : nat;
  sc_startcol : nat;
  sc_cur : nat;
  sc_line : nat;
  sc_scanning : bool;
  sc_tagend : bool;
  sc_files : list bytes }.

(** mod.rs 40-64 [Scanner::new], [Scanner::new_with_stack] *)
Definition new_with_stack (src : bytes) (files : list bytes) : scanner :=
  mkSc src 0 1 0 1 true false files.
Definition new (src : bytes) : scanner := new_with_stack src [].

Definition set_cur (sc : scanner) (n : nat) : scanner :=
  mkSc (sc_src sc) (sc_start sc) (sc_startcol sc) n (sc_line sc)
       (sc_scanning sc) (sc_tagend sc) (sc_files sc).
(** [self.current += n] *)
Definition bump (sc : scanner) (n : nat) : scanner := set_cur sc (sc_cur sc + n).

(** mod.rs 803-805 [is_at_end] *)
Definition is_at_end (sc : scanner) : bool := List.length (sc_src sc) <=? sc_cur sc.

(** what [peek] makes of a byte in range: '\0' inside a character *)
Definition peek_byte (b : ascii) : ascii := if is_cont b then NUL else b.

Definition peek_at (src : bytes) (i : nat) : ascii :=
  match nth_error src i with Some b => peek_byte b | None => NUL end.

(** mod.rs 807-812 [peek] *)
Definition peek (sc : scanner) : ascii := peek_at (sc_src sc) (sc_cur sc).

(** mod.rs 814-819 [peek_back] *)
Definition peek_back (sc : scanner) : ascii :=
  match sc_start sc with
  | O => NUL
  | S i => peek_at (sc_src sc) i
  end.

(** mod.rs 821-829 [peeks_ahead] *)
Definition peeks_ahead (sc : scanner) (count : nat) : bytes :=
  let src := sc_src sc in
  if is_at_end sc || (List.length src <? sc_cur sc + count)
     || negb (is_boundary src (sc_cur sc + count))
  then [NUL]
  else firstn count (skipn (sc_cur sc) src).

(** mod.rs 831-837 [peek_line]: [count] grows until the last character of
    [peeks_ahead(count)] is '\n' or '\0' (which it is, at the latest, past the
    end of the source, or at the first multi-byte character). *)
Fixpoint peek_line_count (rest : bytes) : nat :=
  match rest with
  | [] => 0
  | c :: r =>
      match r with
      | d :: _ =>
          if is_cont d then 0
          else if Ascii.eqb c NL || Ascii.eqb c NUL then 0 else S (peek_line_count r)
      | [] => if Ascii.eqb c NL || Ascii.eqb c NUL then 0 else 1
      end
  end.
Definition peek_line (sc : scanner) : bytes :=
  peeks_ahead sc (peek_line_count (skipn (sc_cur sc) (sc_src sc))).

(** number of bytes a loop [while p(peek()) && !is_at_end()] advances over *)
Fixpoint span_len (p : ascii -> bool) (l : bytes) : nat :=
  match l with
  | [] => 0
  | b :: r => if p (peek_byte b) then S (span_len p r) else 0
  end.

(** [while p(self.peek()) && !self.is_at_end() { self.current += 1 }] *)
Definition advance (sc : scanner) (p : ascii -> bool) : scanner :=
  bump sc (span_len p (skipn (sc_cur sc) (sc_src sc))).

(** [while p(self.peek()) { self.current += 1 }] where [p('\0')] holds *)
Definition advance_or_hang (sc : scanner) (p : ascii -> bool) : result scanner :=
  let sc' := advance sc p in
  if is_at_end sc' then Hang else Ok sc'.

(** mod.rs 658-660 [starts_new_line] *)
Definition starts_new_line (sc : scanner) : bool :=
  match sc_start sc with
  | O => true
  | S i => match nth_error (sc_src sc) i with Some b => Ascii.eqb b NL | None => false end
  end.

(** mod.rs 662-668 [starts_repeated_char_line] *)
Definition starts_repeated_char_line (sc : scanner) (c : ascii) (n : nat) : bool :=
  (sc_cur sc + n <=? List.length (sc_src sc))
  && beqb (peeks_ahead sc n) (repeat c (n - 1) ++ [NL]).

(** mod.rs 681-683 [starts_end_tag_line] *)
Definition starts_end_tag_line (sc : scanner) : bool :=
  sc_tagend sc && contains (bs "end::") (peek_line sc).

(** [self.source.as_bytes()[self.current]]: panics out of range *)
Definition byte_at (sc : scanner) : result ascii :=
  match nth_error (sc_src sc) (sc_cur sc) with Some b => Ok b | None => Panic end.

(** mod.rs 671-679 [starts_attr] *)
Definition starts_attr (sc : scanner) : result bool :=
  let sc' := advance sc (fun c => negb (memc c [SP; NL; ":"])) in
  let* b := byte_at sc' in Ok (Ascii.eqb b ":").

(** mod.rs 690-698 [starts_attribute_reference] *)
Definition is_attr_ref_char (c : ascii) : bool := is_alnum_latin1 c || Ascii.eqb c "-".
Definition starts_attribute_reference (sc : scanner) : result bool :=
  let* b := byte_at (advance sc is_attr_ref_char) in Ok (Ascii.eqb b "}").

(** mod.rs 701-709 [starts_charref] *)
Definition starts_charref (sc : scanner) : result bool :=
  let* b := byte_at (advance sc is_alnum_latin1) in Ok (Ascii.eqb b ";").

(** mod.rs 755-768 [starts_attribution_line]: moves to the end of the line when
    it answers true, and restores the position otherwise *)
Definition starts_attribution_line (sc : scanner) : bool * scanner :=
  let sc' := advance sc (fun c => negb (Ascii.eqb c NL)) in
  if starts_new_line sc
     && match nth_error (sc_src sc) (sc_cur sc' - 1) with
        | Some b => Ascii.eqb b "]" | None => false end
  then (true, sc') else (false, sc).

(** mod.rs 770-792: the common digit loop of [starts_code_callout_list_item]
    and [starts_code_callout]; the position is left where the loop stopped *)
Definition callout_loop (sc : scanner) : bool * scanner :=
  let sc' := advance sc (fun c => negb (Ascii.eqb c ">") && is_digit c) in
  if Ascii.eqb (peek sc') ">" then (true, bump sc' 1) else (false, sc').
Definition starts_code_callout_list_item (sc : scanner) : bool * scanner :=
  let (ok, sc') := callout_loop sc in
  (ok && Ascii.eqb (peek sc') SP, sc').
Definition starts_code_callout (sc : scanner) : bool * scanner :=
  let (ok, sc') := callout_loop sc in
  (ok && Ascii.eqb (peek sc') NL, sc').

(** mod.rs 794-796 [starts_text_symbol_replace_parens] *)
Definition starts_text_symbol_replace_parens (sc : scanner) : bool :=
  memb (peeks_ahead sc 2) [bs "C)"; bs "R)"] || beqb (peeks_ahead sc 3) (bs "TM)").

(** mod.rs 798-801 [starts_text_symbol_replace_emdash].  When [peek] is '-' the
    last character of [peeks_ahead(2)] is its last byte (ASCII or '\0'). *)
Definition starts_text_symbol_replace_emdash (sc : scanner) : bool :=
  let after := last (peeks_ahead sc 2) NUL in
  Ascii.eqb (peek sc) "-" && (is_alnum_latin1 after || memc after [SP; NUL]).

(** mod.rs 442-484 [add_token] *)
Definition add_token (sc : scanner) (ty : token_type) (lit : bool) (adv : nat)
  : result (scanner * token) :=
  let* text := slice (sc_src sc) (sc_start sc) (sc_cur sc) in
  let l := if lit then Some text else None in
  let c0 := sc_startcol sc in
  let tok := mkTok ty text l (sc_line sc) c0 (c0 + List.length text - 1) (sc_files sc) in
  let sc' :=
    if adv =? 0 then
      mkSc (sc_src sc) (sc_start sc) (c0 + List.length text) (sc_cur sc) (sc_line sc)
           (sc_scanning sc) (sc_tagend sc) (sc_files sc)
    else
      mkSc (sc_src sc) (sc_start sc) 1 (sc_cur sc) (sc_line sc + adv)
           (sc_scanning sc) (sc_tagend sc) (sc_files sc) in
  Ok (sc', validate tok).

(** mod.rs 610-613: the characters at which a text token stops *)
Definition markup_chars : bytes :=
  [NL; "*"; "_"; "`"; "^"; "~"; "f"; "p"; "h"; "]"; "["; ":"; "#"; "N"; "T"; "I"; "C";
   "W"; "&"; "{"; "+"; "i"; "<"; "'"; DQ; "-"; "t"; "e"].

(** mod.rs 606-620 [add_text_until_next_markup] *)
Definition add_text_until_next_markup (sc : scanner) : result (scanner * token) :=
  add_token (advance sc (fun c => negb (memc c markup_chars))) TText true 0.

(** mod.rs 486-499 [add_heading] *)
Definition add_heading (sc : scanner) : result (scanner * token) :=
  let sc1 := advance sc (fun c => Ascii.eqb c "=") in
  let sc2 := bump sc1 1 in
  match sc_cur sc2 - 1 - sc_start sc with
  | 1 => add_token sc2 THeading1 false 0
  | 2 => add_token sc2 THeading2 false 0
  | 3 => add_token sc2 THeading3 false 0
  | 4 => add_token sc2 THeading4 false 0
  | 5 => add_token sc2 THeading5 false 0
  | _ => Err (EHeadingLevel (sc_line sc))
  end.

(** mod.rs 503-506 [add_list_item] *)
Definition add_list_item (sc : scanner) (ty : token_type) : result (scanner * token) :=
  add_token (bump sc 1) ty false 0.

(** mod.rs 509-533, 580-586 [add_block_image], [add_inline_image],
    [add_include], [add_inline_style]: one loop, four token types *)
Definition add_until_bracket (sc : scanner) (ty : token_type) : result (scanner * token) :=
  let* sc1 := advance_or_hang sc (fun c => negb (Ascii.eqb c "]")) in
  add_token (bump sc1 1) ty true 0.

(** mod.rs 536-546 [add_table_cell]; recursion bounded by the bytes left *)
Fixpoint add_table_cell_fuel (fuel : nat) (sc : scanner) : result (scanner * token) :=
  let sc1 := advance sc (fun c => negb (memc c [NL; NUL; "|"])) in
  if Ascii.eqb (peek sc1) "|"
     && negb (match nth_error (sc_src sc) (sc_cur sc1 - 1) with
              | Some b => Ascii.eqb b SP | None => false end)
  then match fuel with
       | O => Hang
       | S f => add_table_cell_fuel f (bump sc1 1)
       end
  else add_token sc1 TTableCell true 0.
Definition add_table_cell (sc : scanner) : result (scanner * token) :=
  add_table_cell_fuel (List.length (sc_src sc)) sc.

(** mod.rs 549-578 [add_link]; recursion bounded by the bytes left.  The last
    character of [peeks_ahead(2)] is compared with '\0' and ' ' only, so its
    last byte stands in for it. *)
Definition hyperlink_allowed_punctuation : bytes := ["."; "#"; ":"; "/"; "?"; "="; "&"].
Fixpoint add_link_fuel (fuel : nat) (sc : scanner) : result (scanner * token) :=
  let sc1 := advance sc (fun c => negb (memc c [NUL; SP]) && negb (is_punct c)) in
  let c := peek sc1 in
  if Ascii.eqb c "[" then add_token (bump sc1 1) TLinkMacro true 0
  else if memc c [NUL; SP] then add_token sc1 THyperlink true 0
  else if memc c hyperlink_allowed_punctuation then
    if memc (last (peeks_ahead sc1 2) "A") [NUL; SP] then add_token sc1 THyperlink true 0
    else match fuel with
         | O => Hang
         | S f => add_link_fuel f (bump sc1 1)
         end
  else add_token sc1 THyperlink true 0.
Definition add_link (sc : scanner) : result (scanner * token) :=
  add_link_fuel (List.length (sc_src sc)) sc.

(** mod.rs 589-604: the loop [while peeks_ahead(n) != stop && !is_at_end()] of
    [add_cross_reference] and [add_block_anchor].  [peeks_ahead] slices at the
    current position, which may lie inside a character: a panic whenever the
    end of the slice is in range and on a boundary but its start is not. *)
Fixpoint boundary_loop (src : bytes) (stop : bytes) (fuel cur : nat) : result nat :=
  let n := List.length stop in
  if List.length src <=? cur then Ok cur
  else if List.length src <? cur + n then
    match fuel with O => Hang | S f => boundary_loop src stop f (S cur) end
  else if negb (is_boundary src (cur + n)) then
    match fuel with O => Hang | S f => boundary_loop src stop f (S cur) end
  else if negb (is_boundary src cur) then Panic
  else if beqb (firstn n (skipn cur src)) stop then Ok cur
  else match fuel with O => Hang | S f => boundary_loop src stop f (S cur) end.
Definition add_until_stop (sc : scanner) (stop : bytes) (ty : token_type)
  : result (scanner * token) :=
  let* cur := boundary_loop (sc_src sc) stop (List.length (sc_src sc)) (sc_cur sc) in
  add_token (set_cur sc (cur + 2)) ty true 0.
(** mod.rs 589-595 *)
Definition add_cross_reference (sc : scanner) : result (scanner * token) :=
  add_until_stop sc (bs ">>") TCrossReference.
(** mod.rs 598-604 *)
Definition add_block_anchor (sc : scanner) : result (scanner * token) :=
  add_until_stop sc (bs "]]" ++ [NL]) TBlockAnchor.

(** mod.rs 622-656 [add_tag] *)
Definition add_tag (sc : scanner) : result (scanner * token) :=
  let* sc0 :=
    if sc_tagend sc then
      let* s := advance_or_hang sc (fun c => negb (Ascii.eqb c "e")) in
      Ok (mkSc (sc_src s) (sc_cur s) (sc_cur s) (sc_cur s) (sc_line s)
               (sc_scanning s) (sc_tagend s) (sc_files s))
    else Ok sc in
  let sc1 := bump (advance sc0 (fun c => negb (Ascii.eqb c "]"))) 1 in
  let* text := slice (sc_src sc1) (sc_start sc1) (sc_cur sc1) in
  let* (ty, exp) :=
    if contains (bs "tag") text then Ok (TStartTag, true)
    else if contains (bs "end") text then Ok (TEndTag, false)
    else Err (ETag text) in
  let sc2 := mkSc (sc_src sc1) (sc_start sc1) (sc_startcol sc1) (sc_cur sc1) (sc_line sc1)
                  (sc_scanning sc1) exp (sc_files sc1) in
  let* (sc3, tok) := add_token sc2 ty true 1 in
  let sc4 := advance sc3 (fun c => negb (Ascii.eqb c NL)) in
  let sc5 := if Ascii.eqb (peek sc4) NL then bump sc4 1 else sc4 in
  Ok (sc5, tok).

(** mod.rs 718-725: the marker sets of [handle_inline_formatting]; the
    non-Latin-1 quotation marks and the ellipsis in the Rust list can never equal
    a byte cast to [char] and are left out. *)
Definition inline_markup_chars : bytes := ["*"; "_"; "`"; "+"; "^"; "~"; "#"].
Definition end_of_inline_markers : bytes :=
  [SP; NUL; "."; ","; ";"; ":"; NL; ")"; DQ; "!"; "?"; "'"; "]"] ++ inline_markup_chars.
Definition beginning_of_inline_markers : bytes :=
  [SP; NL; NUL; "]"; "("; DQ; "["] ++ inline_markup_chars.

(** mod.rs 712-744 [handle_inline_formatting] *)
Definition handle_inline_formatting (sc : scanner) (c : ascii)
           (constrained unconstrained : token_type) : result (scanner * token) :=
  if Ascii.eqb (peek sc) SP && Ascii.eqb (peek_back sc) SP then add_text_until_next_markup sc
  else if Ascii.eqb (peek sc) c then add_token (bump sc 1) unconstrained false 0
  else if memc (peek sc) end_of_inline_markers
          || (memc (peek_back sc) beginning_of_inline_markers && negb (Ascii.eqb (peek sc) c))
  then add_token sc constrained false 0
  else add_text_until_next_markup sc.

(** mod.rs 746-752 [handle_text_symbol_replacement_parens] *)
Definition handle_text_symbol_replacement_parens (sc : scanner) : result (scanner * token) :=
  let* sc1 := advance_or_hang sc (fun c => negb (Ascii.eqb c ")")) in
  add_token (bump sc1 1) TCharRef true 0.

(** the quote tests of mod.rs 81-83, 238-244: the two bytes ahead are [q]
    followed by a blank or newline, or [q] is the last byte *)
Definition closes_word (sc : scanner) (q : ascii) : bool :=
  memb (peeks_ahead sc 2) [[q; SP]; [q; NL]]
  || (beqb (peeks_ahead sc 2) [NUL] && Ascii.eqb (peek sc) q).

Notation "a == b" := (Ascii.eqb a b) (at level 70).

(** mod.rs 72-89: the branch for the apostrophe *)
Definition scan_apostrophe (sc : scanner) (c : ascii) : result (scanner * token) :=
  if starts_end_tag_line sc then add_tag sc
  else if starts_repeated_char_line sc c 3 then add_token (bump sc 2) TThematicBreak false 0
  else if memc (peek_back sc) [NUL; SP; NL] && (peek sc == "`")
  then add_token (bump sc 1) TOpenSingleQuote true 0
  else if closes_word sc "s" then add_token sc TCharRef false 0
  else add_text_until_next_markup sc.

(** mod.rs 90-110: the branch for '<' *)
Definition scan_lt (sc : scanner) (c : ascii) : result (scanner * token) :=
  if starts_end_tag_line sc then add_tag sc
  else if starts_repeated_char_line sc c 3 then add_token (bump sc 2) TPageBreak false 0
  else if memc (peek sc) ["-"; "="] then add_token (bump sc 1) TCharRef false 0
  else if peek sc == "<" then add_cross_reference sc
  else
    let (is_item, sc1) :=
      if starts_new_line sc then starts_code_callout_list_item sc else (false, sc) in
    if is_item then add_token (bump sc1 1) TCodeCalloutListItem true 0
    else let (is_callout, sc2) := starts_code_callout sc1 in
         if is_callout then add_token sc2 TCodeCallout true 0
         else add_text_until_next_markup sc2.

(** mod.rs 119-213: the inner match of the block delimiter branch *)
Definition scan_delim_inner (sc : scanner) (c : ascii) : result (scanner * token) :=
  if c == "=" then
    if peek sc == ">" then add_token (bump sc 1) TCharRef false 0
    else if starts_new_line sc then add_heading sc
    else add_text_until_next_markup sc
  else if c == "-" then
    if peek sc == ">" then add_token (bump sc 1) TCharRef false 0
    else if starts_text_symbol_replace_emdash sc then add_token (bump sc 1) TCharRef false 0
    else if starts_new_line sc && starts_repeated_char_line sc c 2
    then add_token (bump sc 1) TOpenBlock false 0
    else add_text_until_next_markup sc
  else if c == "*" then
    if starts_new_line sc && (peek sc == SP) then add_list_item sc TUnorderedListItem
    else handle_inline_formatting sc c TStrong TUnconstrainedStrong
  else if c == "/" then
    if starts_end_tag_line sc then add_tag sc
    else if starts_new_line sc && (peek sc == "/") then
      if memb (peeks_ahead sc 7) [bs "/ tag::"; bs "/ end::"]
      then add_token (bump sc 2) TComment true 0
      else add_token (advance sc (fun c => negb (c == NL))) TComment true 0
    else add_text_until_next_markup sc
  else if c == "+" then
    if starts_new_line sc && (peek sc == NL) then add_token sc TBlockContinuation false 0
    else if (peek_back sc == SP) && (peek sc == NL)
    then add_token sc TLineContinuation false 0
    else handle_inline_formatting sc c TLiteral TUnconstrainedLiteral
  else if c == "_" then handle_inline_formatting sc c TEmphasis TUnconstrainedEmphasis
  else if c == "." then
    if beqb (peeks_ahead sc 2) (bs "..") then add_token (bump sc 2) TCharRef false 0
    else if starts_new_line sc then
      if peek sc == SP then add_list_item sc TOrderedListItem
      else add_token sc TBlockLabel false 0
    else add_text_until_next_markup sc
  else add_text_until_next_markup sc.

(** mod.rs 112-215: the branch for the block delimiter characters *)
Definition scan_delim (sc : scanner) (c : ascii) : result (scanner * token) :=
  if starts_end_tag_line sc then add_tag sc
  else if starts_new_line sc && starts_repeated_char_line sc c 4 then
    let* ty := block_from_char c in add_token (bump sc 3) ty false 0
  else scan_delim_inner sc c.

(** mod.rs 217-235: the branch for '[' *)
Definition attribution_type (b : ascii) : token_type :=
  if b == "N" then TNotePara
  else if b == "T" then TTipPara
  else if b == "I" then TImportantPara
  else if b == "C" then TCautionPara
  else if b == "W" then TWarningPara
  else TElementAttributes.
Definition scan_lbracket (sc : scanner) : result (scanner * token) :=
  if starts_new_line sc && (peek sc == "[") then add_block_anchor sc
  else
    let (is_attrs, sc1) := starts_attribution_line sc in
    if is_attrs then
      match nth_error (sc_src sc) (sc_start sc + 1) with
      | Some b => add_token sc1 (attribution_type b) true 0
      | None => Panic
      end
    else if peek sc == "." then add_until_bracket sc TInlineStyle
    else add_text_until_next_markup sc.

(** mod.rs 237-255: the branch for the back quote *)
Definition scan_backquote (sc : scanner) (c : ascii) : result (scanner * token) :=
  if closes_word sc "'" then add_token (bump sc 1) TCloseSingleQuote true 0
  else if closes_word sc DQ then add_token (bump sc 1) TCloseDoubleQuote true 0
  else handle_inline_formatting sc c TMonospace TUnconstrainedMonospace.

(** mod.rs 265-278: the branch for ':' *)
Definition scan_colon (sc : scanner) : result (scanner * token) :=
  let* is_attr := if starts_new_line sc then starts_attr sc else Ok false in
  if (is_attr : bool) then
    let* sc1 := advance_or_hang sc (fun c => negb (c == NL)) in
    add_token sc1 TAttribute false 0
  else if negb (peek_back sc == SP)
          && memb (peeks_ahead sc 2) [[":"; SP]; [":"; NL]]
  then add_token (bump sc 2) TDescriptionListMarker false 0
  else add_text_until_next_markup sc.

(** a keyword branch: [if self.peeks_ahead(len) == kw { current += len; add_token }] *)
Definition scan_keyword (sc : scanner) (kw : bytes) (ty : token_type) (lit : bool)
  : result (scanner * token) :=
  if beqb (peeks_ahead sc (List.length kw)) kw
  then add_token (bump sc (List.length kw)) ty lit 0
  else add_text_until_next_markup sc.

(** mod.rs 310-324: the branch for 'i' *)
Definition scan_i (sc : scanner) : result (scanner * token) :=
  if starts_new_line sc && beqb (peeks_ahead sc 8) (bs "nclude::")
  then add_until_bracket sc TInclude
  else if starts_new_line sc && beqb (peeks_ahead sc 6) (bs "mage::")
  then add_until_bracket sc TBlockImageMacro
  else if beqb (peeks_ahead sc 5) (bs "mage:")
          && negb (beqb (peeks_ahead sc 6) (bs "mage::"))
          && negb (beqb (peeks_ahead sc 6) (bs "mage: "))
  then add_until_bracket sc TInlineImageMacro
  else add_text_until_next_markup sc.

(** mod.rs 384-394: the branch for '&' *)
Definition scan_amp (sc : scanner) : result (scanner * token) :=
  let* ok := starts_charref sc in
  if (ok : bool) then add_token (bump (advance sc is_alnum_latin1) 1) TCharRef true 0
  else add_text_until_next_markup sc.

(** mod.rs 395-406: the branch for '{' *)
Definition scan_lbrace (sc : scanner) : result (scanner * token) :=
  let* ok := starts_attribute_reference sc in
  if (ok : bool)
  then add_token (bump (advance sc is_attr_ref_char) 1) TAttributeReference false 0
  else add_text_until_next_markup sc.

(** mod.rs 407-422: the branch for '|' *)
Definition scan_bar (sc : scanner) : result (scanner * token) :=
  if starts_new_line sc && beqb (peeks_ahead sc 3) (bs "===") then
    let sc1 := bump sc 3 in
    if memc (peek sc1) [NL; NUL] then add_token sc1 TTable false 0
    else add_text_until_next_markup sc1
  else if starts_new_line sc || (peek_back sc == SP) then add_table_cell sc
  else add_text_until_next_markup sc.

(** mod.rs 66-440 [scan_token]; [sc] is the scanner with [start = current].
    The if-chain follows the order of the Rust [match]. *)
Definition scan_token (sc0 : scanner) : result (scanner * token) :=
  let* c := byte_at sc0 in
  let sc := bump sc0 1 in
  if c == NL then add_token sc TNewLineChar false 1
  else if c == "'" then scan_apostrophe sc c
  else if c == "<" then scan_lt sc c
  else if memc c ["+"; "*"; "-"; "_"; "/"; "="; "."] then scan_delim sc c
  else if c == "[" then scan_lbracket sc
  else if c == "`" then scan_backquote sc c
  else if c == "^" then add_token sc TSuperscript false 0
  else if c == "~" then add_token sc TSubscript false 0
  else if c == "#" then
    if starts_end_tag_line sc then add_tag sc
    else handle_inline_formatting sc c TMark TUnconstrainedMark
  else if c == ":" then scan_colon sc
  else if c == "(" then
    if starts_text_symbol_replace_parens sc then handle_text_symbol_replacement_parens sc
    else add_text_until_next_markup sc
  else if c == "f" then scan_keyword sc (bs "ootnote:[") TFootnoteMacro false
  else if c == "p" then scan_keyword sc (bs "ass:[") TPassthroughInlineMacro false
  else if c == "h" then
    if beqb (peeks_ahead sc 3) (bs "ttp") then add_link sc
    else add_text_until_next_markup sc
  else if c == "i" then scan_i sc
  else if c == "t" then
    if beqb (peeks_ahead sc 4) (bs "ag::") then add_tag sc
    else add_text_until_next_markup sc
  else if c == "e" then
    if beqb (peeks_ahead sc 4) (bs "nd::") then add_tag sc
    else add_text_until_next_markup sc
  else if c == "N" then scan_keyword sc (bs "OTE: ") TNotePara true
  else if c == "T" then scan_keyword sc (bs "IP: ") TTipPara true
  else if c == "I" then scan_keyword sc (bs "MPORTANT: ") TImportantPara true
  else if c == "C" then scan_keyword sc (bs "AUTION: ") TCautionPara true
  else if c == "W" then scan_keyword sc (bs "ARNING: ") TWarningPara true
  else if c == "]" then add_token sc TInlineMacroClose true 0
  else if c == "&" then scan_amp sc
  else if c == "{" then scan_lbrace sc
  else if c == "|" then scan_bar sc
  else if c == DQ then
    if memc (peek_back sc) [NUL; SP; NL] && (peek sc == "`")
    then add_token (bump sc 1) TOpenDoubleQuote true 0
    else add_text_until_next_markup sc
  else if (c == SP) || (c == "%") then
    if starts_end_tag_line sc then add_tag sc
    else add_text_until_next_markup sc
  else add_text_until_next_markup sc.

(** mod.rs 25-36 [Iterator::next] *)
Definition next (sc : scanner) : result (option token * scanner) :=
  if negb (is_at_end sc) then
    let sc1 := mkSc (sc_src sc) (sc_cur sc) (sc_startcol sc) (sc_cur sc) (sc_line sc)
                    (sc_scanning sc) (sc_tagend sc) (sc_files sc) in
    let* (sc2, t) := scan_token sc1 in Ok (Some t, sc2)
  else if sc_scanning sc then
    Ok (Some (final_token (sc_line sc) (sc_files sc)),
        mkSc (sc_src sc) (sc_start sc) (sc_startcol sc) (sc_cur sc) (sc_line sc)
             false (sc_tagend sc) (sc_files sc))
  else Ok (None, sc).

(** [scanner.collect()]: iterate until [None].  [fuel] bounds the number of
    calls; theorem [scan_enough_fuel] shows that [length src + 2] is enough. *)
Fixpoint collect (fuel : nat) (sc : scanner) : result (list token) :=
  match fuel with
  | O => Hang
  | S f =>
      let* (o, sc') := next sc in
      match o with
      | None => Ok []
      | Some t => let* ts := collect f sc' in Ok (t :: ts)
      end
  end.

Definition scan_with (src : bytes) (files : list bytes) : result (list token) :=
  collect (List.length src + 2) (new_with_stack src files).
Definition scan (src : bytes) : result (list token) := scan_with src [].
