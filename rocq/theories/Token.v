(** * Tokens: /repo/src/scanner/tokens.rs and /repo/src/errors.rs *)
From Verif Require Import Base Location.

(** tokens.rs 197-312 [enum TokenType]; the constructors have the Rust names
    with a [T] prefix. *)
Inductive token_type :=
| TNewLineChar | TLineContinuation | TThematicBreak | TPageBreak | TComment
| TPassthroughBlock | TSidebarBlock | TSourceBlock | TQuoteVerseBlock
| TCommentBlock | TLiteralBlock | TExampleBlock | TOpenBlock
| TOrderedListItem | TUnorderedListItem | TDescriptionListMarker
| TCodeCallout | TCodeCalloutListItem | TBlockLabel
| THeading1 | THeading2 | THeading3 | THeading4 | THeading5
| TNotePara | TTipPara | TImportantPara | TCautionPara | TWarningPara
| TBlockContinuation | TTable | TTableCell
| TStrong | TEmphasis | TMonospace | TLiteral | TMark
| TSuperscript | TSubscript
| TUnconstrainedStrong | TUnconstrainedEmphasis | TUnconstrainedMonospace
| TUnconstrainedLiteral | TUnconstrainedMark
| TBlockImageMacro | TInlineImageMacro | TLinkMacro | TFootnoteMacro
| TPassthroughInlineMacro | TInlineMacroClose
| THyperlink | TEmail | TText | TCharRef
| TOpenDoubleQuote | TCloseDoubleQuote | TOpenSingleQuote | TCloseSingleQuote
| TEof | TInlineStyle | TInclude | TStartTag | TEndTag
| TBlockAnchor | TElementAttributes | TCrossReference | TAttribute
| TAttributeReference.

Scheme Boolean Equality for token_type.
Definition tt_eqb := token_type_beq.

(** errors.rs: [ScannerError], [TokenError], [ParserError], [BlockError],
    [AsgError] flattened into one type (the [#[from]] wrappers are dropped). *)
Inductive error :=
| EHeadingLevel (line : nat)              (* ScannerError::HeadingLevelError *)
| ETag (s : bytes)                        (* ScannerError::TagError *)
| ECharacterMatch                         (* TokenError::CharacterMatch *)
| ETopLevelHeading (line : nat)           (* ParserError::TopLevelHeading *)
| EOpenParse (line : nat)                 (* ParserError::OpenParse *)
| EDelimitedBlock                         (* ParserError::DelimitedBlock *)
| EParentBlock (line : nat)               (* ParserError::ParentBlock *)
| EHeadingOffset (line : nat) (off : Z)   (* ParserError::HeadingOffsetError *)
| ETargetResolution (line : nat) (t : bytes)
| EBlockStack                             (* ParserError::BlockStack *)
| EBlockContinuation                      (* ParserError::BlockContinuation *)
| EInternal (s : bytes)                   (* ParserError::InternalError *)
| EAttribute (s : bytes)                  (* ParserError::AttributeError *)
| EDanglingList                           (* BlockError::DanglingList *)
| ETableCell                              (* BlockError::TableCell *)
| ENotImplemented (s : bytes)             (* BlockError::NotImplemented *)
| EIncorrectCall                          (* BlockError::IncorrectCall *)
| ELocation                               (* BlockError::Location *)
| EInvalidToken                           (* BlockError::InvalidToken *)
| EFootnote (s : bytes).                  (* BlockError::Footnote *)

Definition result (A : Type) : Type := res error A.

(** tokens.rs 8-18 [struct Token] *)
Record token := mkTok {
  ttype : token_type;
  lexeme : bytes;
  literal : option bytes;
  tline : nat;
  startcol : nat;
  endcol : nat;
  tfiles : list bytes }.

(** tokens.rs 77-87 [Token::final_token] *)
Definition final_token (line : nat) (fs : list bytes) : token :=
  mkTok TEof [] None line 0 0 fs.

(** tokens.rs 97-111 [Token::text] *)
Definition token_text (t : token) : bytes :=
  match ttype t with
  | TOpenDoubleQuote => bs "“"
  | TCloseDoubleQuote => bs "”"
  | TOpenSingleQuote => bs "‘"
  | TCloseSingleQuote => bs "’"
  | _ => match literal t with Some s => s | None => lexeme t end
  end.

(** tokens.rs 113-122 [first_location], [last_location], [locations] *)
Definition first_location (t : token) : location := mkLoc (tline t) (startcol t) (tfiles t).
Definition last_location (t : token) : location := mkLoc (tline t) (endcol t) (tfiles t).
Definition token_locations (t : token) : list location :=
  [first_location t; last_location t].

(** tokens.rs 124-128 [update_token_loc_offsets_by]; [lines - 1] panics on 0
    in a checked build, but every call passes a token line, which is >= 1. *)
Definition update_token_loc_offsets_by (t : token) (lines cols : nat) : token :=
  mkTok (ttype t) (lexeme t) (literal t) (tline t + (lines - 1))
        (startcol t + cols) (endcol t + cols) (tfiles t).

(** tokens.rs 130-144 [is_inline] *)
Definition is_inline (t : token) : bool :=
  match ttype t with
  | TComment | TText | TEmphasis | TStrong | TMonospace | TMark | TNewLineChar
  | TUnconstrainedEmphasis | TUnconstrainedStrong | TUnconstrainedMonospace
  | TUnconstrainedMark | TCharRef | TInlineStyle | TInlineMacroClose => true
  | _ => false
  end.

(** tokens.rs 146-151 [can_be_in_document_header] *)
Definition can_be_in_document_header (t : token) : bool :=
  match ttype t with THeading1 | TAttribute => true | _ => is_inline t end.

(** tokens.rs 155-160 [tag]: [lexeme[5..len-2]], panics when out of range *)
Definition token_tag (t : token) : result (option bytes) :=
  match ttype t with
  | TStartTag | TEndTag =>
      let n := List.length (lexeme t) in
      if n <? 2 then Panic else
      let* s := slice (lexeme t) 5 (n - 2) in Ok (Some s)
  | _ => Ok None
  end.

(** tokens.rs 173-187: the replacement table of [validate] *)
Definition charref_replacement (lex : bytes) : option bytes :=
  if beqb lex (bs "(C)") then Some (bs "&#169;")
  else if beqb lex (bs "(R)") then Some (bs "&#174;")
  else if beqb lex (bs "(TM)") then Some (bs "&#8482;")
  else if beqb lex (bs "...") then Some (bs "&#8230;")
  else if beqb lex (bs "->") then Some (bs "&#8594;")
  else if beqb lex (bs "=>") then Some (bs "&#8658;")
  else if beqb lex (bs "<-") then Some (bs "&#8592;")
  else if beqb lex (bs "<=") then Some (bs "&#8656;")
  else if beqb lex (bs "--") then Some (bs "&#8212;")
  else if beqb lex (bs "'") then Some (bs "&#8217;")
  else None.

(** tokens.rs 165-190 [validate] *)
Definition validate (t : token) : token :=
  match ttype t with
  | TBlockAnchor | TCrossReference =>
      if memc SP (lexeme t) || memc NL (lexeme t)
      then mkTok TText (lexeme t) (literal t) (tline t) (startcol t) (endcol t) (tfiles t)
      else t
  | TCharRef =>
      match charref_replacement (lexeme t) with
      | Some s => mkTok TCharRef (lexeme t) (Some s) (tline t) (startcol t) (endcol t) (tfiles t)
      | None => t
      end
  | _ => t
  end.

(** tokens.rs 315-326 [TokenType::block_from_char] *)
Definition block_from_char (c : ascii) : result token_type :=
  if Ascii.eqb c "+" then Ok TPassthroughBlock
  else if Ascii.eqb c "*" then Ok TSidebarBlock
  else if Ascii.eqb c "-" then Ok TSourceBlock
  else if Ascii.eqb c "_" then Ok TQuoteVerseBlock
  else if Ascii.eqb c "/" then Ok TCommentBlock
  else if Ascii.eqb c "=" then Ok TExampleBlock
  else if Ascii.eqb c "." then Ok TLiteralBlock
  else Err ECharacterMatch.

(** tokens.rs 328-337 [TokenType::clears_newline_after] *)
Definition clears_newline_after (t : token_type) : bool :=
  match t with
  | TElementAttributes | TSidebarBlock | TOpenBlock | TQuoteVerseBlock | TExampleBlock => true
  | _ => false
  end.
