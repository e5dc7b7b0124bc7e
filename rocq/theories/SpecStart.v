(** * Specification: what the source looks like where a token starts *)
From Verif Require Import Base Token SpecScan.
Local Open Scope char_scope.
Local Open Scope nat_scope.

(** the spellings one of which stands where a token of the type starts; [None]: no
    restriction *)
Definition openers (ty : token_type) : option (list bytes) :=
  match ty with
  | TText | TStartTag | TEndTag | TEof => None
  | TEmail => Some []
  | TNewLineChar => Some [["010"]]
  | TLineContinuation | TBlockContinuation | TLiteral => Some [bs "+"]
  | TThematicBreak => Some [bs "'''"]
  | TPageBreak => Some [bs "<<<"]
  | TComment => Some [bs "//"]
  | TPassthroughBlock => Some [bs "++++"]
  | TSidebarBlock => Some [bs "****"]
  | TSourceBlock => Some [bs "----"]
  | TQuoteVerseBlock => Some [bs "____"]
  | TCommentBlock => Some [bs "////"]
  | TLiteralBlock => Some [bs "...."]
  | TExampleBlock => Some [bs "===="]
  | TOpenBlock => Some [bs "--"]
  | TOrderedListItem => Some [bs ". "]
  | TUnorderedListItem => Some [bs "* "]
  | TDescriptionListMarker => Some [bs ":: "; bs "::" ++ ["010"]]
  | TCodeCallout | TCodeCalloutListItem => Some [bs "<"]
  | TBlockLabel => Some [bs "."]
  | THeading1 | THeading2 | THeading3 | THeading4 | THeading5 => Some [bs "="]
  | TNotePara => Some [bs "NOTE: "; bs "[N"]
  | TTipPara => Some [bs "TIP: "; bs "[T"]
  | TImportantPara => Some [bs "IMPORTANT: "; bs "[I"]
  | TCautionPara => Some [bs "CAUTION: "; bs "[C"]
  | TWarningPara => Some [bs "WARNING: "; bs "[W"]
  | TTable => Some [bs "|==="]
  | TTableCell => Some [bs "|"]
  | TStrong => Some [bs "*"]
  | TEmphasis => Some [bs "_"]
  | TMonospace => Some [bs "`"]
  | TMark => Some [bs "#"]
  | TSuperscript => Some [bs "^"]
  | TSubscript => Some [bs "~"]
  | TUnconstrainedStrong => Some [bs "**"]
  | TUnconstrainedEmphasis => Some [bs "__"]
  | TUnconstrainedMonospace => Some [bs "``"]
  | TUnconstrainedLiteral => Some [bs "++"]
  | TUnconstrainedMark => Some [bs "##"]
  | TBlockImageMacro => Some [bs "image::"]
  | TInlineImageMacro => Some [bs "image:"]
  | TLinkMacro | THyperlink => Some [bs "http"]
  | TFootnoteMacro => Some [bs "footnote:["]
  | TPassthroughInlineMacro => Some [bs "pass:["]
  | TInlineMacroClose => Some [bs "]"]
  | TCharRef => Some (bs "&" :: map fst replacements)
  | TOpenDoubleQuote => Some [["034"; "`"]]
  | TCloseDoubleQuote => Some [["`"; "034"]]
  | TOpenSingleQuote => Some [bs "'`"]
  | TCloseSingleQuote => Some [bs "`'"]
  | TInlineStyle => Some [bs "[."]
  | TInclude => Some [bs "include::"]
  | TBlockAnchor => Some [bs "[["]
  | TElementAttributes => Some [bs "["]
  | TCrossReference => Some [bs "<<"]
  | TAttribute => Some [bs ":"]
  | TAttributeReference => Some [bs "{"]
  end.
Definition started (ty : token_type) (rest : bytes) : Prop :=
  match openers ty with
  | None => True
  | Some l => exists p r, In p l /\ rest = p ++ r
  end.
