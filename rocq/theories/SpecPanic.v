(** * Token sequences on which the parser comes to an end *)
From Verif Require Import Base Token.
Local Open Scope char_scope.
Local Open Scope nat_scope.

Definition printed (s : bytes) : Prop := forall c, In c s -> is_ascii c = true.

(** the text of a token without so many characters at either end *)
Definition enclosed (n : nat) (s : bytes) : Prop := 2 * n <= List.length s /\ printed s.

(** an attribute entry that sets anything but the level offset *)
Definition sets_other (s : bytes) : Prop :=
  exists r, s = ":" :: r /\ firstn (List.length (bs "leveloffset")) r <> bs "leveloffset".

(** an attribute list without quotes that does not begin like "quote" or "verse" *)
Definition ordinary_list (s : bytes) : Prop :=
  enclosed 1 s /\ ~ In DQ s
  /\ firstn 2 (skipn 1 s) <> bs "qu" /\ firstn 2 (skipn 1 s) <> bs "ve".

Definition word (t : token) : Prop := ttype t = TText \/ ttype t = TCharRef.

(** tokens that may stand anywhere *)
Definition tame (t : token) : Prop :=
  match ttype t with
  | TText | TCharRef | TNewLineChar | TEof
  | TOpenDoubleQuote | TCloseDoubleQuote | TOpenSingleQuote | TCloseSingleQuote
  | THeading1 | THeading2 | THeading3 | THeading4 | THeading5
  | TUnorderedListItem | TOrderedListItem | TCodeCalloutListItem | TDescriptionListMarker
  | TPageBreak | TThematicBreak | TLineContinuation | TComment | TBlockLabel
  | TCommentBlock | TPassthroughBlock | TLiteralBlock | TSourceBlock
  | TSidebarBlock | TOpenBlock | TExampleBlock | TQuoteVerseBlock
  | TNotePara | TTipPara | TImportantPara | TCautionPara | TWarningPara
  | TStartTag | TEndTag | THyperlink | TLinkMacro | TInlineMacroClose | TPassthroughInlineMacro => True
  | TAttribute => sets_other (token_text t)
  | TAttributeReference => enclosed 1 (token_text t)
  | TCrossReference => enclosed 2 (token_text t)
  | TInlineStyle => enclosed 1 (lexeme t)
  | TBlockAnchor => enclosed 2 (lexeme t)
  | TElementAttributes => ordinary_list (lexeme t)
  | _ => False
  end.

(** the marks of bold, italic, monospace, highlighted, raised and lowered text *)
Definition mark (ty : token_type) : bool :=
  match ty with
  | TStrong | TMark | TMonospace | TLiteral | TEmphasis | TSuperscript | TSubscript
  | TUnconstrainedStrong | TUnconstrainedMark | TUnconstrainedMonospace
  | TUnconstrainedLiteral | TUnconstrainedEmphasis => true
  | _ => false
  end.

(** tame tokens and spans of words between two equal marks, a word after each *)
Inductive orderly : list token -> Prop :=
| orderly_nil : orderly []
| orderly_tame t r : tame t -> orderly r -> orderly (t :: r)
| orderly_span x ws y q r :
    mark (ttype x) = true -> Forall word ws -> ttype y = ttype x -> word q ->
    orderly r -> orderly (x :: ws ++ y :: q :: r).
