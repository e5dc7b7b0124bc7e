(** * Specification: the tokens the scanner recognises
    [lexed ty before lexeme after]: where the source reads [before ++ lexeme ++
    after], a token of type [ty] covers [lexeme].  Stated on texts alone. *)
From Verif Require Import Base Token SpecScan.
Local Open Scope char_scope.
Local Open Scope nat_scope.

Definition begins (p s : bytes) : Prop := exists r, s = p ++ r.
Definition ends (p s : bytes) : Prop := exists b, s = b ++ p.
Definition line_ends (after : bytes) : Prop := after = [] \/ begins ["010"] after.

(** what comes next is the end of the source or one of the characters *)
Definition next_in (l : bytes) (after : bytes) : Prop :=
  after = [] \/ exists x r, after = x :: r /\ In x l.
(** what comes before is the start of the source, one of the characters, or a
    character outside ASCII *)
Definition prev_in (l : bytes) (before : bytes) : Prop :=
  before = [] \/ exists b x, before = b ++ [x] /\ (In x l \/ ~ ascii7 x).
(** end of the source, blank, newline, or a character outside ASCII *)
Definition word_ends (after : bytes) : Prop :=
  after = [] \/ exists x r, after = x :: r /\ (x = " " \/ x = "010" \/ ~ ascii7 x).

(** ** Inline marks *)
Definition marks : bytes := bs "*_`+^~#".
Definition after_mark : bytes := [" "; "000"; "."; ","; ";"; ":"; "010"; ")"; "034"; "!"; "?"; "'"; "]"] ++ marks.
Definition before_mark : bytes := [" "; "010"; "000"; "]"; "("; "034"; "["] ++ marks.
(** a single mark: not between blanks, not doubled, and either before a closing
    character or after an opening one *)
Definition formats (c : ascii) (before after : bytes) : Prop :=
  ~ (ends [" "] before /\ begins [" "] after) /\ ~ begins [c] after
  /\ (next_in after_mark after \/ prev_in before_mark before).

(** ** Links *)
Definition inside_links : bytes := bs ".#:/?=&".
Definition outside (x : ascii) : Prop := x = " " \/ x = "000" \/ ~ ascii7 x.
(** where a link without brackets stops *)
Definition link_ends (after : bytes) : Prop :=
  after = [] \/ exists y r, after = y :: r
    /\ (y = " " \/ y = "000" \/ (punctuation y /\ y <> "[" /\ ~ In y inside_links)
        \/ (In y inside_links /\ (r = [] \/ exists z r', r = z :: r' /\ outside z))).

(** ** Pieces *)
(** [open ++ x ++ "]"] with no other closing bracket *)
Definition bracketed (open lexeme : bytes) : Prop :=
  exists x, lexeme = open ++ x ++ ["]"] /\ ~ In "]" x.
(** the whole of a line [open ++ x ++ "]"] *)
Definition bracket_line (open before lexeme after : bytes) : Prop :=
  at_line_start before /\ line_ends after /\ exists x, lexeme = open ++ x ++ ["]"] /\ ~ In "010" x.
Definition delimiter_line (c : ascii) (before lexeme after : bytes) : Prop :=
  at_line_start before /\ begins ["010"] after /\ lexeme = repeat c 4.
Definition heading (n : nat) (before lexeme : bytes) : Prop :=
  at_line_start before /\ exists x, lexeme = repeat "=" n ++ [x] /\ ascii7 x /\ x <> "="
    /\ ~ (n = 1 /\ x = ">") /\ ~ (n = 4 /\ x = "010").
Definition admonition (word : bytes) (c : ascii) (before lexeme after : bytes) : Prop :=
  lexeme = word \/ bracket_line ["["; c] before lexeme after.
Definition digits (d : bytes) : Prop := Forall (fun x => is_digit x = true) d.
(** the first [stop] after [open] *)
Definition up_to (open stop lexeme : bytes) : Prop :=
  exists x, lexeme = open ++ x ++ stop /\ Forall ascii7 x
    /\ forall u v, x ++ stop = u ++ stop ++ v -> v = [].
Definition blankless (s : bytes) : Prop := ~ In " " s /\ ~ In "010" s.
Definition anchored (before lexeme after : bytes) : Prop :=
  at_line_start before /\ begins ["010"] after /\ up_to (bs "[[") (bs "]]" ++ ["010"]) (lexeme ++ ["010"]).

(** ** Text *)
(** the characters that end a run of text *)
Definition ends_text : bytes :=
  ["010"; "*"; "_"; "`"; "^"; "~"; "f"; "p"; "h"; "]"; "["; ":"; "#"; "N"; "T"; "I"; "C";
   "W"; "&"; "{"; "+"; "i"; "<"; "'"; "034"; "-"; "t"; "e"].
Definition plain_run (lexeme after : bytes) : Prop :=
  exists x v, lexeme = x :: v /\ (forall y, In y v -> ~ In y ends_text)
    /\ (after = [] \/ exists y r, after = y :: r /\ In y ends_text).
(** what has the form of a cross reference or of an anchor; with a blank or a newline in it
    it is text *)
Definition wrapped (before lexeme after : bytes) : Prop :=
  (up_to (bs "<<") (bs ">>") lexeme /\ ~ begins (bs "<<<" ++ ["010"]) lexeme) \/ anchored before lexeme after.

(** ** All token types *)
Definition lexed (ty : token_type) (before lexeme after : bytes) : Prop :=
  match ty with
  | TText => plain_run lexeme after
      \/ (~ blankless lexeme /\ wrapped before lexeme after)
  | TNewLineChar => lexeme = ["010"]
  | TEof => lexeme = [] /\ after = []
  | TEmail => False
  | TStartTag => ends ["]"] lexeme /\ occurs (bs "tag") lexeme
  | TEndTag => ends ["]"] lexeme /\ occurs (bs "end") lexeme /\ ~ occurs (bs "tag") lexeme
  (* lines *)
  | TPassthroughBlock => delimiter_line "+" before lexeme after
  | TSidebarBlock => delimiter_line "*" before lexeme after
  | TSourceBlock => delimiter_line "-" before lexeme after
  | TQuoteVerseBlock => delimiter_line "_" before lexeme after
  | TCommentBlock => delimiter_line "/" before lexeme after
  | TLiteralBlock => delimiter_line "." before lexeme after
  | TExampleBlock => delimiter_line "=" before lexeme after
  | TOpenBlock => at_line_start before /\ lexeme = bs "--" /\ begins ["010"] after
  | TThematicBreak => lexeme = bs "'''" /\ begins ["010"] after
  | TPageBreak => lexeme = bs "<<<" /\ begins ["010"] after
  | THeading1 => heading 1 before lexeme
  | THeading2 => heading 2 before lexeme
  | THeading3 => heading 3 before lexeme
  | THeading4 => heading 4 before lexeme
  | THeading5 => heading 5 before lexeme
  | TComment =>
      at_line_start before /\
      ((lexeme = bs "// " /\ (begins (bs "tag::") after \/ begins (bs "end::") after))
       \/ exists x, lexeme = bs "//" ++ x /\ ~ In "010" x /\ line_ends after
            /\ ~ begins (bs " tag::") x /\ ~ begins (bs " end::") x /\ ~ (x = bs "//" /\ after <> []))
  | TOrderedListItem => at_line_start before /\ lexeme = bs ". "
  | TUnorderedListItem => at_line_start before /\ lexeme = bs "* "
  | TBlockLabel =>
      at_line_start before /\ lexeme = bs "." /\ ~ begins (bs "..") after /\ ~ begins [" "] after
  | TBlockContinuation => at_line_start before /\ lexeme = bs "+" /\ begins ["010"] after
  | TTable => at_line_start before /\ lexeme = bs "|===" /\ next_in ["010"; "000"] after
  | TTableCell =>
      (at_line_start before \/ ends [" "] before)
      /\ ~ (at_line_start before /\ begins (bs "|===") (lexeme ++ after))
      /\ (exists body, lexeme = "|" :: body /\ Forall (fun x => ascii7 x /\ x <> "010" /\ x <> "000") body)
      /\ ~ occurs (bs " |") lexeme
      /\ (next_in ["010"; "000"] after \/ (begins ["|"] after /\ ends [" "] lexeme))
  | TAttribute =>
      at_line_start before /\ begins ["010"] after
      /\ exists n v, lexeme = ":" :: n ++ ":" :: v /\ (forall x, In x n -> ~ In x [" "; "010"; ":"]) /\ ~ In "010" v
  | TElementAttributes =>
      bracket_line ["["] before lexeme after
      /\ forall y r, lexeme = "[" :: y :: r -> ~ In y (bs "[NTICW")
  | TBlockAnchor => anchored before lexeme after /\ blankless lexeme
  | TInclude => at_line_start before /\ bracketed (bs "include::") lexeme
  | TBlockImageMacro => at_line_start before /\ bracketed (bs "image::") lexeme
  | TCodeCalloutListItem =>
      at_line_start before /\ exists d, digits d /\ lexeme = "<" :: d ++ bs "> "
  (* words *)
  | TNotePara => admonition (bs "NOTE: ") "N" before lexeme after
  | TTipPara => admonition (bs "TIP: ") "T" before lexeme after
  | TImportantPara => admonition (bs "IMPORTANT: ") "I" before lexeme after
  | TCautionPara => admonition (bs "CAUTION: ") "C" before lexeme after
  | TWarningPara => admonition (bs "WARNING: ") "W" before lexeme after
  | TLineContinuation => lexeme = bs "+" /\ ends [" "] before /\ begins ["010"] after
  | TDescriptionListMarker =>
      (lexeme = bs ":: " \/ lexeme = bs "::" ++ ["010"])
      /\ ~ at_line_start before /\ ~ ends [" "] before
  | TCodeCallout =>
      begins ["010"] after
      /\ exists d, digits d
           /\ ((~ at_line_start before /\ lexeme = "<" :: d ++ bs ">")
               \/ (at_line_start before /\ exists d', digits d' /\ lexeme = "<" :: d ++ ">" :: d' ++ bs ">"))
  | TStrong => lexeme = bs "*" /\ formats "*" before after /\ ~ (at_line_start before /\ begins [" "] after)
  | TEmphasis => lexeme = bs "_" /\ formats "_" before after
  | TMonospace => lexeme = bs "`" /\ formats "`" before after
      /\ forall q r, after = q :: r -> q = "'" \/ q = "034" -> ~ word_ends r
  | TLiteral => lexeme = bs "+" /\ formats "+" before after
      /\ ~ (at_line_start before /\ begins ["010"] after) /\ ~ (ends [" "] before /\ begins ["010"] after)
  | TMark => lexeme = bs "#" /\ formats "#" before after
  | TSuperscript => lexeme = bs "^"
  | TSubscript => lexeme = bs "~"
  | TUnconstrainedStrong => lexeme = bs "**" /\ ~ (at_line_start before /\ begins (bs "**" ++ ["010"]) after)
  | TUnconstrainedEmphasis => lexeme = bs "__" /\ ~ (at_line_start before /\ begins (bs "__" ++ ["010"]) after)
  | TUnconstrainedLiteral => lexeme = bs "++" /\ ~ (at_line_start before /\ begins (bs "++" ++ ["010"]) after)
  | TUnconstrainedMonospace => lexeme = bs "``"
  | TUnconstrainedMark => lexeme = bs "##"
  | TInlineStyle => bracketed (bs "[.") lexeme
      /\ ~ (at_line_start before
            /\ exists l r, lexeme ++ after = l ++ "]" :: r /\ ~ In "010" l /\ line_ends r)
  | TInlineImageMacro => bracketed (bs "image:") lexeme
      /\ ~ begins (bs "image::") lexeme /\ ~ begins (bs "image: ") lexeme
  | TLinkMacro => exists s, lexeme = s ++ ["["] /\ begins (bs "http") s /\ Forall link_char s
  | THyperlink => begins (bs "http") lexeme /\ Forall link_char lexeme /\ link_ends after
      /\ forall u p, lexeme = u ++ [p] -> In p inside_links ->
           exists y r, after = y :: r /\ ~ outside y
  | TFootnoteMacro => lexeme = bs "footnote:["
  | TPassthroughInlineMacro => lexeme = bs "pass:["
  | TInlineMacroClose => lexeme = bs "]"
  | TCharRef =>
      (lexeme = bs "'" /\ exists r, after = "s" :: r /\ word_ends r)
      \/ In lexeme [bs "<-"; bs "<="; bs "->"; bs "=>"; bs "(C)"; bs "(R)"; bs "(TM)"]
      \/ (lexeme = bs "--" /\ (after = [] \/ exists x r, after = x :: r /\ (outside x \/ is_ascii_alnum x = true)))
      \/ (lexeme = bs "..." /\ ~ (at_line_start before /\ begins (bs "." ++ ["010"]) after))
      \/ exists n, lexeme = "&" :: n ++ [";"] /\ Forall (fun x => is_ascii_alnum x = true) n
  | TOpenDoubleQuote => lexeme = ["034"; "`"] /\ prev_in ["000"; " "; "010"] before
  | TOpenSingleQuote => lexeme = bs "'`" /\ prev_in ["000"; " "; "010"] before
  | TCloseDoubleQuote => lexeme = ["`"; "034"] /\ word_ends after
  | TCloseSingleQuote => lexeme = bs "`'" /\ word_ends after
  | TCrossReference => up_to (bs "<<") (bs ">>") lexeme /\ blankless lexeme
  | TAttributeReference =>
      exists n, lexeme = "{" :: n ++ ["}"] /\ Forall (fun x => is_ascii_alnum x = true \/ x = "-") n
  end.

(** the types that are neither text, an include tag nor the end *)
Definition markup (ty : token_type) : Prop := ~ In ty [TText; TStartTag; TEndTag; TEof].

(** ** Whole sources *)
(** a heading of more than five equals signs, which is refused *)
Definition too_deep (before rest : bytes) : Prop := at_line_start before /\ begins (bs "======") rest.
(** an include tag starts here *)
Definition tag_here (rest : bytes) : Prop := begins (bs "tag::") rest \/ begins (bs "end::") rest.
(** something other than a plain run of text starts here *)
Definition special (before rest : bytes) : Prop :=
  (exists ty l r, rest = l ++ r /\ markup ty /\ lexed ty before l r)
  \/ (exists l r, rest = l ++ r /\ wrapped before l r)
  \/ tag_here rest \/ unclosed before rest \/ breaks before rest \/ too_deep before rest.

(** [grammar before ty lexeme after]: the one token that the source [before ++ lexeme ++
    after] has after [before] *)
Inductive grammar (before : bytes) : token_type -> bytes -> bytes -> Prop :=
| gr_markup ty lexeme after :
    markup ty -> lexed ty before lexeme after -> grammar before ty lexeme after
| gr_wrapped lexeme after :
    wrapped before lexeme after -> ~ blankless lexeme -> grammar before TText lexeme after
| gr_text lexeme after :
    plain_run lexeme after -> ~ special before (lexeme ++ after) -> grammar before TText lexeme after
| gr_start lexeme after :
    bracketed (bs "tag::") lexeme \/ bracketed (bs "end::") lexeme /\ occurs (bs "tag") lexeme ->
    grammar before TStartTag lexeme after
| gr_end lexeme after :
    bracketed (bs "end::") lexeme -> ~ occurs (bs "tag") lexeme -> grammar before TEndTag lexeme after.

(** the tokens of the rest of a source without include tags, from [before] on *)
Inductive tokenised : bytes -> bytes -> list (token_type * bytes) -> Prop :=
| tk_end before : tokenised before [] [(TEof, [])]
| tk_token before ty lexeme after ks :
    grammar before ty lexeme after -> ty <> TStartTag -> ty <> TEndTag ->
    tokenised (before ++ lexeme) after ks ->
    tokenised before (lexeme ++ after) ((ty, lexeme) :: ks).

(** what a token says besides its type and its lexeme *)
Definition carries_text (ty : token_type) : bool :=
  match ty with
  | TText | TComment | TOpenSingleQuote | TOpenDoubleQuote | TCloseSingleQuote | TCloseDoubleQuote
  | TCodeCallout | TCodeCalloutListItem | TNotePara | TTipPara | TImportantPara | TCautionPara | TWarningPara
  | TElementAttributes | TInlineStyle | TInclude | TBlockImageMacro | TInlineImageMacro | TTableCell
  | TInlineMacroClose | THyperlink | TLinkMacro | TCrossReference | TBlockAnchor | TStartTag | TEndTag => true
  | _ => false
  end.
Definition content (ty : token_type) (lexeme : bytes) : option bytes :=
  match ty with
  | TCharRef => Some (match find (fun p => beqb (fst p) lexeme) replacements with
                      | Some p => snd p
                      | None => lexeme
                      end)
  | _ => if carries_text ty then Some lexeme else None
  end.
(** the tokens set on lines and columns: a newline token starts a new line *)
Fixpoint laid (files : list bytes) (line col : nat) (ks : list (token_type * bytes)) : list token :=
  match ks with
  | [] => []
  | (TEof, _) :: ks => mkTok TEof [] None line 0 0 files :: laid files line col ks
  | (TNewLineChar, l) :: ks =>
      mkTok TNewLineChar l None line col col files :: laid files (S line) 1 ks
  | (ty, l) :: ks =>
      mkTok ty l (content ty l) line col (col + List.length l - 1) files
      :: laid files line (col + List.length l) ks
  end.

(** [gets src before]: the grammar, starting at the front of [src], gets behind [before]
    without meeting an include tag *)
Inductive gets (src : bytes) : bytes -> Prop :=
| gets_front : gets src []
| gets_token before ty lexeme after :
    gets src before -> src = before ++ lexeme ++ after ->
    grammar before ty lexeme after -> ty <> TStartTag -> ty <> TEndTag -> gets src (before ++ lexeme).
(** no include tag is met *)
Definition tagless (src : bytes) : Prop :=
  forall before rest, gets src before -> src = before ++ rest -> ~ tag_here rest.
