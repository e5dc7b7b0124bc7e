(** * Specifications for the scanner
    What the theorems about the scanner say, in terms of the iterator ([next])
    and of the source text only. *)
From Verif Require Import Base Location Token Scanner.
Local Open Scope char_scope.
Local Open Scope nat_scope.

(** The scanner over [src] has yielded the tokens [ts] and is now [sc]. *)
Inductive yields (src : bytes) (files : list bytes) : list token -> scanner -> Prop :=
| yields_nil : yields src files [] (new_with_stack src files)
| yields_snoc ts sc t sc' :
    yields src files ts sc -> next sc = Ok (Some t, sc') -> yields src files (ts ++ [t]) sc'.

(** an include tag directive ([tag::name[]], [end::name[]]) *)
Definition is_tag (t : token) : Prop := ttype t = TStartTag \/ ttype t = TEndTag.
Definition no_tags (ts : list token) : Prop := Forall (fun t => ~ is_tag t) ts.

(** the source text the tokens stand for *)
Definition text_of (ts : list token) : bytes := List.concat (map lexeme ts).

(** walk over a text, starting at a line and column: newline starts a new line *)
Fixpoint walk (line col : nat) (s : bytes) : nat * nat :=
  match s with
  | [] => (line, col)
  | c :: r => if Ascii.eqb c "010" then walk (S line) 1 r else walk line (S col) r
  end.

(** only a newline token spans lines *)
Definition one_line (t : token) : Prop := ttype t = TNewLineChar \/ ~ In "010" (lexeme t).

(** the text ends a line (or is empty) *)
Definition at_line_start (before : bytes) : Prop :=
  before = [] \/ exists b, before = b ++ ["010"].

(** UTF-8 (without the overlong and surrogate restrictions, which makes the
    class larger) *)
Definition byte_in (lo hi : N) (c : ascii) : Prop := (lo <= N_of_ascii c <= hi)%N.
Inductive utf8 : bytes -> Prop :=
| utf8_nil : utf8 []
| utf8_1 a s : byte_in 0 127 a -> utf8 s -> utf8 (a :: s)
| utf8_2 a b s : byte_in 194 223 a -> byte_in 128 191 b -> utf8 s -> utf8 (a :: b :: s)
| utf8_3 a b c s :
    byte_in 224 239 a -> byte_in 128 191 b -> byte_in 128 191 c -> utf8 s ->
    utf8 (a :: b :: c :: s)
| utf8_4 a b c d s :
    byte_in 240 244 a -> byte_in 128 191 b -> byte_in 128 191 c -> byte_in 128 191 d ->
    utf8 s -> utf8 (a :: b :: c :: d :: s).

(** the token type of a heading marker of [n] equals signs *)
Definition heading_type (n : nat) : option token_type :=
  match n with
  | 1 => Some THeading1 | 2 => Some THeading2 | 3 => Some THeading3
  | 4 => Some THeading4 | 5 => Some THeading5 | _ => None
  end.

(** the delimiter of four equal characters *)
Definition delimiter_of (ty : token_type) : option ascii :=
  match ty with
  | TPassthroughBlock => Some "+"
  | TSidebarBlock => Some "*"
  | TSourceBlock => Some "-"
  | TQuoteVerseBlock => Some "_"
  | TCommentBlock => Some "/"
  | TExampleBlock => Some "="
  | TLiteralBlock => Some "."
  | _ => None
  end.

(** the documented typographic replacements *)
Definition replacements : list (bytes * bytes) :=
  [(bs "(C)", bs "&#169;"); (bs "(R)", bs "&#174;"); (bs "(TM)", bs "&#8482;");
   (bs "--", bs "&#8212;"); (bs "...", bs "&#8230;"); (bs "->", bs "&#8594;");
   (bs "=>", bs "&#8658;"); (bs "<-", bs "&#8592;"); (bs "<=", bs "&#8656;");
   (bs "'", bs "&#8217;")].

(** the quotation marks and what they are replaced by *)
Definition quotes : list (token_type * (bytes * bytes)) :=
  [(TOpenDoubleQuote, ("034" :: bs "`", bs "“")); (TCloseDoubleQuote, ("`" :: ["034"], bs "”"));
   (TOpenSingleQuote, (bs "'`", bs "‘")); (TCloseSingleQuote, (bs "`'", bs "’"))].

(** thematic and page break *)
Definition break_of (ty : token_type) : option ascii :=
  match ty with TThematicBreak => Some "'" | TPageBreak => Some "<" | _ => None end.

(** [marks_block ty lexeme after]: the text [lexeme], at the start of a line and
    followed by [after], is a marker for the block token [ty] *)
Inductive marks_block : token_type -> bytes -> bytes -> Prop :=
| mb_heading n ty x after :
    heading_type n = Some ty -> x <> "=" -> marks_block ty (repeat "=" n ++ [x]) after
| mb_delimiter ty c after :
    delimiter_of ty = Some c -> marks_block ty (repeat c 4) ("010" :: after)
| mb_open after : marks_block TOpenBlock (bs "--") ("010" :: after)
| mb_table after : marks_block TTable (bs "|===") after
| mb_unordered after : marks_block TUnorderedListItem (bs "* ") after
| mb_ordered after : marks_block TOrderedListItem (bs ". ") after
| mb_continuation after : marks_block TBlockContinuation (bs "+") ("010" :: after)
| mb_comment r after : marks_block TComment (bs "//" ++ r) after
| mb_attribute r after : ~ In "010" r -> marks_block TAttribute (bs ":" ++ r) after.

Definition block_token (ty : token_type) : Prop :=
  match ty with
  | THeading1 | THeading2 | THeading3 | THeading4 | THeading5
  | TPassthroughBlock | TSidebarBlock | TSourceBlock | TQuoteVerseBlock | TCommentBlock
  | TExampleBlock | TLiteralBlock | TOpenBlock | TTable | TUnorderedListItem | TOrderedListItem
  | TBlockContinuation | TComment | TAttribute => True
  | _ => False
  end.

(** the iterator over [src] reaches a state in which asking for the next item is [r] *)
Definition reaches (src : bytes) (r : result (option token * scanner)) : Prop :=
  exists ts sc, yields src [] ts sc /\ next sc = r.

(** a token says truly where it stands: after the tokens [pre], at [tline], from
    [startcol] to [endcol] *)
Definition placed (src : bytes) (pre : list token) (t : token) : Prop :=
  (tline t, startcol t) = walk 1 1 (text_of pre)
  /\ endcol t = startcol t + List.length (lexeme t) - 1
  /\ exists after, src = text_of pre ++ lexeme t ++ after.

(** ** Where the scanner cannot go on *)
Definition ascii7 (c : ascii) : Prop := (N_of_ascii c < 128)%N.

(** [unclosed before rest]: at this place of the source a construct starts whose
    closing character never comes *)
Inductive unclosed (before : bytes) : bytes -> Prop :=
| un_include r : at_line_start before -> ~ In "]" r -> unclosed before (bs "include::" ++ r)
| un_block_image r : at_line_start before -> ~ In "]" r -> unclosed before (bs "image::" ++ r)
| un_image r : ~ In "]" r -> (forall x r', r = x :: r' -> x <> ":" /\ x <> " ") ->
    unclosed before (bs "image:" ++ r)
| un_style r : ~ In "]" r -> unclosed before (bs "[." ++ r)
| un_attribute name r :
    at_line_start before -> Forall (fun c => ~ In c [" "; "010"; ":"]) name ->
    ~ In "010" r -> unclosed before (":" :: name ++ ":" :: r).

(** the characters a link goes on with; an allowed punctuation mark only if more of the link
    follows *)
Definition punctuation (c : ascii) : Prop := (33 <= N_of_ascii c <= 126)%N /\ is_ascii_alnum c = false.
Definition link_char (c : ascii) : Prop :=
  ascii7 c /\ c <> "000" /\ c <> " " /\ (punctuation c -> In c ["."; "#"; ":"; "/"; "?"; "="; "&"]).
Definition occurs (a s : bytes) : Prop := exists x y, s = x ++ a ++ y.

(** [breaks before rest]: a construct that makes the scanner panic starts here *)
Inductive breaks (before : bytes) : bytes -> Prop :=
| br_attribute name :
    at_line_start before -> Forall (fun c => ~ In c [" "; "010"; ":"]) name ->
    breaks before (":" :: name)
| br_attribute_reference name :
    Forall (fun c => is_ascii_alnum c = true \/ c = "-") name -> breaks before ("{" :: name)
| br_charref name : Forall (fun c => is_ascii_alnum c = true) name -> breaks before ("&" :: name)
| br_heading_end n : at_line_start before -> heading_type n <> None -> breaks before (repeat "=" n)
| br_heading n x r :
    at_line_start before -> heading_type n <> None -> ~ ascii7 x ->
    breaks before (repeat "=" n ++ x :: r)
| br_cell s x r :
    at_line_start before /\ ~ (exists t, s = bs "===" ++ t) \/ (exists b, before = b ++ [" "]) ->
    Forall (fun c => ascii7 c /\ c <> "010" /\ c <> "000") s -> ~ occurs (bs " |") s -> ~ ascii7 x ->
    breaks before ("|" :: s ++ x :: r)
| br_link s x r :
    Forall link_char s -> (forall t c, s = t ++ [c] -> ~ punctuation c) -> ~ ascii7 x ->
    breaks before (bs "http" ++ s ++ x :: r)
| br_xref r :
    ~ (exists t, r = "<" :: "010" :: t) -> ~ (exists s s', r = s ++ bs ">>" ++ s' /\ Forall ascii7 s) ->
    breaks before (bs "<<" ++ r)
| br_anchor r :
    at_line_start before -> ~ (exists s s', r = s ++ bs "]]" ++ "010" :: s' /\ Forall ascii7 s) ->
    breaks before (bs "[[" ++ r)
| br_tag kw r : kw = bs "tag::" \/ kw = bs "end::" -> ~ In "]" r -> breaks before (kw ++ r).

(** a class of sources easy to recognise: ASCII, every line ended by a newline,
    and none of the openers whose closing the scanner waits for *)
Definition tame (src : bytes) : Prop :=
  Forall ascii7 src
  /\ at_line_start src
  /\ Forall (fun a => ~ occurs a src)
       (map bs ["include::"; "image:"; "[."; "[["; "<<"; "tag::"; "end::"]%string).
