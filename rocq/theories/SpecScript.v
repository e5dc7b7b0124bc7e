(** * Scripts: documents given by their tokens.  Text with marks inside marks, links, cross
    references, images, footnotes, passed text, quotes and character references; the blocks
    of articles with any such text in them. *)
From Verif Require SpecMeta SpecXref.
From Verif Require Import Base World Location Token Meta Inline Block Asg SpecScan SpecLex SpecDoc SpecArticle.
Local Open Scope char_scope.
Local Open Scope nat_scope.

(** a token by its type and its lexeme, as in [SpecLex.tokenised] *)
Definition word : Type := token_type * bytes.
Definition newline : word := (TNewLineChar, ["010"]).

(** ** Text *)
Inductive shape := Bold | Italic | Mono | Plus | Shaded.
Inductive tick := Single (s : shape) | Double (s : shape) | Raised | Lowered.
Definition tick_word (t : tick) : word :=
  match t with
  | Single Bold => (TStrong, bs "*")
  | Single Italic => (TEmphasis, bs "_")
  | Single Mono => (TMonospace, bs "`")
  | Single Plus => (TLiteral, bs "+")
  | Single Shaded => (TMark, bs "#")
  | Double Bold => (TUnconstrainedStrong, bs "**")
  | Double Italic => (TUnconstrainedEmphasis, bs "__")
  | Double Mono => (TUnconstrainedMonospace, bs "``")
  | Double Plus => (TUnconstrainedLiteral, bs "++")
  | Double Shaded => (TUnconstrainedMark, bs "##")
  | Raised => (TSuperscript, bs "^")
  | Lowered => (TSubscript, bs "~")
  end.
Definition shape_variant (s : shape) : span_variant :=
  match s with Bold => SStrong | Italic => SEmphasis | Mono | Plus => SCode | Shaded => SMark end.
Definition tick_variant (t : tick) : span_variant :=
  match t with Single s | Double s => shape_variant s | Raised => SSuperscript | Lowered => SSubscript end.
Definition tick_form (t : tick) : span_form := match t with Double _ => FUnconstrained | _ => FConstrained end.

Inductive quote := OpenDouble | CloseDouble | OpenSingle | CloseSingle.
Definition quote_word (q : quote) : word :=
  match q with
  | OpenDouble => (TOpenDoubleQuote, ["034"; "`"])
  | CloseDouble => (TCloseDoubleQuote, ["`"; "034"])
  | OpenSingle => (TOpenSingleQuote, bs "'`")
  | CloseSingle => (TCloseSingleQuote, bs "`'")
  end.
Definition quote_text (q : quote) : bytes :=
  match q with OpenDouble => bs "“" | CloseDouble => bs "”" | OpenSingle => bs "‘" | CloseSingle => bs "’" end.

(** the smallest pieces of text *)
Inductive bit :=
| Said (s : bytes)
| Quoted (q : quote)
| Valued (name : bytes)    (* an attribute reference *)
| Signed (s : bytes)       (* a character reference or replacement *)
| Bracket                  (* a closing bracket that closes nothing *)
| Newline.
Definition bit_word (b : bit) : word :=
  match b with
  | Said s => (TText, s)
  | Quoted q => quote_word q
  | Valued name => (TAttributeReference, "{" :: name ++ ["}"])
  | Signed s => (TCharRef, s)
  | Bracket => (TInlineMacroClose, bs "]")
  | Newline => newline
  end.
(** what stands between two marks: bits and, once more, marks *)
Inductive inner := InBit (b : bit) | InMark (t : tick) (l : list bit).
Inductive element :=
| Bit (b : bit)
| Marked (roles : list bytes) (t : tick) (l : list inner)
| HardBreak
| Link (target : bytes) (l : list bit)
| Xref (target : bytes)
| Image (target alt : bytes)
| Note (l : list inner)     (* a footnote *)
| Passed (l : list word)    (* what stands in pass:[] *)
| Remark (s : bytes)        (* a comment line *)
| Url (s : bytes).          (* an address without brackets *)

Definition macro_close : word := (TInlineMacroClose, bs "]").
Definition inner_words (i : inner) : list word :=
  match i with
  | InBit b => [bit_word b]
  | InMark t l => tick_word t :: map bit_word l ++ [tick_word t]
  end.
Definition style_words (roles : list bytes) : list word :=
  match roles with [] => [] | _ => [(TInlineStyle, "[" :: List.concat (map (cons ".") roles) ++ ["]"])] end.
Definition element_words (x : element) : list word :=
  match x with
  | Bit b => [bit_word b]
  | Marked roles t l => style_words roles ++ tick_word t :: List.concat (map inner_words l) ++ [tick_word t]
  | HardBreak => [(TLineContinuation, bs "+")]
  | Link target l => (TLinkMacro, target ++ ["["]) :: map bit_word l ++ [macro_close]
  | Xref target => [(TCrossReference, bs "<<" ++ target ++ bs ">>")]
  | Image target alt => [(TInlineImageMacro, bs "image:" ++ target ++ "[" :: alt ++ ["]"])]
  | Note l => (TFootnoteMacro, bs "footnote:[") :: List.concat (map inner_words l) ++ [macro_close]
  | Passed l => (TPassthroughInlineMacro, bs "pass:[") :: l ++ [macro_close]
  | Remark s => [(TComment, s)]
  | Url s => [(THyperlink, s)]
  end.
Definition text_words (l : list element) : list word := List.concat (map element_words l).

(** *** What it says.  The text is written element by element; [fst] is what has been
    written, the last first, [snd] whether a line break waits for the next text. *)
Definition draft : Type := list inline * bool.
Definition said (s : bytes) : inline := ILit LText false s [].
Definition sign_text (s : bytes) : bytes :=
  match find (fun p => beqb (fst p) s) replacements with Some p => snd p | None => s end.
(** neighbouring texts are one; in a span ([any]) also texts and character references *)
Definition weld (any : bool) (st : list inline) (i : inline) : list inline :=
  match st, i with
  | ILit LText n v _ :: r, ILit LText _ v' _ => ILit LText n (v ++ v') [] :: r
  | ILit k n v _ :: r, ILit _ _ v' _ => if any then ILit k n (v ++ v') [] :: r else i :: st
  | _, _ => i :: st
  end.
(** how line breaks are written: after the first description list each is a text of its
    own; in a block that continues a list item they are left out *)
Record manner := mkManner { keeps_breaks : bool; drops_breaks : bool }.
Definition plainly : manner := mkManner false false.
Definition put (keep : manner) (any : bool) (d : draft) (i : inline) : draft :=
  (if snd d then if keeps_breaks keep then i :: said ["010"] :: fst d else weld any (weld any (fst d) (said ["010"])) i
   else weld any (fst d) i, false).
Definition write_bit (keep : manner) (any : bool) (e : env) (d : draft) (b : bit) : draft :=
  match b with
  | Said s => put keep any d (said s)
  | Quoted q => put keep any d (said (quote_text q))
  | Valued name => put keep any d (said (value_of e name))
  | Signed s => put keep any d (ILit LCharref false (sign_text s) [])
  | Bracket => (weld any (fst d) (said (bs "]")), snd d)
  | Newline => (fst d, negb (drops_breaks keep))
  end.
Definition write_inner (keep : manner) (e : env) (d : draft) (i : inner) : draft :=
  match i with
  | InBit b => write_bit keep true e d b
  | InMark t l =>
      let (kids, wait) := fold_left (write_bit keep true e) l ([], snd d) in
      (ISpan (tick_variant t) (tick_form t) (rev kids) None [] false :: fst d, wait)
  end.
Definition style_meta (roles : list bytes) : option metadata :=
  match roles with [] => None | _ => Some (mkMeta [] [] roles true None []) end.
Definition alt_meta (alt : bytes) : option metadata :=
  match alt with [] => None | _ => Some (mkMeta [(bs "positional_1", alt)] [] [] true None []) end.
(** [me]: metadata that waits for a block or a marked text, whichever comes first *)
Definition mark_meta (me : option metadata) (roles : list bytes) : option metadata :=
  match roles with [] => me | _ => style_meta roles end.
Definition write (keep : manner) (e : env) (s : draft * option metadata) (x : element) : draft * option metadata :=
  let (d, me) := s in
  match x with
  | Bit b => (write_bit keep false e d b, me)
  | Marked roles t l =>
      let before := if snd d then weld false (fst d) (said ["010"]) else fst d in
      let (kids, wait) := fold_left (write_inner keep e) l ([], false) in
      (ISpan (tick_variant t) (tick_form t) (rev kids) (mark_meta me roles) [] false :: before, wait, None)
  | HardBreak => (IBreak [] :: fst d, snd d, me)
  | Link target l =>
      let (kids, wait) := fold_left (write_bit keep false e) l ([], snd d) in
      (IRef RLink target (rev kids) None [] :: fst d, wait, me)
  | Xref target => (IRef RXref target [] None [] :: fst d, snd d, me)
  | Image target alt => (IRef RImage target [] (alt_meta alt) [] :: fst d, snd d, me)
  | Note l =>
      let (kids, wait) := fold_left (write_inner keep e) l ([], snd d) in
      (ISpan SFootnote FConstrained (rev kids) None [] true :: fst d, wait, me)
  | Passed l => (fold_left (fun d x => put keep false d (said (snd x))) l d, me)
  | Remark _ => (d, me)
  | Url s => (IRef RLink s [] None [] :: fst d, snd d, me)
  end.
(** [wait]: a line break waits already *)
Definition text_draft (keep : manner) (e : env) (me : option metadata) (wait : bool) (l : list element) : draft * option metadata :=
  fold_left (write keep e) l ([], wait, me).
Definition text_inlines (keep : manner) (e : env) (me : option metadata) (wait : bool) (l : list element) : list inline :=
  rev (fst (fst (text_draft keep e me wait l))).
(** the metadata that is left *)
Definition text_rest (keep : manner) (e : env) (me : option metadata) (wait : bool) (l : list element) : option metadata :=
  snd (text_draft keep e me wait l).

(** *** Which texts are meant *)
Definition name_chars (s : bytes) : bool := forallb (fun c => is_ascii_alnum c || Ascii.eqb c "-") s.
(** [free]: no link and no footnote before, so that a bracket closes nothing *)
Definition bit_fits (keep : manner) (free : bool) (b : bit) : bool :=
  match b with
  | Valued name => name_chars name
  | Bracket => free
  | Newline => negb (keeps_breaks keep)
  | Said _ | Quoted _ | Signed _ => true
  end.
Definition same_span (a b : span_variant * span_form) : bool :=
  span_variant_beq (fst a) (fst b) && span_form_beq (snd a) (snd b).
Definition tick_span (t : tick) : span_variant * span_form := (tick_variant t, tick_form t).
(** marks inside [outer]: other ones than [outer] itself, and none directly after one of
    its own kind ([last]) *)
Fixpoint inner_fits (keep : manner) (free : bool) (outer : span_variant * span_form) (last : option tick) (l : list inner) : bool :=
  match l with
  | [] => true
  | InBit b :: r =>
      bit_fits keep free b && inner_fits keep free outer (match b with Newline => last | _ => None end) r
  | InMark t k :: r =>
      negb (same_span (tick_span t) outer)
      && match last with Some t' => negb (same_span (tick_span t) (tick_span t')) | None => true end
      && forallb (bit_fits keep free) k && inner_fits keep free outer (Some t) r
  end.
(** the text of a link starts with plain text *)
Definition link_fits (keep : manner) (l : list bit) : bool :=
  match l with
  | [] => true
  | Said _ :: r => forallb (fun b => match b with Signed _ => false | _ => bit_fits keep false b end) r
  | _ => false
  end.
Definition role_fits (s : bytes) : bool := match s with [] => false | _ => negb (existsb (Ascii.eqb ".") s) end.
(** no separator, quote or newline, and not the start of the words source, quote and verse *)
Definition alt_fits (s : bytes) : bool :=
  forallb (fun c => is_ascii c && negb (existsb (Ascii.eqb c) ["="; "|"; ","; "034"; "010"])) s
  && negb (existsb (beqb (firstn 2 s)) [bs "so"; bs "qu"; bs "ve"]).
Definition target_fits (s : bytes) : bool := negb (existsb (Ascii.eqb "[") s).
(** [waits]: a line break waits; [after]: directly behind a marked text or a footnote;
    [noted]: behind a footnote; [linked]: behind a link.  A marked text must neither follow
    directly on another nor come after a footnote. *)
Fixpoint fits (keep : manner) (waits after noted linked : bool) (l : list element) : bool :=
  match l with
  | [] => true
  | x :: r =>
      match x with
      | Bit Newline => fits keep true after noted linked r
      | Bit Bracket => negb noted && negb linked && fits keep waits false noted linked r
      | Bit b => bit_fits keep false b && fits keep false false noted linked r
      | Marked roles t k =>
          negb after && negb noted && forallb role_fits roles
          && inner_fits keep (negb linked) (tick_span t) None k && fits keep false true noted linked r
      | HardBreak => fits keep waits false noted linked r
      | Link _ k => negb (keeps_breaks keep && waits) && link_fits keep k && fits keep false false noted true r
      | Xref s => match s with [] => true | c :: _ => negb (is_cont c) end && fits keep waits false noted linked r
      | Image s alt =>
          match s with [] => true | c :: _ => negb (is_cont c) end && target_fits s && alt_fits alt
          && fits keep waits false noted linked r
      | Note k =>
          negb (keeps_breaks keep && waits) && inner_fits keep false (SFootnote, FConstrained) None k && fits keep false true true true r
      | Passed ws =>
          forallb (fun w => match fst w with TPassthroughInlineMacro | TInlineMacroClose => false | _ => true end) ws
          && match ws with [] => fits keep waits after noted linked r | _ => fits keep false false noted linked r end
      | Remark _ => fits keep waits after noted linked r
      | Url _ => match r with [] => true | _ => false end
      end
  end.
(** no blank line, and no line break at the start or at the end *)
Fixpoint calm (broken : bool) (ws : list word) : bool :=
  match ws with
  | [] => negb broken
  | w :: r => match fst w with TNewLineChar => negb broken && calm true r | _ => calm false r end
  end.
(** something is written *)
Definition speaks (l : list element) : bool :=
  existsb (fun x => match x with Bit Newline | Remark _ | Passed [] => false | _ => true end) l.
Definition text_fits (keep : manner) (wait : bool) (l : list element) : bool :=
  fits keep wait false false false l && calm true (text_words l) && speaks l.
(** links, cross references, images and footnotes *)
Definition macros (l : list element) : bool :=
  existsb (fun x => match x with Link _ _ | Xref _ | Image _ _ | Note _ => true | _ => false end) l.
Definition styled (l : list element) : bool :=
  existsb (fun x => match x with Marked (_ :: _) _ _ => true | _ => false end) l.
Definition one_line (l : list element) : bool :=
  forallb (fun w => match fst w with TNewLineChar => false | _ => true end) (text_words l).

(** ** Attribute lines and anchors, which stand before a block *)
Inductive field :=
| Named (name value : bytes)
| Roles (l : list bytes)
| Plain (s : bytes).       (* a value without a name *)
Inductive decor :=
| Anchor (id : bytes)
| Fields (quoted : bool) (l : list field).   (* [quoted]: the values stand in quotes *)
Definition field_pair (f : field) : bytes * bytes :=
  match f with
  | Named name value => (name, value)
  | Roles l => (bs "role", SpecMeta.spaced l)
  | Plain s => ([], s)
  end.
Definition field_text (quoted : bool) (f : field) : bytes :=
  match f with
  | Plain s => s
  | _ => if quoted then SpecMeta.pair_text (field_pair f) else fst (field_pair f) ++ "=" :: snd (field_pair f)
  end.
Definition decor_text (d : decor) : bytes :=
  match d with Anchor id => id | Fields quoted l => SpecMeta.comma_list (map (field_text quoted) l) end.
Definition decor_word (d : decor) : word :=
  match d with
  | Anchor id => (TBlockAnchor, bs "[[" ++ id ++ bs "]]")
  | Fields _ _ => (TElementAttributes, "[" :: decor_text d ++ ["]"])
  end.
Definition decor_words (c : list decor) : list word := List.concat (map (fun d => [decor_word d; newline]) c).

(** *** The metadata they stand for *)
Definition lookup {A} (k : bytes) (l : list (bytes * A)) : option A := option_map snd (find (fun p => beqb (fst p) k) l).
Fixpoint enter (k v : bytes) (l : list (bytes * bytes)) : list (bytes * bytes) :=
  match l with
  | [] => [(k, v)]
  | p :: r => if beqb (fst p) k then (k, v) :: r else p :: enter k v r
  end.
Definition with_attr (k v : bytes) (m : metadata) : metadata :=
  mkMeta (enter k v (m_attrs m)) (m_options m) (m_roles m) (m_inline m) (m_type m) (m_loc m).
Definition with_roles (l : list bytes) (m : metadata) : metadata :=
  mkMeta (m_attrs m) (m_options m) (m_roles m ++ l) (m_inline m) (m_type m) (m_loc m).
Definition with_type (t : option attribute_type) (m : metadata) : metadata :=
  mkMeta (m_attrs m) (m_options m) (m_roles m) (m_inline m) t (m_loc m).
(** [i]: the index in the line.  A first value that starts like source, quote or verse
    declares the type; the values that follow then have names of their own. *)
Definition plain_meta (i : nat) (s : bytes) (m : metadata) : option metadata :=
  if (i =? 0) && existsb (beqb (firstn 2 s)) [bs "so"; bs "qu"; bs "ve"] then
    Some (with_type (if beqb s (bs "quote") then Some AQuote else if beqb s (bs "verse") then Some AVerse
                     else if beqb s (bs "source") then Some ASource else None) m)
  else match s, m_type m with
  | [], _ => Some m
  | _, Some ASource => Some (if i =? 1 then with_attr (bs "language") (trim s) m else m)
  | _, Some AQuote | _, Some AVerse =>
      if i =? 1 then Some (with_attr (bs "attribution") (trim s) m)
      else if i =? 2 then Some (with_attr (bs "citation") (trim s) m) else None
  | _, Some ALines => None
  | _, _ => Some (with_attr (bs "positional_" ++ dec (i + 1)) s m)
  end.
Definition field_meta (i : nat) (f : field) (m : metadata) : option metadata :=
  match f with
  | Named name value => Some (with_attr name value m)
  | Roles l => Some (with_roles l m)
  | Plain s => plain_meta i s m
  end.
Fixpoint fields_meta (i : nat) (l : list field) (m : metadata) : option metadata :=
  match l with
  | [] => Some m
  | f :: r => match field_meta i f m with Some m' => fields_meta (S i) r m' | None => None end
  end.
Definition decor_meta (d : decor) (m : metadata) : option metadata :=
  match d with
  | Anchor id => Some (match lookup (bs "id") (m_attrs m) with Some _ => m | None => with_attr (bs "id") id m end)
  | Fields _ l => fields_meta 0 l m
  end.
Fixpoint decors_meta (c : list decor) (m : metadata) : option metadata :=
  match c with
  | [] => Some m
  | d :: r => match decor_meta d m with Some m' => decors_meta r m' | None => None end
  end.
Definition blank : metadata := mkMeta [] [] [] false None [].
Definition dress (c : list decor) : option metadata := match c with [] => None | _ => decors_meta c blank end.
(** after an anchor the line break waits *)
Definition waits (keep : manner) (c : list decor) : bool :=
  negb (drops_breaks keep) && match rev c with Anchor _ :: _ => true | _ => false end.
(** metadata without attributes and roles is dropped *)
Definition worn (me : option metadata) : option metadata :=
  match me with
  | Some m => match m_attrs m, m_options m, m_roles m with [], [], [] => None | _, _, _ => me end
  | None => None
  end.

(** *** Which are meant *)
Definition lacks (l : list ascii) (s : bytes) : bool := forallb (fun c => negb (existsb (Ascii.eqb c) l)) s.
Definition starts_ok (s : bytes) : bool := match s with c :: _ => negb (is_cont c) | [] => true end.
Definition field_fits (f : field) : bool :=
  match f with
  | Named name value => lacks ["="; "|"; ","; "034"; "010"] name && negb (beqb name (bs "role")) && lacks [","; "034"; "010"] value
  | Roles l => negb (match l with [] => true | _ => false end) && forallb (lacks [" "; ","; "034"; "010"]) l
  | Plain s => lacks ["="; "|"; ","; "034"; "010"] s
  end.
Definition quotable (f : field) : Prop :=
  match f with
  | Named name value => name <> bs "role" /\ SpecMeta.name_of name /\ SpecMeta.value_of value
  | Roles l => l <> [] /\ forallb (lacks [" "]) l = true /\ SpecMeta.value_of (SpecMeta.spaced l)
  | Plain _ => False
  end.
Definition decor_fits (d : decor) : Prop :=
  match d with
  | Anchor id => starts_ok id = true
  | Fields true l => Forall quotable l /\ SpecMeta.apart (map field_pair l)
  | Fields false l =>
      l <> [] /\ forallb field_fits l = true /\ starts_ok (decor_text d) = true
      /\ match l with Plain (_ :: _ :: c :: _) :: _ => is_cont c = false | _ => True end
  end.
Definition decors_ok (c : list decor) : Prop := Forall decor_fits c /\ decors_meta c blank <> None.

(** ** Blocks *)
Inductive leaf :=
| Text (l : list element)                        (* a paragraph *)
| Points (ordered : bool) (l : list (list element))
| Terms (l : list (list element * bool * list element))  (* a description list; the text on the line below or not *)
| Fenced (v : verbatim) (l : list word)          (* a verbatim block *)
| Verse (l : list word)                          (* a verse block *)
| Commented (l : list word)                      (* a comment block *)
| Aside (s : bytes)                              (* a comment line *)
| Setting (name value : bytes)                   (* an attribute entry *)
| Space.                                         (* one more blank line *)
(** a delimited block that continues a list item *)
Inductive bound := Bound (title : option (list element)) (b : box) (l : list (list decor * leaf)) (last : list element).
Inductive bullet := Dot | Star | Callout (digits : bytes).
(** a row of a table: cells, each with its source; a blank line under the row or not *)
Inductive row := Row (l : list (bytes * list element)) (gap : bool).
Inductive piece :=
| Part (x : leaf)
| Threaded (first : bullet * list element) (rest : list (bullet * list element * list bound))  (* a list, its items continued *)
| Head (level : nat) (title : list element)
| Alert (v : parent_variant) (l : list element)  (* an admonition *)
| Rule (v : break_variant)
| Picture (title : option (list element)) (target alt : bytes)
| Boxed (title : option (list element)) (b : box) (l : list (list decor * leaf)) (last : list element)
| Grid (title : option (list element)) (gap : bool) (rows : list row).  (* a table; a blank line above the first row or not *)
(** maybe a title with attribute entries under it, pieces, and maybe a last paragraph,
    with its newline or without; each piece with what stands before it *)
Record script := mkScript {
  sc_title : option (list element * list (bytes * bytes));
  sc_pieces : list (list decor * piece);
  sc_last : option (list decor * (list element * bool)) }.

Definition fence_word (v : verbatim) : word :=
  (match v with Listing => TSourceBlock | Literal => TLiteralBlock | Pass => TPassthroughBlock end, fence v).
Definition box_word (b : box) : word :=
  (match b with Example => TExampleBlock | Sidebar => TSidebarBlock | Open => TOpenBlock | Quote => TQuoteVerseBlock end,
   box_fence b).
Definition point_word (ordered : bool) : word := if ordered then (TOrderedListItem, bs ". ") else (TUnorderedListItem, bs "* ").
Definition comment_word : word := (TCommentBlock, bs "////").
Definition entry_word (name value : bytes) : word := (TAttribute, spell (Entry name value)).
Definition head_word (n : nat) : word :=
  (match n with 0 => THeading1 | 1 => THeading2 | 2 => THeading3 | 3 => THeading4 | _ => THeading5 end,
   repeat "=" (S n) ++ [" "]).
Definition alert_word (v : parent_variant) : word :=
  (match v with
   | VNote => TNotePara | VTip => TTipPara | VImportant => TImportantPara | VCaution => TCautionPara | VWarning => TWarningPara
   end, label v).
Definition rule_word (v : break_variant) : word :=
  match v with BThematic => (TThematicBreak, bs "'''") | BPage => (TPageBreak, bs "<<<") end.
Definition term_word (below : bool) : word := (TDescriptionListMarker, if below then bs "::" ++ ["010"] else bs ":: ").
Definition bullet_word (b : bullet) : word :=
  match b with
  | Dot => point_word true
  | Star => point_word false
  | Callout d => (TCodeCalloutListItem, "<" :: d ++ bs "> ")
  end.
Definition leaf_words (x : leaf) : list word :=
  match x with
  | Text l => text_words l ++ [newline]
  | Points o l => List.concat (map (fun i => point_word o :: text_words i ++ [newline]) l)
  | Terms l => List.concat (map (fun i => text_words (fst (fst i)) ++ term_word (snd (fst i)) :: text_words (snd i) ++ [newline]) l)
  | Fenced v l => fence_word v :: l ++ [fence_word v; newline]
  | Verse l => box_word Quote :: newline :: l ++ [newline; box_word Quote; newline]
  | Commented l => comment_word :: l ++ [comment_word; newline]
  | Aside s => [(TComment, s); newline]
  | Setting name value => [entry_word name value; newline]
  | Space => []
  end.
Definition title_words (title : option (list element)) : list word :=
  match title with Some t => (TBlockLabel, bs ".") :: text_words t ++ [newline] | None => [] end.
(** a delimited block from its title to its closing fence *)
Definition box_words (title : option (list element)) (b : box) (l : list (list decor * leaf)) (last : list element) : list word :=
  title_words title ++ box_word b :: newline :: List.concat (map (fun x => decor_words (fst x) ++ leaf_words (snd x) ++ [newline]) l)
  ++ match last with [] => [] | _ => text_words last ++ [newline] end ++ [box_word b].
Definition bound_words (x : bound) : list word :=
  match x with Bound title b l last => (TBlockContinuation, bs "+") :: newline :: box_words title b l last ++ [newline] end.
Definition item_words (x : bullet * list element * list bound) : list word :=
  bullet_word (fst (fst x)) :: text_words (snd (fst x)) ++ [newline] ++ List.concat (map bound_words (snd x)).
Definition grid_word : word := (TTable, bs "|===").
Definition gap_words (gap : bool) : list word := if gap then [newline] else [].
Definition row_cells (r : row) : list (bytes * list element) := match r with Row l _ => l end.
Definition row_words (r : row) : list word :=
  match r with Row l gap => map (fun c => (TTableCell, "|" :: fst c)) l ++ newline :: gap_words gap end.
Definition piece_words (p : piece) : list word :=
  match p with
  | Part x => leaf_words x ++ [newline]
  | Threaded first rest => item_words (first, []) ++ List.concat (map item_words rest) ++ [newline]
  | Head n t => head_word n :: text_words t ++ [newline; newline]
  | Alert v l => alert_word v :: text_words l ++ [newline; newline]
  | Rule v => [rule_word v; newline; newline]
  | Picture title target alt =>
      title_words title ++ [(TBlockImageMacro, bs "image::" ++ target ++ "[" :: alt ++ ["]"]); newline; newline]
  | Boxed title b l last =>
      box_words title b l last ++ [newline; newline]
  | Grid title gap rows =>
      title_words title ++ grid_word :: newline :: gap_words gap ++ List.concat (map row_words rows) ++ [grid_word; newline; newline]
  end.
Definition script_words (d : script) : list word :=
  match sc_title d with
  | Some (t, l) =>
      head_word 0 :: text_words t ++ [newline]
      ++ List.concat (map (fun x => [entry_word (fst x) (snd x); newline]) l) ++ [newline]
  | None => []
  end
  ++ List.concat (map (fun x => decor_words (fst x) ++ piece_words (snd x)) (sc_pieces d))
  ++ match sc_last d with Some (c, (l, ended)) => decor_words c ++ text_words l ++ (if ended then [newline] else []) | None => [] end
  ++ [(TEof, [])].

(** *** The blocks they stand for.  The page so far: the attributes, whether line breaks
    are kept apart, whether there has been a macro that will end a section, whether a
    section is open, and the blocks, each with whether it stands in a section. *)
Record page := mkPage {
  g_env : env; g_keep : manner; g_flag : bool; g_open : bool; g_flow : list (bool * block) }.
Definition place (b : block) (g : page) : page :=
  mkPage (g_env g) (g_keep g) (g_flag g) (g_open g) (g_flow g ++ [(g_open g, b)]).
Definition flag_page (m : bool) (g : page) : page :=
  mkPage (g_env g) (g_keep g) (g_flag g || m) (g_open g) (g_flow g).
(** a block after a macro ends the section it stands in *)
Definition land (b : block) (g : page) : page :=
  if g_flag g && g_open g then mkPage (g_env g) (g_keep g) false false (g_flow g ++ [(true, b)]) else place b g.
Definition page_text (g : page) (l : list element) : list inline := text_inlines (g_keep g) (g_env g) None false l.
Definition para (me : option metadata) (l : list inline) : block := Blk (HLeaf NParagraph FmParagraph None l) me [] [].
(** a paragraph with metadata; declared a quote it stands in a quote block *)
Definition wrapped (me : option metadata) (p : list inline) : block :=
  if match me with Some m => match m_type m with Some AQuote => true | _ => false end | None => false end
  then Blk (HParent PQuote None [] []) (worn me) [para None p] [] else para (worn me) p.
Definition page_para (g : page) (me : option metadata) (wait : bool) (l : list element) : block :=
  wrapped (text_rest (g_keep g) (g_env g) me wait l) (text_inlines (g_keep g) (g_env g) me wait l).
Definition set_page (name value : bytes) (g : page) : page :=
  mkPage (set_env (g_env g) name value) (g_keep g) (g_flag g) (g_open g) (g_flow g).
(** what stands in a verbatim block: the words as they are, a line break that waits first;
    in a listing callouts become numbers in parentheses *)
Definition callout (v : verbatim) (w : word) : bool := match v, fst w with Listing, TCodeCallout => true | _, _ => false end.
Definition conum (s : bytes) : inline :=
  ISpan SStrong FConstrained [said ("(" :: removelast (tl s) ++ bs ")")] (Some (mkMeta [] [] [bs "conum"] false None [])) [] true.
Definition fenced_text (v : verbatim) (keep : manner) (wait : bool) (l : list word) : list inline :=
  rev (fst (fold_left (fun d x => if callout v x then (conum (snd x) :: fst d, snd d) else put keep false d (said (snd x))) l ([], wait))).
(** what stands in a verse block *)
Definition verse_text (keep : manner) (l : list word) : list inline :=
  rev (fst (fold_left (fun d x => match fst x with
                                  | TNewLineChar => (fst d, negb (drops_breaks keep))
                                  | _ => put keep false d (said (snd x))
                                  end) l ([], false))).
(** from the first description list on line breaks are kept apart *)
Definition keeping (g : page) : page :=
  mkPage (g_env g) (mkManner true (drops_breaks (g_keep g))) (g_flag g) (g_open g) (g_flow g).
Definition term_block (t l : list inline) : block := Blk (HDListItem t l) None [] [].
Definition leaf_page (c : list decor) (x : leaf) (g : page) : page :=
  match x with
  | Text l => land (page_para g (dress c) (waits (g_keep g) c) l) (flag_page (macros l) g)
  | Points o l =>
      land (Blk (HList (if o then LOrdered else LUnordered)) (worn (dress c))
              (map (fun i => Blk (HListItem (if o then bs "." else bs "*") (page_text g i)) None [] []) l) [])
           (flag_page (existsb macros l) g)
  | Terms [] => g
  | Terms ((t, _, x) :: r) =>
      land (Blk HDList (worn (text_rest (g_keep g) (g_env g) (dress c) false t))
              (term_block (text_inlines (g_keep g) (g_env g) (dress c) false t) (page_text (keeping g) x)
               :: map (fun i => term_block (page_text (keeping g) (fst (fst i))) (page_text (keeping g) (snd i))) r) [])
           (flag_page (existsb (fun i => macros (fst (fst i)) || macros (snd i)) ((t, false, x) :: r)) (keeping g))
  | Verse l =>
      land (Blk (HLeaf NVerse FmDelimited (Some (box_fence Quote)) (verse_text (g_keep g) l)) (worn (dress c)) [] []) g
  | Fenced v l =>
      land (Blk (HLeaf (verbatim_name v) FmDelimited (Some (fence v)) (fenced_text v (g_keep g) (waits (g_keep g) c) l)) (worn (dress c)) [] []) g
  | Setting name value => set_page name value g
  | Commented _ | Aside _ | Space => g
  end.
(** the title of a block, which can use up the metadata *)
Definition title_text (g : page) (me : option metadata) (t : option (list element)) : list inline :=
  match t with Some l => text_inlines (g_keep g) (g_env g) me false l | None => [] end.
Definition title_rest (g : page) (me : option metadata) (t : option (list element)) : option metadata :=
  match t with Some l => text_rest (g_keep g) (g_env g) me false l | None => me end.
Definition title_macros (t : option (list element)) : bool := match t with Some l => macros l | None => false end.
Definition inside (g : page) : page := mkPage (g_env g) (g_keep g) (g_flag g) false [].
Definition around (g h : page) : page := mkPage (g_env h) (g_keep h) (g_flag h) (g_open g) (g_flow g).
(** the page inside of a delimited block, after its leaves and its last lines *)
Definition box_page (l : list (list decor * leaf)) (last : list element) (h : page) : page :=
  let h := fold_left (fun h x => leaf_page (fst x) (snd x) h) l h in
  match last with [] => h | _ => place (para None (page_text h last)) (flag_page (macros last) h) end.
(** in a block that continues a list item line breaks are left out *)
Definition continued (g : page) : page :=
  mkPage (g_env g) (mkManner (keeps_breaks (g_keep g)) true) (g_flag g) (g_open g) (g_flow g).
Definition resumed (g h : page) : page :=
  mkPage (g_env h) (mkManner (keeps_breaks (g_keep h)) (drops_breaks (g_keep g))) (g_flag h) (g_open g) (g_flow g).
Definition bound_page (x : bound) (g : page) : page :=
  match x with Bound title b l last => resumed g (box_page l last (inside (flag_page (title_macros title) (continued g)))) end.
Definition bound_block (x : bound) (g : page) : block :=
  match x with Bound title b l last =>
    Blk (HParent (box_name b) None (box_fence b) (title_text (continued g) None title)) None
        (map snd (g_flow (box_page l last (inside (flag_page (title_macros title) (continued g)))))) []
  end.
Fixpoint bound_blocks (l : list bound) (g : page) : list block :=
  match l with [] => [] | x :: r => bound_block x g :: bound_blocks r (bound_page x g) end.
Definition bounds_page (l : list bound) (g : page) : page := fold_left (fun g x => bound_page x g) l g.
Definition bullet_mark (b : bullet) : bytes :=
  match b with Dot => bs "." | Star => bs "*" | Callout d => "<" :: d ++ bs ">" end.
Definition bullet_variant (b : bullet) : list_variant := match b with Star => LUnordered | _ => LOrdered end.
Definition item_page (x : bullet * list element * list bound) (g : page) : page :=
  bounds_page (snd x) (flag_page (macros (snd (fst x))) g).
Definition item_block (x : bullet * list element * list bound) (g : page) : block :=
  Blk (HListItem (bullet_mark (fst (fst x))) (page_text g (snd (fst x)))) None
      (bound_blocks (snd x) (flag_page (macros (snd (fst x))) g)) [].
Fixpoint item_blocks (l : list (bullet * list element * list bound)) (g : page) : list block :=
  match l with [] => [] | x :: r => item_block x g :: item_blocks r (item_page x g) end.
Definition items_page (l : list (bullet * list element * list bound)) (g : page) : page := fold_left (fun g x => item_page x g) l g.
(** a list of callouts has a role *)
Definition list_meta (b : bullet) (me : option metadata) : option metadata :=
  match b with Callout _ => Some (mkMeta [] [] [bs "colist"] false None []) | _ => worn me end.
(** the metadata of a block image: its alternative text, and attributes from before; their
    roles are lost if there is an alternative text *)
Definition joined (alt : bytes) (me : option metadata) : option metadata :=
  match alt_meta alt, me with
  | Some a, Some m => Some (mkMeta (fold_left (fun l kv => enter (fst kv) (snd kv) l) (m_attrs m) (m_attrs a))
                                   (m_options m) (m_options m) true None [])
  | Some a, None => Some a
  | None, _ => me
  end.
(** *** Tables.  The number of columns: that of the cells in the first row, unless given by
    an attribute; a list of widths is counted, a repetition of one digit is that digit *)
Definition columns (v : bytes) : bytes :=
  if existsb (Ascii.eqb ",") v then dec (S (List.length (filter (Ascii.eqb ",") v)))
  else match v with [c; "*"] => [c] | _ => v end.
Definition counted (m : metadata) : metadata :=
  match lookup (bs "cols") (m_attrs m) with Some v => with_attr (bs "cols") (columns v) m | None => m end.
Definition cols_given (m : metadata) : bool := match lookup (bs "cols") (m_attrs m) with Some _ => true | None => false end.
Definition grid_cells (rows : list row) : list (bytes * list element) := List.concat (map row_cells rows).
(** a first row of several cells directly under the fence is the header, whether a blank
    line follows it or not *)
Definition grid_meta (gap : bool) (rows : list row) (me : option metadata) : option metadata :=
  match grid_cells rows, map row_cells rows with
  | _ :: _ :: _, first :: _ =>
      match first with
      | _ :: _ :: _ =>
          let m := match me with Some m => m | None => blank end in
          let m := if gap then m else mkMeta (m_attrs m) (m_options m ++ [bs "header"]) (m_roles m) (m_inline m) (m_type m) [] in
          Some (counted (if cols_given m then m else with_attr (bs "cols") (dec (List.length first)) m))
      | _ => option_map counted me
      end
  | _, _ => me
  end.
Definition grid_block (g : page) (title : list inline) (me : option metadata) (gap : bool) (rows : list row) : block :=
  Blk (HParent PTable None (bs "|===") title) (grid_meta gap rows me)
      (map (fun c => Blk (HCell (page_text g (snd c))) None [] []) (grid_cells rows)) [].
Definition piece_page (c : list decor) (p : piece) (g : page) : page :=
  match p with
  | Part x => leaf_page c x g
  | Threaded first rest =>
      let l := (first, []) :: rest in
      land (Blk (HList (bullet_variant (fst first))) (list_meta (fst first) (dress c)) (item_blocks l g) []) (items_page l g)
  | Head n t =>
      mkPage (g_env g) (g_keep g) (g_flag g || macros t) true
             (g_flow g ++ [(true, Blk (HSection [] (page_text g t) n) (worn (dress c)) [] [])])
  | Alert v l =>
      let b := Blk (HParent PAdmonition (Some v) (label v) []) None [page_para g (dress c) (waits (g_keep g) c) l] [] in
      mkPage (g_env g) (g_keep g) false (g_open g) (g_flow g ++ [(g_open g, b)])
  | Rule v => place (Blk (HBreak v) None [] []) g
  | Picture title target alt =>
      place (Blk (HMacro target (title_text g (dress c) title)) (joined alt (title_rest g (dress c) title)) [] [])
            (flag_page (title_macros title) g)
  | Boxed title b l last =>
      let h := box_page l last (inside (flag_page (title_macros title) g)) in
      land (Blk (HParent (box_name b) None (box_fence b) (title_text g (dress c) title)) (worn (title_rest g (dress c) title))
              (map snd (g_flow h)) []) (around g h)
  | Grid title gap rows =>
      land (grid_block g (title_text g (dress c) title) (worn (title_rest g (dress c) title)) gap rows)
           (flag_page (existsb (fun c => macros (snd c)) (grid_cells rows)) (flag_page (title_macros title) g))
  end.
Definition title_env (d : script) : env :=
  match sc_title d with
  | None => no_env
  | Some (_, l) => fold_left (fun e x => set_env e (fst x) (snd x)) l no_env
  end.
Definition first_page (d : script) : page := mkPage (title_env d) plainly false false [].
Definition pieces_page (l : list (list decor * piece)) (g : page) : page := fold_left (fun g x => piece_page (fst x) (snd x) g) l g.
Definition script_page (d : script) : page :=
  let g := pieces_page (sc_pieces d) (first_page d) in
  match sc_last d with Some (c, (l, _)) => place (page_para g (dress c) (waits (g_keep g) c) l) g | None => g end.

(** a section holds what follows and stands in a section, up to the next section of its
    level or above *)
Definition beneath (level : nat) (x : bool * block) : bool := fst x && under level (snd x).
Fixpoint shelve (l : list (bool * block)) : list (bool * block) :=
  match l with
  | [] => []
  | (o, Blk (HSection i t level) m k loc) :: r =>
      let (mine, rest) := split_while (beneath level) (shelve r) in
      (o, Blk (HSection i t level) m (k ++ map snd mine) loc) :: rest
  | x :: r => x :: shelve r
  end.
Definition outline (l : list (bool * block)) : list block := map snd (shelve l).
(** a delimited block or admonition is not directly followed by a subsection; [level] is
    the level of the section it stands in, 0 if none *)
Fixpoint clear (level : nat) (l : list (bool * block)) : bool :=
  match l with
  | [] => true
  | (_, Blk (HSection _ _ n) _ _ _) :: r => clear n r
  | (o, Blk h _ _ _) :: r =>
      let level' := if o then level else 0 in
      match h, r with
      | HParent _ _ _ _, (_, Blk (HSection _ _ n) _ _ _) :: _ => n <=? level'
      | _, _ => true
      end && clear level' r
  end.

(** cross references show the title of the last block with that identifier *)
Definition title_of (b : block) : list inline :=
  match b_head b with HSection _ t _ | HParent _ _ _ t | HMacro _ t => t | _ => [] end.
Definition id_of (b : block) : option bytes := match b_meta b with Some m => lookup (bs "id") (m_attrs m) | None => None end.
Definition names (l : list block) : list (bytes * list inline) :=
  List.concat (map (fun b => match id_of b with Some i => [(i, title_of b)] | None => [] end)
                   (List.concat (map SpecXref.in_order l))).
Definition refer (ns : list (bytes * list inline)) (i : inline) : inline :=
  match i with
  | IRef RXref t k m loc => match lookup t (rev ns) with Some ti => IRef RXref t ti m loc | None => i end
  | _ => i
  end.
Definition refer_head (ns : list (bytes * list inline)) (h : head) : head :=
  match h with
  | HSection i t l => HSection i (map (refer ns) t) l
  | HListItem m p => HListItem m (map (refer ns) p)
  | HDListItem t p => HDListItem t (map (refer ns) p)
  | HLeaf n fm d l => HLeaf n fm d (map (refer ns) l)
  | HParent n v d t => HParent n v d (map (refer ns) t)
  | HCell l => HCell (map (refer ns) l)
  | HMacro t c => HMacro t c
  | HList v => HList v
  | HDList => HDList
  | HBreak v => HBreak v
  end.
Fixpoint refer_block (ns : list (bytes * list inline)) (b : block) : block :=
  match b with Blk h m k loc => Blk (refer_head ns h) m (map (refer_block ns) k) loc end.
Definition referred (l : list block) : list block := map (refer_block (names l)) l.
Definition script_blocks (d : script) : list block := referred (outline (g_flow (script_page d))).

(** *** Which blocks are meant *)
Definition closes (ty : token_type) (ws : list word) : bool := negb (existsb (fun w => tt_eqb (fst w) ty) ws).
(** callouts are not meant in documents with icons *)
Definition callout_fits (e : env) (s : bytes) : bool :=
  (2 <=? List.length s) && forallb is_ascii s && match e (bs "icons") with Some i => negb (beqb i (bs "true")) | None => true end.
Definition fenced_fits (v : verbatim) (e : env) (ws : list word) : bool :=
  match v with
  | Listing => closes TSourceBlock ws && closes TInclude ws && forallb (fun w => negb (callout v w) || callout_fits e (snd w)) ws
  | Literal => closes TLiteralBlock ws
  | Pass => closes TPassthroughBlock ws
  end.
(** the text of a term is read together with the term that follows, which must start with
    plain text and not end with a line break that waits: the first line is the text, all
    that comes after it the next term.  The last text may have several lines. *)
Definition opens (l : list element) : bool :=
  match l with Bit (Said _) :: _ | Bit (Quoted _) :: _ | Bit (Valued _) :: _ | Bit (Signed _) :: _ => true | _ => false end.
Definition unbroken (l : list inline) : bool :=
  forallb (fun i => match i with ILit _ _ s _ => negb (beqb s ["010"]) | _ => true end) l.
Definition finished (keep : manner) (e : env) (l : list element) : bool := negb (snd (fst (text_draft keep e None false l))).
Fixpoint terms_ok (keep : manner) (e : env) (x : list element) (r : list (list element * bool * list element)) : bool :=
  match r with
  | [] => text_fits keep false x
  | (t, _, y) :: r =>
      one_line x && unbroken (text_inlines keep e None false x)
      && (finished keep e t && opens t && text_fits keep false (x ++ Bit Newline :: t) && terms_ok keep e y r)
  end.
(** words that are plain text in a verse block: neither inline markup nor quotes nor
    fences and attribute lines *)
Definition verse_word (w : word) : bool :=
  match fst w with
  | TComment | TEmphasis | TStrong | TMonospace | TMark | TUnconstrainedEmphasis | TUnconstrainedStrong | TUnconstrainedMonospace
  | TUnconstrainedMark | TCharRef | TInlineStyle | TInlineMacroClose
  | TOpenDoubleQuote | TCloseDoubleQuote | TOpenSingleQuote | TCloseSingleQuote
  | TQuoteVerseBlock | TSidebarBlock | TOpenBlock | TExampleBlock | TElementAttributes | TEof => false
  | TNewLineChar => beqb (snd w) ["010"]
  | _ => true
  end.
Definition leaf_ok (g : page) (c : list decor) (x : leaf) : Prop :=
  let keep := g_keep g in
  match x with
  | Text l => text_fits keep (waits keep c) l = true
  | Points _ l => l <> [] /\ forallb (text_fits keep false) l = true
  | Terms [] => False
  | Terms ((t, _, x) :: r) =>
      drops_breaks keep = false /\ waits keep c = false /\ text_fits keep false t = true /\ one_line t = true
      /\ unbroken (text_inlines keep (g_env g) (dress c) false t) = true
      /\ terms_ok (g_keep (keeping g)) (g_env g) x r = true
  | Verse l =>
      (* it is declared one *)
      forallb verse_word l = true /\ calm true l = true /\ option_map m_type (dress c) = Some (Some AVerse)
  | Fenced v l => fenced_fits v (g_env g) l = true
  | Commented l => closes TCommentBlock l = true
  | Setting name value => simple_line (Entry name value)
  | Aside _ | Space => True
  end.
(** before comments, attribute entries, blank lines and breaks there must be nothing, and
    in a box nothing before paragraphs either *)
Definition bare_leaf (x : leaf) : bool :=
  match x with Text _ | Points _ _ | Terms _ | Fenced _ _ | Verse _ => false | _ => true end.
Definition inside_ok (g : page) (x : list decor * leaf) : Prop :=
  decors_ok (fst x) /\ leaf_ok g (fst x) (snd x)
  /\ match snd x with Points _ _ | Terms _ | Fenced _ _ | Verse _ => True | _ => fst x = [] end.
Fixpoint leaves_ok (g : page) (l : list (list decor * leaf)) : Prop :=
  match l with [] => True | x :: r => inside_ok g x /\ leaves_ok (leaf_page (fst x) (snd x) g) r end.
(** the leaves and the last lines of a delimited block; [h] is the page inside *)
Definition box_ok (h : page) (l : list (list decor * leaf)) (last : list element) : Prop :=
  leaves_ok h l
  /\ match last with
     | [] => True
     | _ => text_fits (g_keep (fold_left (fun h x => leaf_page (fst x) (snd x) h) l h)) false last = true
     end.
Definition label_ok (keep : manner) (t : option (list element)) : Prop :=
  match t with Some l => text_fits keep false l = true /\ one_line l = true | None => True end.
Definition bound_ok (x : bound) (g : page) : Prop :=
  match x with Bound title b l last =>
    label_ok (g_keep (continued g)) title /\ box_ok (inside (flag_page (title_macros title) (continued g))) l last
  end.
Fixpoint bounds_ok (l : list bound) (g : page) : Prop :=
  match l with [] => True | x :: r => bound_ok x g /\ bounds_ok r (bound_page x g) end.
Definition bullet_fits (b : bullet) : bool := match b with Callout d => forallb is_digit d | _ => true end.
(** a list item that is continued has no styled text *)
Definition item_ok (x : bullet * list element * list bound) (g : page) : Prop :=
  bullet_fits (fst (fst x)) = true /\ text_fits (g_keep g) false (snd (fst x)) = true
  /\ (snd x <> [] -> styled (snd (fst x)) = false) /\ bounds_ok (snd x) (flag_page (macros (snd (fst x))) g).
Fixpoint items_ok (l : list (bullet * list element * list bound)) (g : page) : Prop :=
  match l with [] => True | x :: r => item_ok x g /\ items_ok r (item_page x g) end.
(** a table whose first row has one cell needs attributes *)
Definition cell_word (w : word) : bool := match fst w with TNewLineChar | TInclude | TTableCell => false | _ => true end.
Definition cell_ok (keep : manner) (l : list element) : bool :=
  match l with [] => true | _ => text_fits keep false l && forallb cell_word (text_words l) end.
Definition cols_ok (m : metadata) : bool :=
  match lookup (bs "cols") (m_attrs m) with Some [_; c] => negb (is_cont c) | _ => true end.
Definition grid_ok (keep : manner) (me : option metadata) (rows : list row) : bool :=
  forallb (fun r => match row_cells r with [] => false | _ => true end) rows
  && forallb (fun c => cell_ok keep (snd c)) (grid_cells rows)
  && match me with Some m => cols_ok m | None => true end
  && match rows, me with Row [_] _ :: _ :: _, None => false | _, _ => true end.
Definition piece_ok (g : page) (c : list decor) (p : piece) : Prop :=
  let keep := g_keep g in
  decors_ok c /\
  match p with
  | Part x => leaf_ok g c x /\ (bare_leaf x = true -> c = [])
  | Threaded first rest =>
      items_ok ((first, []) :: rest) g /\ match fst first with Callout _ => c = [] | _ => True end
      /\ Forall (fun x => bullet_variant (fst (fst x)) = bullet_variant (fst first)) rest
  | Head n t => 1 <= n <= 4 /\ text_fits keep false t = true /\ styled t = false
  | Alert _ l => text_fits keep (waits keep c) l = true
  | Rule _ => c = []
  | Picture title target alt =>
      label_ok keep title /\ alt_fits alt = true /\ target_fits target = true
      /\ match target with [] => True | c :: _ => is_cont c = false end
  | Boxed title b l last =>
      label_ok keep title /\ box_ok (inside (flag_page (title_macros title) g)) l last
      /\ (b = Quote -> match dress c with Some m => m_type m <> Some AVerse | None => True end)
  | Grid title _ rows => label_ok keep title /\ grid_ok keep (worn (title_rest g (dress c) title)) rows = true
  end.
Fixpoint pieces_ok (g : page) (l : list (list decor * piece)) : Prop :=
  match l with [] => True | x :: r => piece_ok g (fst x) (snd x) /\ pieces_ok (piece_page (fst x) (snd x) g) r end.
(** only what a document header may hold *)
Definition header_word (w : word) : bool :=
  match fst w with
  | THeading1 | TAttribute | TComment | TText | TEmphasis | TStrong | TMonospace | TMark | TNewLineChar
  | TUnconstrainedEmphasis | TUnconstrainedStrong | TUnconstrainedMonospace | TUnconstrainedMark
  | TCharRef | TInlineStyle | TInlineMacroClose => true
  | _ => false
  end.
Definition script_ok (d : script) : Prop :=
  match sc_title d with
  | None => True
  | Some (t, l) =>
      text_fits plainly false t = true /\ forallb header_word (text_words t) = true
      /\ Forall (fun x => simple_line (Entry (fst x) (snd x))) l
  end
  /\ pieces_ok (first_page d) (sc_pieces d)
  /\ match sc_last d with
     | None => True
     | Some (c, (l, _)) => let keep := g_keep (pieces_page (sc_pieces d) (first_page d)) in decors_ok c /\ text_fits keep (waits keep c) l = true
     end
  /\ clear 0 (g_flow (script_page d)) = true.
Definition script_title (d : script) : option (list inline) :=
  option_map (fun x => text_inlines plainly no_env None false (fst x)) (sc_title d).
(** the targets of the block images, which must be found if targets are to be resolved *)
Definition pictures (d : script) : list bytes :=
  List.concat (map (fun x => match snd x with Picture _ t _ => [t] | _ => [] end) (sc_pieces d)).
(** the cells of the tables, which are scanned on their own *)
Definition cells (d : script) : list (bytes * list element) :=
  List.concat (map (fun x => match snd x with Grid _ _ rows => grid_cells rows | _ => [] end) (sc_pieces d)).
(** the source of a script: its words, and the words of each cell *)
Definition written (src : bytes) (d : script) : Prop :=
  tokenised [] src (script_words d)
  /\ Forall (fun c => utf8 (fst c) /\ tokenised [] (fst c) (text_words (snd c) ++ [(TEof, [])])) (cells d).

(** ** Blocks without locations *)
Definition unplaced_meta (m : metadata) : metadata :=
  mkMeta (m_attrs m) (m_options m) (m_roles m) (m_inline m) (m_type m) [].
Fixpoint unplaced_inline (i : inline) : inline :=
  match i with
  | ISpan v f l m _ o => ISpan v f (map unplaced_inline l) (option_map unplaced_meta m) [] o
  | IRef v t l m _ => IRef v t (map unplaced_inline l) (option_map unplaced_meta m) []
  | ILit n k s _ => ILit n k s []
  | IBreak _ => IBreak []
  end.
Definition unplaced_head (h : head) : head :=
  let f := map unplaced_inline in
  match h with
  | HSection i t l => HSection i (f t) l
  | HListItem m p => HListItem m (f p)
  | HDListItem t p => HDListItem (f t) (f p)
  | HMacro t c => HMacro t (f c)
  | HLeaf n fm d l => HLeaf n fm d (f l)
  | HParent n v d t => HParent n v d (f t)
  | HCell l => HCell (f l)
  | HList v => HList v
  | HDList => HDList
  | HBreak v => HBreak v
  end.
Fixpoint unplaced (b : block) : block :=
  match b with Blk h m k _ => Blk (unplaced_head h) (option_map unplaced_meta m) (map unplaced k) [] end.
