(** * Docx: /repo/src/backends/docx (document.rs, styles.rs, mod.rs)

    The value the code builds with the [docx_rs] builder API: the style table, the
    numberings and the body as a list of paragraphs, tables and pictures.  What
    [docx_rs] makes of it (XML and zip) is not modelled, nor are the visual
    properties of the styles, page size and header. *)
From Verif Require Import Base World Location Token Meta Inline Block Asg.
Local Open Scope char_scope.
Local Open Scope nat_scope.

(** document.rs 51-59 [DocxRenderError] *)
Inductive docx_error := DFile | DColumn.
Definition dres (A : Type) : Type := res docx_error A.

(** styles.rs 6-24 [enum DocumentStyles] *)
Inductive doc_style :=
| DNormal | DNoSpacing | DMonospace | DTitle | DHeading (n : nat)
| DSectionTitle (s : bytes) | DSectionText (s : bytes) | DQuote | DVerse
| DListParagraph | DListParagraphContinue | DOrderedListParagraph (n : nat)
| DDefinitionTerm | DDefinition | DThematicBreak | DTable.

(** styles.rs 27-46 [style_id] *)
Definition style_id (s : doc_style) : bytes :=
  match s with
  | DNormal => bs "Normal"
  | DNoSpacing => bs "No Spacing"
  | DMonospace => bs "Monospace"
  | DTitle => bs "Title"
  | DHeading n => bs "Heading " ++ dec n
  | DSectionTitle n => n ++ bs " Title"
  | DSectionText n => n ++ bs " Text"
  | DQuote => bs "Quote"
  | DVerse => bs "Verse"
  | DListParagraph => bs "ListParagraph"
  | DListParagraphContinue => bs "ListParagraphContinue"
  | DOrderedListParagraph n => bs "NumberedListParagraph_" ++ dec n
  | DDefinitionTerm => bs "Definition Term"
  | DDefinition => bs "Definition"
  | DThematicBreak => bs "ThematicBreak"
  | DTable => bs "Table"
  end.
(** styles.rs 48-196 [generate]: the [style_id] of the generated style *)
Definition generated_id (s : doc_style) : bytes :=
  match s with
  | DThematicBreak => bs "Thematic Break"
  | _ => style_id s
  end.
(** styles.rs 48-196 [generate]: [based_on] *)
Definition style_base (s : doc_style) : option bytes :=
  match s with
  | DNormal | DNoSpacing | DMonospace => None
  | DSectionTitle _ => Some (bs "Title")
  | DQuote | DVerse | DListParagraph | DListParagraphContinue => Some (bs "No Spacing")
  | _ => Some (bs "Normal")
  end.

(** a run: its text and the run properties the code sets, or a line break *)
Inductive valign := VSub | VSuper.
Record rprops := mkProps {
  r_bold : bool; r_italic : bool; r_courier : bool;
  r_highlight : option bytes; r_valign : option valign }.
Definition no_props : rprops := mkProps false false false None None.
Inductive run := RText (s : bytes) (p : rprops) | RBreak.

Record para := mkPara {
  pa_style : bytes; pa_numbering : option nat; pa_page_break : bool; pa_runs : list run }.
Inductive body := BPara (p : para) | BTable (rows : list (list para)) | BPic (target : bytes).

(** [Docx]: style table (generated id and base), body, abstract numberings,
    numberings (id, abstract id) *)
Record docx := mkDocx {
  d_styles : list (bytes * option bytes); d_body : list body;
  d_abstract : list nat; d_nums : list (nat * nat) }.

(** document.rs 62-69 [struct DocxWriter] *)
Record writer := mkWriter {
  wr_page_break : bool; wr_line_break : bool; wr_abstract : nat; wr_num : nat;
  wr_style : doc_style }.
Definition new_writer : writer := mkWriter false false 0 0 DNormal.

(** document.rs 26-30 [asciidocr_default_docx] *)
Definition style_entry (s : doc_style) : bytes * option bytes := (generated_id s, style_base s).
Definition default_docx : docx :=
  mkDocx (map style_entry [DNormal; DNoSpacing; DTitle]) [] [] [].

Definition add_body (d : docx) (b : body) : docx :=
  mkDocx (d_styles d) (d_body d ++ [b]) (d_abstract d) (d_nums d).

(** document.rs 354-364 [add_style], [set_style], [reset_style] *)
Definition add_style (d : docx) (s : doc_style) : docx :=
  if memb (generated_id s) (map fst (d_styles d)) then d
  else mkDocx (d_styles d ++ [style_entry s]) (d_body d) (d_abstract d) (d_nums d).
Definition set_style (st : writer * docx) (s : doc_style) : writer * docx :=
  let (w, d) := st in
  (mkWriter (wr_page_break w) (wr_line_break w) (wr_abstract w) (wr_num w) s, add_style d s).
Definition reset_style (st : writer * docx) : writer * docx :=
  let (w, d) := st in
  (mkWriter (wr_page_break w) (wr_line_break w) (wr_abstract w) (wr_num w) DNormal, d).

(** document.rs 87-97 [add_paragraph] *)
Definition add_paragraph (st : writer * docx) (num : option nat) (runs : list run)
  : writer * docx :=
  let (w, d) := st in
  (mkWriter false (wr_line_break w) (wr_abstract w) (wr_num w) (wr_style w),
   add_body d (BPara (mkPara (style_id (wr_style w)) num (wr_page_break w) runs))).

(** /repo/src/graph/substitutions.rs 5-51 *)
Definition charref_map : list (bytes * bytes) :=
  [(bs "&nbsp;", bs " ");
   (bs "&#160;", bs " ");
   (bs "&mdash;", bs "—");
   (bs "&#8212;", bs "—");
   (bs "&ndash;", bs "—");
   (bs "&dollar;", bs "$");
   (bs "&amp;", bs "&");
   (bs "&#38;", bs "&");
   (bs "&gt;", bs ">");
   (bs "&#62;", bs ">");
   (bs "&lt;", bs "<");
   (bs "&#60;", bs "<");
   (bs "&equals;", bs "=");
   (bs "&plus;", bs "+");
   (bs "&#169;", bs "©");
   (bs "&copy;", bs "©");
   (bs "&#174;", bs "®");
   (bs "&reg;", bs "®");
   (bs "&#8482;", bs "™");
   (bs "&trade;", bs "™");
   (bs "&#8230;", bs "…");
   (bs "&#8594;", bs "→");
   (bs "&#8658;", bs "⇒");
   (bs "&#8592;", bs "←");
   (bs "&#8656;", bs "⇐");
   (bs "&#sect;", bs "§");
   (bs "&#167;", bs "§");
   (bs "&euro;", bs "€");
   (bs "&#8364;", bs "€");
   (bs "&yen;", bs "¥");
   (bs "&#165;", bs "¥");
   (bs "&quot;", bs """");
   (bs "&#34;", bs """");
   (bs "&#39;", bs "'");
   (bs "&apos;", bs "'");
   (bs "&lsquo;", bs "‘");
   (bs "&#8216;", bs "‘");
   (bs "&rsquo;", bs "’");
   (bs "&#8217;", bs "’");
   (bs "&ldquo;", bs "“");
   (bs "&#8220;", bs "“");
   (bs "&rdquo;", bs "”");
   (bs "&#8221;", bs "”")].
(** inlines.rs 714-726 [value_or_refd_char] *)
Definition value_or_refd_char (n : literal_name) (v : bytes) : bytes :=
  match n with
  | LCharref => match mget v charref_map with Some s => s | None => v end
  | LText => v
  end.

(** RE_WHITESPACE_NEWLINE (document.rs 24, white space up to and including a
    newline) replaced by one space: in each maximal run of white space everything
    up to its last newline.  [run] is the current run, reversed. *)
Definition is_nl_char (ch : bytes) : bool := beqb ch [NL].
Fixpoint take_while {A} (p : A -> bool) (l : list A) : list A :=
  match l with
  | [] => []
  | x :: r => if p x then x :: take_while p r else []
  end.
Definition flush_ws (run : list bytes) : list bytes :=
  if existsb is_nl_char run
  then [SP] :: rev (take_while (fun c => negb (is_nl_char c)) run) else rev run.
Fixpoint collapse_nl (l run : list bytes) : list bytes :=
  match l with
  | [] => flush_ws run
  | ch :: r =>
      if is_ws ch then collapse_nl r (ch :: run)
      else flush_ws run ++ ch :: collapse_nl r []
  end.
Definition replace_ws_newline (s : bytes) : bytes := unchars (collapse_nl (chars s) []).
(** [replace("\n", " ")] *)
Definition replace_newline (s : bytes) : bytes := map (fun c => if Ascii.eqb c NL then SP else c) s.
Definition trim_start (s : bytes) : bytes := unchars (drop_while is_ws (chars s)).

(** document.rs 435-465: the properties set by one enclosing variant *)
Definition apply_variant (p : rprops) (v : span_variant) : rprops :=
  match v with
  | SStrong => mkProps true (r_italic p) (r_courier p) (r_highlight p) (r_valign p)
  | SEmphasis => mkProps (r_bold p) true (r_courier p) (r_highlight p) (r_valign p)
  | SCode => mkProps (r_bold p) (r_italic p) true (r_highlight p) (r_valign p)
  | SMark => mkProps (r_bold p) (r_italic p) (r_courier p) (Some (bs "yellow")) (r_valign p)
  | SSubscript => mkProps false false false None (Some VSub)
  | SSuperscript => mkProps false false false None (Some VSuper)
  | SFootnote => mkProps (r_bold p) (r_italic p) (r_courier p) (Some (bs "blue")) (r_valign p)
  end.
Definition props_of (variants : list span_variant) : rprops :=
  fold_left apply_variant variants no_props.

(** document.rs 420-484 [runs_from_inline_with_variant]: the flag is
    [line_break_before], the list the shared [variants] vector, which is pushed to
    and never popped *)
Fixpoint runs_with_variant (lb : bool) (vs : list span_variant) (i : inline)
  : bool * list span_variant * list run :=
  let go := fix go (lb : bool) (vs : list span_variant) (l : list inline) :=
    match l with
    | [] => (lb, vs, [])
    | x :: r =>
        let '(lb1, vs1, r1) := runs_with_variant lb vs x in
        let '(lb2, vs2, r2) := go lb1 vs1 r in
        (lb2, vs2, r1 ++ r2)
    end in
  match i with
  | ILit n _ v _ =>
      let t := replace_newline (value_or_refd_char n v) in
      (false, vs, [RText (if lb then trim_start t else t) (props_of vs)])
  | ISpan v _ l _ _ _ => go lb (vs ++ [v]) l
  | IBreak _ => (true, vs, [RBreak])
  | IRef _ _ l _ _ => go lb vs l
  end.
Fixpoint runs_with_variant_list (lb : bool) (vs : list span_variant) (l : list inline)
  : bool * list span_variant * list run :=
  match l with
  | [] => (lb, vs, [])
  | x :: r =>
      let '(lb1, vs1, r1) := runs_with_variant lb vs x in
      let '(lb2, vs2, r2) := runs_with_variant_list lb1 vs1 r in
      (lb2, vs2, r1 ++ r2)
  end.
(** document.rs 380-417 [runs_from_inline] *)
Definition runs_from_inline (lb : bool) (i : inline) : bool * list run :=
  match i with
  | ILit n _ v _ =>
      let t := value_or_refd_char n v in
      (false, [RText (replace_ws_newline (if lb then trim_start t else t)) no_props])
  | ISpan v _ l _ _ _ =>
      let '(lb', _, r) := runs_with_variant_list lb [v] l in (lb', r)
  | IBreak _ => (true, [RBreak])
  | IRef _ _ l _ _ => let '(lb', _, r) := runs_with_variant_list lb [] l in (lb', r)
  end.
Fixpoint runs_from_inlines (lb : bool) (l : list inline) : bool * list run :=
  match l with
  | [] => (lb, [])
  | x :: r =>
      let (lb1, r1) := runs_from_inline lb x in
      let (lb2, r2) := runs_from_inlines lb1 r in
      (lb2, r1 ++ r2)
  end.
(** document.rs 370-377 [add_inlines_to_para] with its effect on the writer *)
Definition inline_runs (st : writer * docx) (l : list inline) : (writer * docx) * list run :=
  let (w, d) := st in
  let (lb, rs) := runs_from_inlines (wr_line_break w) l in
  ((mkWriter (wr_page_break w) lb (wr_abstract w) (wr_num w) (wr_style w), d), rs).
Definition add_inlines_paragraph (st : writer * docx) (num : option nat) (l : list inline)
  : writer * docx :=
  let (st', rs) := inline_runs st l in add_paragraph st' num rs.

Definition variant_display (v : parent_variant) : bytes :=
  match v with
  | VCaution => bs "Caution" | VImportant => bs "Important" | VNote => bs "Note"
  | VTip => bs "Tip" | VWarning => bs "Warning"
  end.
Definition text_run (s : bytes) : run := RText s no_props.

(** document.rs 303-333 [add_table]: the loop over the cells.  The cells of the
    row in progress are added to the table only when a further cell follows. *)
Definition docx_row_break (cols : N) (idx num : nat) : dres bool :=
  if idx =? 0 then Ok false
  else if (cols =? 0)%N then Panic
  else Ok (((N.of_nat (idx + 1) mod cols) =? 0)%N && negb (idx + 1 =? num)).
Fixpoint table_rows (st : writer * docx) (cols : N) (num idx : nat)
         (cells : list block) (cur : list para) (rows : list (list para))
  : dres ((writer * docx) * list (list para)) :=
  match cells with
  | [] => Ok (st, rows)
  | b :: r =>
      let (st', rs) := inline_runs st (block_inlines b) in
      let cur' := cur ++ [mkPara (style_id DTable) None false rs] in
      let* brk := docx_row_break cols idx num in
      if (brk : bool) then table_rows st' cols num (S idx) r [] (rows ++ [cur'])
      else table_rows st' cols num (S idx) r cur' rows
  end.
Definition docx_table (st : writer * docx) (m : option metadata) (k : list block)
  : dres (writer * docx) :=
  let st := set_style st DTable in
  let* cols :=
    match m with
    | Some md => match mget (bs "cols") (m_attrs md) with
                 | Some c => match parse_usize c with Some n => Ok n | None => Err DColumn end
                 | None => Ok 0%N
                 end
    | None => Ok 0%N
    end in
  let* (st', rows) := table_rows st cols (List.length k) 0 k [] [] in
  let (w, d) := st' in Ok (w, add_body d (BTable rows)).

(** document.rs 162-187 [add_list], before the items *)
Definition docx_list_start (st : writer * docx) (v : list_variant) : writer * docx :=
  let (w, d) := st in
  let w := mkWriter (wr_page_break w) (wr_line_break w) (wr_abstract w) (S (wr_num w)) (wr_style w) in
  match v with
  | LOrdered => set_style (w, d) (DOrderedListParagraph (wr_num w))
  | LUnordered =>
      let (w, d) := set_style (w, d) DListParagraph in
      if wr_abstract w =? 0 then
        (mkWriter (wr_page_break w) (wr_line_break w) 1 (wr_num w) (wr_style w),
         mkDocx (d_styles d) (d_body d) (d_abstract d ++ [1]) (d_nums d ++ [(wr_num w, 1)]))
      else (w, d)
  end.
(** document.rs 190-220 [add_list_item], [add_block_to_list_item] *)
Definition docx_list_item (st : writer * docx) (p : list inline) (k : list block)
  : writer * docx :=
  let st := add_inlines_paragraph st (Some (wr_num (fst st))) p in
  match k with
  | [] => st
  | _ =>
      let st := set_style st DListParagraphContinue in
      reset_style (fold_left (fun s b => add_inlines_paragraph s None (block_inlines b)) k st)
  end.

(** The outcome of opening, reading and decoding an image file (document.rs
    341-347) comes from outside: [img]. *)
Section Render.
  Variable img : bytes -> dres unit.

  (** document.rs 99-160 [add_block_to_doc] with the methods it calls (162-351) *)
  Fixpoint docx_block (st : writer * docx) (b : block) : dres (writer * docx) :=
    match b with
    | Blk h m k _ =>
        let go := fix go (st : writer * docx) (l : list block) : dres (writer * docx) :=
          match l with
          | [] => Ok st
          | x :: r => let* st' := docx_block st x in go st' r
          end in
        match h with
        | HSection _ t lv =>
            let st := match t with
                      | [] => st
                      | _ => reset_style (add_inlines_paragraph (set_style st (DHeading lv)) None t)
                      end in
            go st k
        | HList v => go (docx_list_start st v) k
        | HListItem _ p => Ok (docx_list_item st p k)
        | HDList => go st k
        | HDListItem t p =>
            let st := add_inlines_paragraph (set_style st DDefinitionTerm) None t in
            let st := add_inlines_paragraph (set_style st DDefinition) None p in
            go st k
        | HBreak BPage =>
            let (w, d) := st in
            Ok (mkWriter true (wr_line_break w) (wr_abstract w) (wr_num w) (wr_style w), d)
        | HBreak BThematic =>
            Ok (add_paragraph (set_style st DThematicBreak) None [text_run (bs "#")])
        | HLeaf n _ _ l =>
            let st := match n with
                      | NVerse => set_style st DVerse
                      | NListing | NLiteral => set_style st DMonospace
                      | _ => st
                      end in
            Ok (add_inlines_paragraph st None l)
        | HParent n v _ t =>
            let parent (name : bytes) :=
              let st := match v with
                        | Some x => add_paragraph (set_style st (DSectionTitle name)) None
                                                  [text_run (variant_display x)]
                        | None => st
                        end in
              let st := match t with
                        | [] => st
                        | _ => add_inlines_paragraph (set_style st (DSectionTitle name)) None t
                        end in
              let* st := go (set_style st (DSectionText name)) k in
              Ok (reset_style st) in
            match n with
            | PAdmonition => parent (bs "Admonition")
            | PExample => parent (bs "Example")
            | PSidebar => parent (bs "Sidebar")
            | POpen => go st k
            | PQuote =>
                let* st := go (set_style st DQuote) k in
                let st :=
                  match m with
                  | Some md => match mget (bs "attribution") (m_attrs md) with
                               | Some a => add_paragraph st None
                                             [text_run (bs "— " ++ a ++ [NL])]
                               | None => st
                               end
                  | None => st
                  end in
                Ok (reset_style st)
            | PTable => docx_table st m k
            | PFootnotes => Ok st
            end
        | HMacro target _ =>
            let* _ := img target in
            let (w, d) := st in Ok (w, add_body d (BPic target))
        | HCell _ => Ok st
        end
    end.
  Fixpoint docx_blocks (st : writer * docx) (l : list block) : dres (writer * docx) :=
    match l with
    | [] => Ok st
    | x :: r => let* st' := docx_block st x in docx_blocks st' r
    end.

  (** mod.rs 17-40 [render_docx], up to packing *)
  Definition render_docx (a : asg) : dres docx :=
    let st0 := (new_writer, default_docx) in
    let st :=
      match a_header a with
      | Some h =>
          match hd_title h with
          | [] => st0
          | t => let (st', rs) := inline_runs st0 t in
                 let (w, d) := st' in
                 (w, add_body d (BPara (mkPara (bs "Title") None false rs)))
          end
      | None => st0
      end in
    let* (_, d) := docx_blocks st (a_blocks a) in Ok d.
End Render.
