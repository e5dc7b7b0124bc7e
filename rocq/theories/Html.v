(** * Html: /repo/src/backends/htmls.rs and /repo/templates/htmlbook

    The five Tera templates as one function from the graph to a sequence of
    pieces, and the text of those pieces.  White space of the templates between
    tags is left out (the crate's own tests compare without white space); inside
    [pre] the templates add none.  The template names end in ".tera", so Tera's
    auto-escaping (on for names ending in ".html") is off.  A Tera error makes
    [render] panic (htmls.rs 29, [expect]). *)
From Verif Require Import Base World Location Token Meta Inline Block Asg Json.
Local Open Scope char_scope.
Local Open Scope nat_scope.

Inductive piece :=
| TOpen (tag : bytes) (attrs : list (bytes * bytes))    (* <tag a="v"> *)
| TClose (tag : bytes)                                  (* </tag> *)
| TEmpty (gap : bool) (tag : bytes) (attrs : list (bytes * bytes))   (* <tag a="v" />, or without the blank *)
| TText (s : bytes).                                    (* text, unescaped *)

Definition attr_text (kv : bytes * bytes) : bytes :=
  [SP] ++ fst kv ++ ["="; DQ] ++ snd kv ++ [DQ].
Definition attrs_text (l : list (bytes * bytes)) : bytes := List.concat (map attr_text l).
Definition piece_text (p : piece) : bytes :=
  match p with
  | TOpen t a => bs "<" ++ t ++ attrs_text a ++ bs ">"
  | TClose t => bs "</" ++ t ++ bs ">"
  | TEmpty gap t a => bs "<" ++ t ++ attrs_text a ++ bs (if gap then " />" else "/>")
  | TText s => s
  end.
Definition pieces_text (l : list piece) : bytes := List.concat (map piece_text l).

(** [metadata.roles] / [metadata.attributes.k], [None] when missing or falsy *)
Definition class_attr (m : option metadata) : list (bytes * bytes) :=
  match m with
  | Some x => match m_roles x with [] => [] | r => [(bs "class", join (bs " ") r)] end
  | None => []
  end.
Definition meta_attr (k : string) (m : option metadata) : option bytes :=
  match m with
  | Some x => match mget (bs k) (m_attrs x) with
              | Some [] => None
              | v => v
              end
  | None => None
  end.
Definition opt_attr (k : string) (v : option bytes) : list (bytes * bytes) :=
  match v with Some x => [(bs k, x)] | None => [] end.

(** ** templates/htmlbook/inline.html.tera [process_inline] *)
Definition span_tag (v : span_variant) : bytes :=
  match v with
  | SEmphasis => bs "em"
  | SMark => bs "span"
  | SSuperscript => bs "sup"
  | SSubscript => bs "sub"
  | SFootnote => bs "span"
  | SStrong => bs "strong"
  | SCode => bs "code"
  end.
Definition ref_text (v : ref_variant) (target : bytes) : bytes :=
  match v with RXref => bs "#" ++ target | _ => target end.
Fixpoint html_inline (i : inline) : list piece :=
  match i with
  | IBreak _ => [TEmpty true (bs "br") []]
  | ISpan v _ l m _ _ =>
      [TOpen (span_tag v)
             (class_attr m
              ++ match v with SFootnote => [(bs "data-type", bs "footnote")] | _ => [] end)]
      ++ List.concat (map html_inline l) ++ [TClose (span_tag v)]
  | IRef RImage t _ m _ => [TEmpty true (bs "img") (class_attr m ++ [(bs "src", t)])]
  | IRef v t l m _ =>
      [TOpen (bs "a") (class_attr m ++ [(bs "href", ref_text v t)])]
      ++ match l with
         | [] => [TText (ref_text v t)]
         | _ => List.concat (map html_inline l)
         end
      ++ [TClose (bs "a")]
  | ILit _ _ v _ => [TText v]
  end.
Definition html_inlines (l : list inline) : list piece := List.concat (map html_inline l).
Definition html_tag (t : string) (a : list (bytes * bytes)) (l : list piece) : list piece :=
  [TOpen (bs t) a] ++ l ++ [TClose (bs t)].

(** ** templates/htmlbook/leafblocks.html.tera [process_leaf_block] *)
Definition html_leaf (n : leaf_name) (l : list inline) (m : option metadata) : list piece :=
  match n with
  | NPass => html_inlines l
  | NParagraph => html_tag "p" (class_attr m) (html_inlines l)
  | NListing =>
      html_tag "pre" (class_attr m ++ opt_attr "data-code-language" (meta_attr "language" m))
               (html_inlines l)
  | NVerse => html_tag "pre" (class_attr m ++ [(bs "data-type", bs "verse")]) (html_inlines l)
  | NLiteral => html_tag "pre" (class_attr m) (html_inlines l)
  end.

(** ** templates/htmlbook/tables.html.tera *)

(** Tera's [int] filter on a string: trimmed, decimal [i64]; else, with a dot, as
    a float; else 0 *)
Definition parse_i64 (s : bytes) : option Z :=
  match s with
  | [] => None
  | c :: r =>
      let neg := Ascii.eqb c "-" in
      let body := if neg || Ascii.eqb c "+" then r else s in
      match body with
      | [] => None
      | _ => match digits_val 0 body with
             | Some n =>
                 let z := if neg then (- Z.of_N n)%Z else Z.of_N n in
                 if ((- 2 ^ 63 <=? z) && (z <? 2 ^ 63))%Z then Some z else None
             | None => None
             end
      end
  end.
Definition tera_int (w : world) (s : bytes) : Z :=
  match parse_i64 (trim s) with
  | Some z => z
  | None =>
      if memc "." s then match w_float w (trim s) with Some z => z | None => 0%Z end else 0%Z
  end.

(** the inlines of a cell (any block with inlines would do); [nth] beyond the end gives an empty value *)
Definition cell_inlines (k : list block) (idx : nat) : list inline :=
  match nth_error k idx with
  | Some (Blk (HCell l | HLeaf _ _ _ l) _ _ _) => l
  | _ => []
  end.
Definition html_cell (tag : string) (k : list block) (idx : nat) : list piece :=
  html_tag tag [] (html_inlines (cell_inlines k idx)).

(** the loop over the body cells: a new row after every [cols] cells.
    [(idx + 1) % cols] with [cols = 0] is an error, evaluated only when [idx > 0] *)
Definition row_break (cols : Z) (idx num : nat) : result bool :=
  if idx =? 0 then Ok false
  else if (cols =? 0)%Z then Panic
  else Ok (((Z.rem (Z.of_nat idx + 1) cols) =? 0)%Z && negb (idx + 1 =? num)).
Fixpoint html_body_cells (cols : Z) (k : list block) (num : nat) (idxs : list nat)
  : result (list piece) :=
  match idxs with
  | [] => Ok []
  | idx :: r =>
      let* brk := row_break cols idx num in
      let* rest := html_body_cells cols k num r in
      Ok (html_cell "td" k idx
          ++ (if (brk : bool) then [TClose (bs "tr"); TOpen (bs "tr") []] else [])
          ++ rest)
  end.
Definition html_table (w : world) (m : option metadata) (k : list block) : result (list piece) :=
  match m with
  | None => Panic
  | Some md =>
      match mget (bs "cols") (m_attrs md) with
      | None => Panic
      | Some cv =>
          let cols := tera_int w cv in
          let num := List.length k in
          let has_header := memb (bs "header") (m_options md) in
          let start := if has_header then cols else 0%Z in
          (* range(start, end) refuses a negative or greater start *)
          if ((start <? 0) || (Z.of_nat num <? start))%Z then Panic
          else
            let st := Z.to_nat start in
            let* body := html_body_cells cols k num (seq st (num - st)) in
            Ok ([TOpen (bs "table") []]
                ++ (if has_header
                    then html_tag "thead" [] (List.concat (map (html_cell "th" k) (seq 0 st)))
                         ++ [TOpen (bs "tbody") []]
                    else [])
                ++ [TOpen (bs "tr") []] ++ body ++ [TClose (bs "tr")]
                ++ (if has_header then [TClose (bs "tbody")] else [])
                ++ [TClose (bs "table")])
      end
  end.

(** ** templates/htmlbook/block.html.tera [process_block] *)

(** lines 40-82: the tag of a block that is no section, leaf, table or break *)
Definition block_tag (h : head) : string :=
  match h with
  | HDList => "dl"
  | HList LOrdered => "ol"
  | HList LUnordered => "ul"
  | HListItem _ _ => "li"
  | HDListItem _ _ => "dd"
  | HParent n _ _ _ =>
      match n with
      | POpen => "div" | PAdmonition => "div" | PExample => "div" | PQuote => "blockquote"
      | PSidebar => "aside"
      | PFootnotes | PTable => "UNHANDLED"
      end
  | HMacro _ _ => "figure"
  | _ => "UNHANDLED"
  end.
Definition block_id_attr (h : head) (m : option metadata) : option bytes :=
  match h with HMacro _ _ => meta_attr "id" m | _ => None end.
Definition block_data_type (h : head) : option bytes :=
  match h with
  | HParent PAdmonition (Some v) _ _ => Some (parent_variant_name v)
  | HParent PSidebar _ _ _ => Some (bs "sidebar")
  | _ => None
  end.
(** lines 89-97: the title, for blocks serialised with a non-empty [title] *)
Definition html_title (h : head) : list piece :=
  match h with
  | HSection _ ((_ :: _) as t) _ => html_tag "h1" [] (html_inlines t)
  | HParent n _ _ ((_ :: _) as t) =>
      match n with
      | PExample | PSidebar => html_tag "h5" [] (html_inlines t)
      | _ => html_tag "h1" [] (html_inlines t)
      end
  | _ => []
  end.
(** lines 98-105 *)
Definition html_image (h : head) (m : option metadata) : list piece :=
  match h with
  | HMacro t cap =>
      [TEmpty false (bs "img") ([(bs "src", t)] ++ opt_attr "alt" (meta_attr "positional_1" m))]
      ++ match cap with [] => [] | _ => html_tag "figcaption" [] (html_inlines cap) end
  | _ => []
  end.
(** lines 106-120: principal text or inlines *)
Definition html_principal (h : head) : list piece :=
  match h with
  | HListItem _ ((_ :: _) as p) | HDListItem _ ((_ :: _) as p) => html_tag "p" [] (html_inlines p)
  | HCell l => html_inlines l
  | _ => []
  end.
(** lines 126-131 *)
Definition html_attribution (m : option metadata) : list piece :=
  match meta_attr "attribution" m with
  | Some a =>
      html_tag "p" [(bs "data-type", bs "attribution")]
        ([TText a] ++ match meta_attr "citation" m with
                      | Some c => [TText (bs ", "); TText c]
                      | None => []
                      end)
  | None => []
  end.
(** lines 49-54 *)
Definition html_terms (h : head) : list piece :=
  match h with
  | HDListItem ((_ :: _) as t) _ => html_tag "dt" [] (html_inlines t)
  | _ => []
  end.
Definition is_admonition (h : head) : bool :=
  match h with HParent PAdmonition _ _ _ => true | _ => false end.

Fixpoint html_block (w : world) (skip_tag : bool) (b : block) : result (list piece) :=
  match b with
  | Blk h m kids _ =>
      let go := fix go (skip : bool) (l : list block) : result (list piece) :=
        match l with
        | [] => Ok []
        | x :: r =>
            let* p := html_block w skip x in
            let* q := go skip r in Ok (p ++ q)
        end in
      match h with
      | HLeaf n _ _ l => Ok (html_leaf n l m)
      | HParent PTable _ _ _ => html_table w m kids
      | HParent PAdmonition None _ _ => Panic   (* line 56: [block.variant] is not defined *)
      | HBreak BPage => Ok (html_tag "div" [(bs "style", bs "page-break-after: always;")] [])
      | HBreak BThematic => Ok [TEmpty true (bs "hr") []]
      | HSection _ _ lv =>
          let* k := go false kids in
          Ok (html_tag "section"
                ([(bs "data-type", bs "sect" ++ dec lv)] ++ class_attr m
                 ++ opt_attr "id" (meta_attr "id" m))
                (html_title h ++ html_attribution m ++ k))
      | _ =>
          (* [block.blocks]: json has none for images and table cells *)
          let* k := match h with HMacro _ _ | HCell _ => Ok [] | _ => go (is_admonition h) kids end in
          let body := html_title h ++ html_image h m ++ html_principal h ++ k
                      ++ html_attribution m in
          let tag := block_tag h in
          let attrs := class_attr m ++ opt_attr "id" (block_id_attr h m)
                       ++ opt_attr "data-type" (block_data_type h) in
          Ok (html_terms h ++ if skip_tag then body else html_tag tag attrs body)
      end
  end.
Fixpoint html_blocks (w : world) (l : list block) : result (list piece) :=
  match l with
  | [] => Ok []
  | x :: r =>
      let* p := html_block w false x in
      let* q := html_blocks w r in Ok (p ++ q)
  end.

(** ** templates/htmlbook/htmlbook.html.tera *)
Definition html_document (w : world) (a : asg) : result (list piece) :=
  let* body := html_blocks w (a_blocks a) in
  let title := match a_header a with Some h => html_inlines (hd_title h) | None => [] end in
  Ok ([TText (bs "<!DOCTYPE html>"); TOpen (bs "html") [(bs "lang", bs "en")]]
      ++ html_tag "head" []
           ([TText (bs "<meta charset=""UTF-8"">");
             TText (bs "<meta name=""viewport"" content=""width=device-width, initial-scale=1"">")]
            ++ html_tag "title" [] title)
      ++ html_tag "body" [] body
      ++ [TClose (bs "html")]).

(** htmls.rs 14-30 [render_htmlbook], up to white space between tags *)
Definition render_htmlbook (w : world) (a : asg) : result bytes :=
  let* l := html_document w a in Ok (pieces_text l).
