(** * Specification of the docx output of graphs: C83, C84 *)
From Coq Require Import DecimalString.
From Verif Require Import Base World Location Token Meta Inline Block Asg Docx SpecScan SpecText SpecDocx.
Local Open Scope char_scope.
Local Open Scope nat_scope.

(** decimal numerals, by the library of Coq *)
Definition numeral (n : nat) : bytes := bs (NilZero.string_of_uint (Nat.to_uint n)).

(** ** Text *)
(** What there is to see in a paragraph: a text (inside a span or a reference or not, and the
    spans entered before it), a line break, a label that the output adds *)
Inductive bit :=
| Said (n : literal_name) (v : bytes) (inside : bool) (entered : list span_variant)
| Turn
| Label (s : bytes).
(** an inline from left to right: where spans begin, the texts and the line breaks *)
Inductive mark := Enter (v : span_variant) | Text (n : literal_name) (v : bytes) | Over.
Fixpoint marks (i : inline) : list mark :=
  match i with
  | ILit n _ v _ => [Text n v]
  | IBreak _ => [Over]
  | ISpan v _ l _ _ _ => Enter v :: List.concat (map marks l)
  | IRef _ _ l _ _ => List.concat (map marks l)
  end.
(** the spans that have begun before a text count, even those that have ended *)
Fixpoint follow (inside : bool) (entered : list span_variant) (l : list mark) : list bit :=
  match l with
  | [] => []
  | Enter v :: r => follow inside (entered ++ [v]) r
  | Text n v :: r => Said n v inside entered :: follow inside entered r
  | Over :: r => Turn :: follow inside entered r
  end.
Definition inline_bits (i : inline) : list bit :=
  follow (match i with ISpan _ _ _ _ _ _ | IRef _ _ _ _ _ => true | _ => false end) [] (marks i).
Definition bits (l : list inline) : list bit := List.concat (map inline_bits l).

(** the look of a text: sub- and superscript end what came before *)
Definition shifted (v : span_variant) : bool := match v with SSubscript | SSuperscript => true | _ => false end.
Fixpoint recent (l : list span_variant) : list span_variant :=
  match l with
  | [] => []
  | v :: r => if existsb shifted r then recent r else v :: r
  end.
Definition last_of {A} (f : span_variant -> option A) (l : list span_variant) : option A :=
  fold_left (fun a v => match f v with Some x => Some x | None => a end) l None.
Definition look (entered : list span_variant) : rprops :=
  let l := recent entered in
  let some f := existsb f l in
  mkProps (some (fun v => match v with SStrong => true | _ => false end))
    (some (fun v => match v with SEmphasis => true | _ => false end))
    (some (fun v => match v with SCode => true | _ => false end))
    (last_of (fun v => match v with SMark => Some (bs "yellow") | SFootnote => Some (bs "blue") | _ => None end) l)
    (last_of (fun v => match v with SSubscript => Some VSub | SSuperscript => Some VSuper | _ => None end) l).

(** the runs show the bits; [after]: the last text or line break before is a line break *)
Fixpoint typed (after : bool) (l : list bit) (rs : list run) : Prop :=
  match l, rs with
  | [], [] => True
  | Label s :: l, r :: rs => r = RText s (look []) /\ typed after l rs
  | Turn :: l, r :: rs => r = RBreak /\ typed true l rs
  | Said n v inside e :: l, r :: rs =>
      (exists s t, r = RText s (look e) /\ reads n v t /\ (utf8 v -> shown after inside t s)) /\ typed false l rs
  | _, _ => False
  end.
Fixpoint turned (after : bool) (l : list bit) : bool :=
  match l with
  | [] => after
  | Label _ :: r => turned after r
  | Turn :: r => turned true r
  | Said _ _ _ _ :: r => turned false r
  end.

(** ** What happens from the start of the graph to its end *)
Inductive event :=
| Style (name base : bytes)             (* the style of what follows, and the style it is based on *)
| Opened (v : list_variant)             (* a list begins *)
| Feed                                  (* a page break *)
| Line (item : bool) (l : list bit)     (* a paragraph; of a list item or not *)
| Grid (cols : option bytes) (cells : list (list bit))   (* a table; its attribute [cols] *)
| Image (target : bytes).
(** the attribute [k], the first if there are several *)
Definition attribute (k : string) (m : option metadata) : option bytes :=
  match m with
  | Some x => option_map snd (find (fun kv => beqb (bs k) (fst kv)) (m_attrs x))
  | None => None
  end.
Definition normal : event := Style (bs "Normal") [].
Definition style (name base : string) : event := Style (bs name) (bs base).
Definition label_of (v : parent_variant) : bytes :=
  bs (match v with VCaution => "Caution" | VImportant => "Important" | VNote => "Note" | VTip => "Tip" | VWarning => "Warning" end).
Definition boxed (name : string) (v : option parent_variant) (t : list inline) (inner : list event) : list event :=
  let title := style (name ++ " Title") "Title" in
  match v with Some x => [title; Line false [Label (label_of x)]] | None => [] end
  ++ match t with [] => [] | _ => [title; Line false (bits t)] end
  ++ [style (name ++ " Text") "Normal"] ++ inner ++ [normal].
(** the bits of a block attached to a list item, or of a table cell: its texts and those of the
    blocks inside, run together; no terms, no captions of images *)
Definition head_bits (h : head) : list bit :=
  match h with
  | HSection _ l _ | HParent _ _ _ l | HListItem _ l | HDListItem _ l | HLeaf _ _ _ l | HCell l => bits l
  | HList _ | HDList | HBreak _ | HMacro _ _ => []
  end.
Fixpoint all_bits (b : block) : list bit :=
  match b with Blk h _ k _ => head_bits h ++ List.concat (map all_bits k) end.
Fixpoint events (b : block) : list event :=
  match b with
  | Blk h m k _ =>
      let inner := List.concat (map events k) in
      match h with
      | HSection _ [] _ => inner
      | HSection _ t n => [Style (bs "Heading " ++ numeral n) (bs "Normal"); Line false (bits t); normal] ++ inner
      | HList v => Opened v :: inner
      | HListItem _ p =>
          Line true (bits p)
          :: match k with
             | [] => []
             | _ => style "ListParagraphContinue" "No Spacing" :: map (fun x => Line false (all_bits x)) k ++ [normal]
             end
      | HDList => inner
      | HDListItem t p =>
          [style "Definition Term" "Normal"; Line false (bits t); style "Definition" "Normal"; Line false (bits p)] ++ inner
      | HBreak BPage => [Feed]
      | HBreak BThematic => [style "ThematicBreak" "Normal"; Line false [Label (bs "#")]]
      | HLeaf NVerse _ _ l => [style "Verse" "No Spacing"; Line false (bits l)]
      | HLeaf NListing _ _ l | HLeaf NLiteral _ _ l => [style "Monospace" ""; Line false (bits l)]
      | HLeaf _ _ _ l => [Line false (bits l)]
      | HParent PAdmonition v _ t => boxed "Admonition" v t inner
      | HParent PExample v _ t => boxed "Example" v t inner
      | HParent PSidebar v _ t => boxed "Sidebar" v t inner
      | HParent POpen _ _ _ => inner
      | HParent PQuote _ _ _ =>
          style "Quote" "No Spacing" :: inner
          ++ match attribute "attribution" m with Some a => [Line false [Label (bs "— " ++ a ++ ["010"])]] | None => [] end
          ++ [normal]
      | HParent PTable _ _ _ => [style "Table" "Normal"; Grid (attribute "cols" m) (map all_bits k)]
      | HParent PFootnotes _ _ _ => []
      | HMacro t _ => [Image t]
      | HCell _ => []
      end
  end.
Definition title_events (t : list inline) : list event :=
  match t with [] => [] | _ => [style "Title" "Normal"; Line false (bits t); normal] end.
Definition graph_events (a : asg) : list event :=
  match a_header a with Some h => title_events (hd_title h) | None => [] end ++ List.concat (map events (a_blocks a)).

(** ** What stands on the pages *)
Inductive item :=
| Paragraph (style : bytes) (number : option nat) (feed : bool) (l : list bit)
| Table (rows : list (list (list bit))) (cells : list (list bit))
| Picture (target : bytes).
(** the number of lists, counted from 1 *)
Definition lists (before : list event) : nat :=
  List.length (filter (fun e => match e with Opened _ => true | _ => false end) before).
(** the style set last *)
Fixpoint style_at (before : list event) : bytes :=
  match before with
  | [] => bs "Normal"
  | Style name _ :: _ => name
  | Opened LUnordered :: _ => bs "ListParagraph"
  | Opened LOrdered :: r => bs "NumberedListParagraph_" ++ numeral (S (lists r))
  | _ :: r => style_at r
  end.
(** a page break since the last paragraph *)
Fixpoint due (before : list event) : bool :=
  match before with
  | Feed :: _ => true
  | Line _ _ :: _ => false
  | _ :: r => due r
  | [] => false
  end.
(** the number of columns: the attribute [cols], a number of 64 bits; none: 0 *)
Definition decimal (v : bytes) : N := fold_left (fun n c => (10 * n + (N_of_ascii c - 48))%N) v 0%N.
Definition number (s : bytes) : option N :=
  let s := match s with "+" :: r => r | _ => s end in
  match s with
  | [] => None
  | _ => if forallb is_digit s && (decimal s <? 2 ^ 64)%N then Some (decimal s) else None
  end.
Definition columns (cols : option bytes) : option N := match cols with Some s => number s | None => Some 0%N end.
(** with two or more columns the full rows that a further cell follows; with one column the
    first row has two cells; the row of the last cell is missing *)
Definition grid {A} (c : N) (cells : list A) : list (list A) :=
  match c with
  | 0%N => []
  | 1%N => match cells with
           | a :: b :: x :: r => [a; b] :: map (fun y => [y]) (removelast (x :: r))
           | _ => []
           end
  | _ => map (fun i => firstn (N.to_nat c) (skipn (i * N.to_nat c) cells))
             (seq 0 (N.to_nat ((N.of_nat (List.length cells) - 1) / c)))
  end.
(** [before]: what came before, the latest first *)
Definition shown_as (before : list event) (e : event) : list item :=
  match e with
  | Line it l => [Paragraph (style_at before) (if it then Some (lists before) else None) (due before) l]
  | Grid cols cells => match columns cols with Some c => [Table (grid c cells) cells] | None => [] end
  | Image t => [Picture t]
  | Style _ _ | Opened _ | Feed => []
  end.
Fixpoint page (before l : list event) : list item :=
  match l with
  | [] => []
  | e :: r => shown_as before e ++ page (e :: before) r
  end.
Fixpoint typed_cells (after : bool) (l : list (list bit)) (ps : list para) : Prop :=
  match l, ps with
  | [], [] => True
  | x :: l, p :: ps =>
      pa_style p = bs "Table" /\ pa_numbering p = None /\ pa_page_break p = false /\ typed after x (pa_runs p)
      /\ typed_cells (turned after x) l ps
  | _, _ => False
  end.
Fixpoint typeset (after : bool) (l : list item) (b : list body) : Prop :=
  match l, b with
  | [], [] => True
  | Paragraph s n f x :: l, BPara p :: b =>
      pa_style p = s /\ pa_numbering p = n /\ pa_page_break p = f /\ typed after x (pa_runs p) /\ typeset (turned after x) l b
  | Table rows cells :: l, BTable ps :: b =>
      map (@List.length _) ps = map (@List.length _) rows /\ typed_cells after (List.concat rows) (List.concat ps)
      /\ typeset (turned after (List.concat cells)) l b
  | Picture t :: l, BPic t' :: b => t' = t /\ typeset after l b
  | _, _ => False
  end.

(** ** Styles and numberings *)
(** the styles in the order of their first use, each with the one it is based on; the style of
    thematic breaks is entered under another name *)
Definition entry (name base : bytes) : bytes * option bytes :=
  (if beqb name (bs "ThematicBreak") then bs "Thematic Break" else name, match base with [] => None | _ => Some base end).
Fixpoint entries (seen : nat) (l : list event) : list (bytes * option bytes) :=
  match l with
  | [] => []
  | Style name base :: r => entry name base :: entries seen r
  | Opened LUnordered :: r => entry (bs "ListParagraph") (bs "No Spacing") :: entries (S seen) r
  | Opened LOrdered :: r => entry (bs "NumberedListParagraph_" ++ numeral (S seen)) (bs "Normal") :: entries (S seen) r
  | _ :: r => entries seen r
  end.
Fixpoint first_of_each (known : list bytes) (l : list (bytes * option bytes)) : list (bytes * option bytes) :=
  match l with
  | [] => []
  | x :: r => if in_dec (list_eq_dec Ascii.ascii_dec) (fst x) known then first_of_each known r
              else x :: first_of_each (fst x :: known) r
  end.
Definition style_table (l : list event) : list (bytes * option bytes) :=
  first_of_each [] (map (fun x => entry (bs (fst x)) (bs (snd x))) [("Normal", ""); ("No Spacing", ""); ("Title", "Normal")]%string
                    ++ entries 0 l).
(** the numberings: one, that of the first list with bullets *)
Fixpoint bulleted (seen : nat) (l : list event) : option nat :=
  match l with
  | [] => None
  | Opened LUnordered :: _ => Some (S seen)
  | Opened LOrdered :: r => bulleted (S seen) r
  | _ :: r => bulleted seen r
  end.

(** ** What can go wrong: an image that cannot be read, a number of columns that is none, and
    two cells or more with 0 columns *)
Definition trouble (img : bytes -> dres unit) (e : event) : dres unit :=
  match e with
  | Image t => img t
  | Grid cols cells => match columns cols with
                    | None => Err DColumn
                    | Some c => if (c =? 0)%N && (2 <=? List.length cells) then Panic else Ok Datatypes.tt
                    end
  | _ => Ok Datatypes.tt
  end.
Fixpoint first_trouble (img : bytes -> dres unit) (l : list event) : dres unit :=
  match l with
  | [] => Ok Datatypes.tt
  | e :: r => match trouble img e with Ok _ => first_trouble img r | x => x end
  end.
(** the docx file of the events *)
Definition presents (l : list event) (d : docx) : Prop :=
  typeset false (page [] l) (d_body d) /\ d_styles d = style_table l
  /\ d_abstract d = match bulleted 0 l with Some _ => [1] | None => [] end
  /\ d_nums d = match bulleted 0 l with Some n => [(n, 1)] | None => [] end.
(** the numbers that paragraphs refer to *)
Definition numbers_used (d : docx) : list nat :=
  flat_map (fun b => match b with BPara p => match pa_numbering p with Some n => [n] | None => [] end | _ => [] end) (d_body d).
(** the numbers of the lists that the items among the events are in *)
Fixpoint item_lists (seen : nat) (l : list event) : list nat :=
  match l with
  | [] => []
  | Opened _ :: r => item_lists (S seen) r
  | Line true _ :: r => seen :: item_lists seen r
  | _ :: r => item_lists seen r
  end.
