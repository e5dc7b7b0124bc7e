(** * Specification of the docx output: C34, C35, C36 *)
From Verif Require Import Base World Location Token Meta Inline Block Asg SpecLevel Docx SpecScan SpecText.
Local Open Scope char_scope.
Local Open Scope nat_scope.

(** ** Tables *)
Definition columns (m : option metadata) (c : nat) : Prop :=
  exists md s, m = Some md /\ In (bs "cols", s) (m_attrs md) /\ NoDup (map fst (m_attrs md)) /\ decimal s (N.of_nat c)
    /\ (N.of_nat c < 2 ^ 64)%N.
(** the paragraph of a cell *)
Definition cell_para (b : block) (p : para) : Prop :=
  pa_style p = bs "Table" /\ pa_numbering p = None
  /\ exists lb lb', runs_from_inlines lb (block_inlines b) = (lb', pa_runs p).
Definition tables (d : docx) : list (list (list para)) :=
  flat_map (fun b => match b with BTable rows => [rows] | _ => [] end) (d_body d).

(** a block inside another, not below a list item, a table or the footnotes *)
Inductive within : block -> block -> Prop :=
| within_self b : within b b
| within_kid b x h m k loc : within b x -> In x k ->
    match h with
    | HSection _ _ _ | HList _ | HDList | HDListItem _ _ => True
    | HParent n _ _ _ => n <> PTable /\ n <> PFootnotes
    | _ => False
    end -> within b (Blk h m k loc).

(** ** Formatting: the texts and line breaks of an inline with the spans around each *)
Fixpoint leaves (vs : list span_variant) (i : inline) : list (option (literal_name * bytes) * list span_variant) :=
  match i with
  | ILit n _ v _ => [(Some (n, v), vs)]
  | IBreak _ => [(None, vs)]
  | ISpan v _ l _ _ _ => List.concat (map (leaves (v :: vs)) l)
  | IRef _ _ l _ _ => List.concat (map (leaves vs) l)
  end.
Definition exactly (vs : list span_variant) (p : rprops) : Prop :=
  (r_bold p = true <-> In SStrong vs) /\ (r_italic p = true <-> In SEmphasis vs)
  /\ (r_courier p = true <-> In SCode vs)
  /\ (r_highlight p = Some (bs "yellow") <-> In SMark vs)
  /\ (r_highlight p = Some (bs "blue") <-> In SFootnote vs)
  /\ (r_valign p = Some VSub <-> In SSubscript vs) /\ (r_valign p = Some VSuper <-> In SSuperscript vs).
Definition run_of (leaf : option (literal_name * bytes) * list span_variant) (r : run) : Prop :=
  match fst leaf with
  | Some _ => exists s p, r = RText s p /\ exactly (snd leaf) p
  | None => r = RBreak
  end.

(** ** Text: the texts and line breaks of an inline, and whether each stands inside a span or
    a reference *)
Fixpoint stretches (inside : bool) (i : inline) : list (option (literal_name * bytes) * bool) :=
  match i with
  | ILit n _ v _ => [(Some (n, v), inside)]
  | IBreak _ => [(None, inside)]
  | ISpan _ _ l _ _ _ | IRef _ _ l _ _ => List.concat (map (stretches true) l)
  end.
(** the character with a code, as UTF-8 *)
Definition code_char (n : N) : bytes :=
  map ascii_of_N
    (if (n <? 128)%N then [n]
     else if (n <? 2048)%N then [192 + n / 64; 128 + n mod 64]
     else if (n <? 65536)%N then [224 + n / 4096; 128 + n / 64 mod 64; 128 + n mod 64]
     else [240 + n / 262144; 128 + n / 4096 mod 64; 128 + n / 64 mod 64; 128 + n mod 64])%N.
(** the character references that are replaced; all others stay as they are *)
Definition replaced : list (bytes * N) :=
  map (fun x => (bs (fst x), snd x))
    [("&nbsp;", 32); ("&#160;", 32); ("&mdash;", 8212); ("&#8212;", 8212); ("&ndash;", 8212); ("&dollar;", 36);
     ("&amp;", 38); ("&#38;", 38); ("&gt;", 62); ("&#62;", 62); ("&lt;", 60); ("&#60;", 60); ("&equals;", 61); ("&plus;", 43);
     ("&#169;", 169); ("&copy;", 169); ("&#174;", 174); ("&reg;", 174); ("&#8482;", 8482); ("&trade;", 8482);
     ("&#8230;", 8230); ("&#8594;", 8594); ("&#8658;", 8658); ("&#8592;", 8592); ("&#8656;", 8656);
     ("&#sect;", 167); ("&#167;", 167); ("&euro;", 8364); ("&#8364;", 8364); ("&yen;", 165); ("&#165;", 165);
     ("&quot;", 34); ("&#34;", 34); ("&#39;", 39); ("&apos;", 39); ("&lsquo;", 8216); ("&#8216;", 8216);
     ("&rsquo;", 8217); ("&#8217;", 8217); ("&ldquo;", 8220); ("&#8220;", 8220); ("&rdquo;", 8221); ("&#8221;", 8221)]%N%string.
Definition reads (n : literal_name) (v t : bytes) : Prop :=
  match n with
  | LText => t = v
  | LCharref => (exists c, In (v, c) replaced /\ t = code_char c) \/ ~ In v (map fst replaced) /\ t = v
  end.
(** what character references stand for: by number, or by the names of HTML *)
Definition entities : list (bytes * N) :=
  map (fun x => (bs "&" ++ bs (fst x) ++ bs ";", snd x))
    [("nbsp", 160); ("mdash", 8212); ("ndash", 8211); ("dollar", 36); ("amp", 38); ("gt", 62); ("lt", 60);
     ("equals", 61); ("plus", 43); ("copy", 169); ("reg", 174); ("trade", 8482); ("hellip", 8230); ("rarr", 8594); ("larr", 8592);
     ("sect", 167); ("euro", 8364); ("yen", 165); ("quot", 34); ("apos", 39); ("lsquo", 8216); ("rsquo", 8217); ("ldquo", 8220);
     ("rdquo", 8221)]%N%string.
Inductive stands : bytes -> N -> Prop :=
| stands_number d n : decimal d n -> stands (bs "&#" ++ d ++ bs ";") n
| stands_name s n : In (s, n) entities -> stands s n.
(** [after]: a line break stands right before; then white space at the start is dropped *)
Definition shown (after inside : bool) (v s : bytes) : Prop :=
  if inside then exists t, joined v t /\ if after then unindented t s else s = t
  else exists t, (if after then unindented v t else t = v) /\ on_one_line t s.
Fixpoint written (after : bool) (l : list (option (literal_name * bytes) * bool)) (rs : list run) : Prop :=
  match l, rs with
  | [], [] => True
  | (None, _) :: l, r :: rs => r = RBreak /\ written true l rs
  | (Some (n, v), inside) :: l, r :: rs =>
      (exists s p t, r = RText s p /\ reads n v t /\ (utf8 v -> shown after inside t s)) /\ written false l rs
  | _, _ => False
  end.

(** spans nested so that nothing follows an inner span inside the span around it *)
Fixpoint spanless (i : inline) : Prop :=
  match i with
  | ISpan _ _ _ _ _ _ => False
  | IRef _ _ l _ _ => fold_right and True (map spanless l)
  | ILit _ _ _ _ | IBreak _ => True
  end.
Definition raised (v : span_variant) : Prop := v = SSubscript \/ v = SSuperscript.
(** [vs]: the spans around *)
Inductive nested : list span_variant -> inline -> Prop :=
| nested_lit vs n k v loc : nested vs (ILit n k v loc)
| nested_break vs loc : nested vs (IBreak loc)
| nested_span vs v f l m loc o :
    (raised v -> vs = []) -> (v = SMark -> ~ In SFootnote vs) -> (v = SFootnote -> ~ In SMark vs) ->
    nested_list (v :: vs) l -> nested vs (ISpan v f l m loc o)
| nested_ref vs v t l m loc : nested_list vs l -> nested vs (IRef v t l m loc)
with nested_list : list span_variant -> list inline -> Prop :=
| nested_nil vs : nested_list vs []
| nested_one vs i : nested vs i -> nested_list vs [i]
| nested_cons vs i l : spanless i -> nested vs i -> nested_list vs l -> nested_list vs (i :: l).

(** ** Styles *)
Definition para_styles (b : body) : list bytes :=
  match b with
  | BPara p => [pa_style p]
  | BTable rows => map pa_style (List.concat rows)
  | BPic _ => []
  end.
Definition styles_used (d : docx) : list bytes := flat_map para_styles (d_body d).
Fixpoint no_thematic_break (b : block) : Prop :=
  match b with
  | Blk (HBreak BThematic) _ _ _ => False
  | Blk _ _ k _ => fold_right and True (map no_thematic_break k)
  end.
