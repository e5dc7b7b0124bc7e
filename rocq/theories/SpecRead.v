(** * A reader of the JSON output: C81, C82

    It goes by the names of the members alone, whatever their order, refuses members it does not
    know, and takes what each kind of node is from its members [name] and [type]. *)
From Verif Require Import Base World Location Token Meta Inline Block Asg Json SpecJson.
Local Open Scope string_scope.
Local Open Scope nat_scope.

Definition object : Type := list (bytes * json).
Notation "'let?' x := m 'in' k" := (match m with Some x => k | None => None end) (at level 200, x binder, m at level 100, k at level 200).
Definition ask {A} (b : bool) (o : option A) : option A := if b then o else None.
Fixpoint all {A} (l : list (option A)) : option (list A) :=
  match l with
  | [] => Some []
  | x :: r => let? a := x in let? b := all r in Some (a :: b)
  end.

(** ** Members *)
Fixpoint get (k : string) (l : object) : option json :=
  match l with
  | [] => None
  | (k', v) :: r => if beqb k' (bs k) then Some v else get k r
  end.
(** no other members than these *)
Definition only (ks : list string) (l : object) : bool := forallb (fun kv => existsb (fun k => beqb (fst kv) (bs k)) ks) l.
Definition as_text (j : json) : option bytes := match j with JStr s => Some s | _ => None end.
Definition as_number (j : json) : option nat := match j with JNum n => Some n | _ => None end.
Definition as_list {A} (f : json -> option A) (j : json) : option (list A) := match j with JArr l => all (map f l) | _ => None end.
Definition text (k : string) (l : object) : option bytes := let? j := get k l in as_text j.
Definition number (k : string) (l : object) : option nat := let? j := get k l in as_number j.
Definition says (k v : string) (l : object) : bool := match text k l with Some s => beqb s (bs v) | None => false end.
Fixpoint pick {A} (s : bytes) (t : list (string * A)) : option A :=
  match t with [] => None | (k, a) :: r => if beqb s (bs k) then Some a else pick s r end.
(** one of the words of a table *)
Definition word {A} (t : list (string * A)) (k : string) (l : object) : option A := let? s := text k l in pick s t.
Definition absent {A} (a : A) (k : string) (l : object) (o : option A) : option A := match get k l with None => Some a | Some _ => o end.
(** the values of the list that is the member [k] *)
Section Sub.
  Context {A : Type} (f : json -> option A) (k : string).
  Fixpoint sub (l : object) : option (list A) :=
    match l with
    | [] => None
    | (k', v) :: r => if beqb k' (bs k) then match v with JArr js => all (map f js) | _ => None end else sub r
    end.
End Sub.
Definition sub_or_none {A} (f : json -> option A) (k : string) (l : object) : option (list A) := absent [] k l (sub f k l).

(** ** Positions and metadata *)
Definition read_place (j : json) : option location :=
  match j with
  | JObj l =>
      ask (only ["line"; "col"; "file"] l)
        (let? line := number "line" l in let? col := number "col" l in let? file := sub_or_none as_text "file" l in
         Some (mkLoc line col file))
  | _ => None
  end.
Definition places : object -> option (list location) := sub read_place "location".
Definition read_map (j : json) : option (list (bytes * bytes)) :=
  match j with JObj l => all (map (fun kv => let? v := as_text (snd kv) in Some (fst kv, v)) l) | _ => None end.
Definition read_meta (j : json) : option metadata :=
  match j with
  | JObj l =>
      ask (only ["attributes"; "options"; "roles"; "location"] l)
        (let? a := get "attributes" l in let? attrs := read_map a in
         let? options := sub as_text "options" l in let? roles := sub as_text "roles" l in let? loc := places l in
         Some (mkMeta attrs options roles false None loc))
  | _ => None
  end.
Definition meta_of (l : object) : option (option metadata) :=
  match get "metadata" l with None => Some None | Some j => let? m := read_meta j in Some (Some m) end.

(** ** Inlines *)
Definition span_words := [("strong", SStrong); ("emphasis", SEmphasis); ("code", SCode); ("mark", SMark);
  ("superscript", SSuperscript); ("subscript", SSubscript); ("footnote", SFootnote)].
Definition form_words := [("constrained", FConstrained); ("unconstrained", FUnconstrained)].
Definition ref_words := [("link", RLink); ("xref", RXref); ("image", RImage)].
Inductive inline_kind := KSpan | KRef | KLit (n : literal_name) | KLinebreak.
Definition inline_words := [("span", KSpan); ("ref", KRef); ("text", KLit LText); ("charref", KLit LCharref); ("linebreak", KLinebreak)].
Fixpoint read_inline (j : json) : option inline :=
  match j with
  | JObj l =>
      let? kind := word inline_words "name" l in
      let? loc := places l in
      match kind with
      | KSpan =>
          ask (says "type" "inline" l && only ["name"; "type"; "variant"; "form"; "inlines"; "metadata"; "location"] l)
            (let? v := word span_words "variant" l in let? f := word form_words "form" l in
             let? k := sub read_inline "inlines" l in let? m := meta_of l in
             Some (ISpan v f k m loc false))
      | KRef =>
          ask (says "type" "inline" l && only ["name"; "type"; "variant"; "target"; "inlines"; "metadata"; "location"] l)
            (let? v := word ref_words "variant" l in let? t := text "target" l in
             let? k := sub read_inline "inlines" l in let? m := meta_of l in
             Some (IRef v t k m loc))
      | KLit n =>
          ask (only ["name"; "type"; "value"; "location"] l)
            (let? s := text "value" l in let? b := word [("string", false); ("inline", true)] "type" l in
             Some (ILit n b s loc))
      | KLinebreak => ask (says "type" "inline" l && only ["name"; "type"; "location"] l) (Some (IBreak loc))
      end
  | _ => None
  end.
Definition inlines := sub read_inline.
Definition inlines_or_none := sub_or_none read_inline.

(** ** Blocks *)
Inductive block_kind := KSection | KList | KItem | KTerms | KTermItem | KBreak | KImage | KLeaf (n : leaf_name) | KParent (n : parent_name) | KCell.
Definition block_words := [("section", KSection); ("list", KList); ("listItem", KItem); ("dlist", KTerms); ("dlistItem", KTermItem);
  ("break", KBreak); ("image", KImage); ("listing", KLeaf NListing); ("literal", KLeaf NLiteral); ("paragraph", KLeaf NParagraph);
  ("pass", KLeaf NPass); ("verse", KLeaf NVerse); ("admonition", KParent PAdmonition); ("example", KParent PExample);
  ("sidebar", KParent PSidebar); ("open", KParent POpen); ("quote", KParent PQuote); ("table", KParent PTable);
  ("footnotecontainer", KParent PFootnotes); ("tableCell", KCell)].
Definition alert_words := [("caution", VCaution); ("important", VImportant); ("note", VNote); ("tip", VTip); ("warning", VWarning)].
(** what is a block says so; a cell does not, as it has [node_type] in place of [type] *)
Definition block_type (k : block_kind) (l : object) : bool :=
  match k with KCell => says "node_type" "block" l | _ => says "type" "block" l end.
Definition block_members (k : block_kind) : list string :=
  match k with
  | KSection => ["name"; "type"; "id"; "title"; "metadata"; "level"; "blocks"; "location"]
  | KList => ["name"; "type"; "marker"; "variant"; "items"; "metadata"; "location"]
  | KItem => ["name"; "type"; "marker"; "principal"; "blocks"; "metadata"; "location"]
  | KTerms => ["name"; "type"; "marker"; "items"; "metadata"; "location"]
  | KTermItem => ["name"; "type"; "marker"; "terms"; "principal"; "blocks"; "metadata"; "location"]
  | KBreak => ["name"; "type"; "variant"; "location"]
  | KImage => ["name"; "type"; "form"; "target"; "caption"; "metadata"; "location"]
  | KLeaf _ => ["name"; "type"; "form"; "delimiter"; "inlines"; "metadata"; "location"]
  | KParent _ => ["name"; "variant"; "type"; "form"; "delimiter"; "blocks"; "title"; "metadata"; "location"]
  | KCell => ["name"; "node_type"; "inlines"; "metadata"; "location"]
  end.
Definition read_head (k : block_kind) (l : object) : option head :=
  match k with
  | KSection =>
      let? id := absent [] "id" l (text "id" l) in let? t := inlines "title" l in let? lv := number "level" l in
      Some (HSection id t lv)
  | KList =>
      let? v := word [("ordered", LOrdered); ("unordered", LUnordered)] "variant" l in
      ask (says "marker" (match v with LOrdered => "." | LUnordered => "*" end) l) (Some (HList v))
  | KItem => let? mk := text "marker" l in let? p := inlines "principal" l in Some (HListItem mk p)
  | KTerms => ask (says "marker" "::" l) (Some HDList)
  | KTermItem =>
      ask (says "marker" "::" l)
        (let? t := inlines "terms" l in let? p := inlines_or_none "principal" l in Some (HDListItem t p))
  | KBreak => let? v := word [("page", BPage); ("thematic", BThematic)] "variant" l in Some (HBreak v)
  | KImage =>
      ask (says "form" "macro" l)
        (let? t := text "target" l in let? c := inlines_or_none "caption" l in Some (HMacro t c))
  | KLeaf n =>
      let? f := absent FmParagraph "form" l (ask (says "form" "delimited" l) (Some FmDelimited)) in
      let? d := absent None "delimiter" l (let? s := text "delimiter" l in Some (Some s)) in
      let? i := inlines "inlines" l in Some (HLeaf n f d i)
  | KParent n =>
      ask (says "form" "delimited" l)
        (let? v := absent None "variant" l (let? x := word alert_words "variant" l in Some (Some x)) in
         let? d := absent [] "delimiter" l (text "delimiter" l) in
         let? t := inlines_or_none "title" l in Some (HParent n v d t))
  | KCell => let? i := inlines "inlines" l in Some (HCell i)
  end.
Fixpoint read_block (j : json) : option block :=
  match j with
  | JObj l =>
      let? k := word block_words "name" l in
      ask (block_type k l && only (block_members k) l)
        (let? h := read_head k l in let? m := meta_of l in let? loc := places l in
         let? kids := match k with
                      | KSection | KParent _ => sub read_block "blocks" l
                      | KList | KTerms => sub read_block "items" l
                      | KItem | KTermItem => absent [] "blocks" l (sub read_block "blocks" l)
                      | _ => Some []
                      end in
         Some (Blk h m kids loc))
  | _ => None
  end.

(** ** Documents *)
Definition read_header (j : json) : option header :=
  match j with
  | JObj l => ask (only ["title"; "location"] l) (let? t := inlines "title" l in let? loc := places l in Some (mkHeader t loc))
  | _ => None
  end.
Definition read_document (j : json) : option asg :=
  match j with
  | JObj l =>
      ask (says "name" "document" l && says "type" "block" l && only ["name"; "type"; "attributes"; "header"; "blocks"; "location"] l)
        (let? a := absent None "attributes" l (let? j := get "attributes" l in let? m := read_map j in Some (Some m)) in
         let? h := absent None "header" l (let? j := get "header" l in let? h := read_header j in Some (Some h)) in
         let? b := sub read_block "blocks" l in let? loc := places l in
         Some (mkAsg a h [] [] b loc))
  | _ => None
  end.

(** ** C82: what each object that stands for a node of the graph has *)
Definition has (ks : list string) (l : object) : bool := forallb (fun k => match get k l with Some _ => true | None => false end) ks.
