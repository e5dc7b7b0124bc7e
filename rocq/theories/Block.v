(** * Block: /repo/src/graph/blocks.rs and /repo/src/graph/lists.rs *)
From Verif Require Import Base World Location Token Meta Inline.
Local Open Scope char_scope.
Local Open Scope nat_scope.

(** blocks.rs 883-886, 980-995, 1120-1139; lists.rs 58-62.  Enum cases that no
    code path constructs ([Stem], [Comment], [Indented], [Audio], [Video], [Toc],
    [ListVariant::Callout]) are left out. *)
Inductive break_variant := BPage | BThematic.
Inductive leaf_name := NListing | NLiteral | NParagraph | NPass | NVerse.
Inductive leaf_form := FmDelimited | FmParagraph.
Inductive parent_name := PAdmonition | PExample | PSidebar | POpen | PQuote | PTable | PFootnotes.
Inductive parent_variant := VCaution | VImportant | VNote | VTip | VWarning.
Inductive list_variant := LOrdered | LUnordered.
Scheme Boolean Equality for leaf_name.
Scheme Boolean Equality for parent_name.
Scheme Boolean Equality for parent_variant.

(** blocks.rs 18-39 [enum Block].  Every Rust variant is a [Blk]: a head with
    the fields of its own ([Section], [List], ...), the metadata, the child blocks
    ([blocks] or [items]; empty for the variants without such a field) and the
    location.  [SectionBody], [NonSectionBlockBody], [DiscreteHeading] and
    [BlockMetadata] are never constructed and left out; constant fields are left
    out. *)
Inductive head :=
| HSection (id : bytes) (title : list inline) (level : nat)
| HList (v : list_variant)
| HListItem (marker : bytes) (principal : list inline)
| HDList
| HDListItem (terms principal : list inline)
| HBreak (v : break_variant)
| HMacro (target : bytes) (caption : list inline)
| HLeaf (n : leaf_name) (f : leaf_form) (delim : option bytes) (inlines : list inline)
| HParent (n : parent_name) (v : option parent_variant) (delim : bytes) (title : list inline)
| HCell (inlines : list inline).

Inductive block := Blk (h : head) (m : option metadata) (kids : list block) (loc : list location).

Definition b_head (b : block) : head := match b with Blk h _ _ _ => h end.
Definition b_meta (b : block) : option metadata := match b with Blk _ m _ _ => m end.
Definition b_kids (b : block) : list block := match b with Blk _ _ k _ => k end.
(** blocks.rs 594-611 [locations] *)
Definition b_locs (b : block) : list location := match b with Blk _ _ _ l => l end.

(** blocks.rs 157-210: classification *)
Definition is_section (b : block) : bool :=
  match b_head b with HSection _ _ _ => true | _ => false end.
Definition is_source_block (b : block) : bool :=
  match b_head b with HLeaf NListing _ _ _ => true | _ => false end.
Definition level_check (b : block) : option nat :=
  match b_head b with HSection _ _ l => Some l | _ => None end.
Definition is_list_item (b : block) : bool :=
  match b_head b with HListItem _ _ => true | _ => false end.
Definition is_dlist_item (b : block) : bool :=
  match b_head b with HDListItem _ _ => true | _ => false end.
Definition is_list (b : block) : bool := match b_head b with HList _ => true | _ => false end.
Definition is_dlist (b : block) : bool := match b_head b with HDList => true | _ => false end.
Definition is_ordered_list_item (b : block) : bool :=
  match b_head b with HListItem mk _ => beqb mk (bs ".") || memc "<" mk | _ => false end.
Definition is_unordered_list_item (b : block) : bool :=
  match b_head b with HListItem mk _ => beqb mk (bs "*") | _ => false end.
Definition is_parent (b : block) : bool :=
  match b_head b with HParent _ _ _ _ => true | _ => false end.
Definition is_table (b : block) : bool :=
  match b_head b with HParent PTable _ _ _ => true | _ => false end.
Definition is_cell (b : block) : bool := match b_head b with HCell _ => true | _ => false end.

(** blocks.rs 117-126 [takes_inlines] *)
Definition takes_inlines (b : block) : bool :=
  match b_head b with
  | HSection _ _ _ | HLeaf _ _ _ _ | HListItem _ _ | HDListItem _ _ | HCell _ => true
  | _ => false
  end.

(** blocks.rs 128-138 [push_inline] *)
Definition push_inline (b : block) (i : inline) : result block :=
  match b with
  | Blk h m k loc =>
      match h with
      | HSection id t lv => Ok (Blk (HSection id (t ++ [i]) lv) m k loc)
      | HLeaf n f d l => Ok (Blk (HLeaf n f d (l ++ [i])) m k loc)
      | HListItem mk p => Ok (Blk (HListItem mk (p ++ [i])) m k loc)
      | HDListItem t p => Ok (Blk (HDListItem t (p ++ [i])) m k loc)
      | HCell l => Ok (Blk (HCell (l ++ [i])) m k loc)
      | _ => Err (ENotImplemented [])
      end
  end.

(** blocks.rs 140-155 [takes_block_of_type] *)
Definition takes_block (b nb : block) : bool :=
  match b_head b with
  | HSection _ _ lv =>
      match level_check nb with Some l => lv <? l | None => true end
  | HList _ => is_list_item nb
  | HDList => is_dlist_item nb
  | HParent _ _ _ _ | HListItem _ _ | HDListItem _ _ => true
  | _ => false
  end.

Definition last_locs (l : list block) : option (list location) :=
  option_map b_locs (last_opt l).
Definition rec_opt (loc : list location) (o : option (list location)) : list location :=
  match o with Some l => reconcile loc l | None => loc end.
Definition last_inline_locs (l : list inline) : option (list location) :=
  option_map inline_locs (last_opt l).

(** blocks.rs 623-695 [consolidate_locations] *)
Fixpoint consolidate_locations (b : block) : block :=
  match b with
  | Blk h m k loc =>
      match h with
      | HSection _ t _ =>
          Blk h m k (rec_opt (rec_opt loc (last_inline_locs t)) (last_locs k))
      | HLeaf _ _ _ l => Blk h m k (rec_opt loc (last_inline_locs l))
      | HList _ | HDList =>
          let k' := map consolidate_locations k in
          Blk h m k' (rec_opt loc (last_locs k'))
      | HListItem _ p | HDListItem _ p =>
          match last_locs k with
          | Some l => Blk h m k (reconcile loc l)
          | None => Blk h m k (rec_opt loc (last_inline_locs p))
          end
      | HParent _ _ _ _ => Blk h m k (rec_opt loc (last_locs k))
      | HCell l => Blk h m k (rec_opt loc (last_inline_locs l))
      | HBreak _ | HMacro _ _ => b
      end
  end.

(** blocks.rs 70-115 [push_block] *)
Fixpoint push_block (b nb : block) : result block :=
  match b with
  | Blk h m k loc =>
      let* k' :=
        match h with
        | HSection _ _ _ =>
            if is_section nb then
              match last_opt k with
              | Some x =>
                  if takes_block x nb then upd_last (fun y => push_block y nb) k
                  else Ok (k ++ [nb])
              | None => Ok (k ++ [nb])
              end
            else Ok (k ++ [nb])
        | HList _ | HDList | HListItem _ _ | HDListItem _ _ => Ok (k ++ [nb])
        | HParent n _ _ _ =>
            if is_list_item nb then
              match last_opt k with
              | Some x =>
                  if is_list x
                  then upd_last (fun y => let* y' := push_block y nb in
                                          Ok (consolidate_locations y')) k
                  else Err EDanglingList
              | None => Err EDanglingList
              end
            else if parent_name_beq n PTable && negb (is_cell nb) then Err ETableCell
            else Ok (k ++ [nb])
        | _ => Err (ENotImplemented [])
        end in
      Ok (consolidate_locations (Blk h m k' loc))
  end.

(** blocks.rs 697-703 [line] *)
Definition block_line (b : block) : result nat :=
  match b_locs b with l :: _ => Ok (loc_line l) | [] => Err ELocation end.

(** blocks.rs 212-262 [consolidate_table_info]; without metadata and with the
    first two cells on different lines it calls [process::exit] (line 257) *)
Definition count_line (k : list block) (ln : nat) : nat :=
  List.length (filter (fun b => match b_locs b with l :: _ => loc_line l =? ln | [] => false end) k).
Definition get_meta (m : option metadata) : metadata :=
  match m with Some x => x | None => default_metadata end.
Definition consolidate_table_info (b : block) : result block :=
  match b with
  | Blk (HParent n v d t) m k loc =>
      match k with
      | c0 :: c1 :: _ =>
          let* l0 := block_line c0 in
          let* l1 := block_line c1 in
          let* m' :=
            if l0 =? l1 then
              let* tl := match loc with l :: _ => Ok (loc_line l) | [] => Panic end in
              let m1 :=
                if l0 =? tl + 1
                then Some (set_m_options (get_meta m) (m_options (get_meta m) ++ [bs "header"]))
                else m in
              let cols := dec (count_line k l0) in
              Ok (match m1 with
                  | Some x => Some (if mhas (bs "cols") (m_attrs x) then x
                                    else m_insert (bs "cols") cols x)
                  | None => Some (m_insert (bs "cols") cols default_metadata)
                  end)
            else Ok m in
          match m' with
          | None => Exit
          | Some x => let* x' := simplify_cols x in Ok (Blk (HParent n v d t) (Some x') k loc)
          end
      | _ => Ok b
      end
  | _ => Err EIncorrectCall
  end.

(** blocks.rs 283-290 [title] *)
Definition block_title (b : block) : option (list inline) :=
  match b_head b with
  | HSection _ t _ => Some t
  | HParent _ _ _ t => Some t
  | HMacro _ c => Some c
  | _ => None
  end.

(** blocks.rs 292-381 [inlines], [inlines_mut]: the inlines of the block itself
    that the two traversals visit *)
Definition own_inlines (h : head) : list inline :=
  match h with
  | HSection _ t _ => t
  | HParent _ _ _ t => t
  | HListItem _ p => p
  | HDListItem _ p => p
  | HLeaf _ _ _ l => l
  | HCell l => l
  | _ => []
  end.
Fixpoint block_inlines (b : block) : list inline :=
  match b with
  | Blk h _ k _ => own_inlines h ++ List.concat (map block_inlines k)
  end.
Definition map_own_inlines (f : inline -> inline) (h : head) : head :=
  match h with
  | HSection id t lv => HSection id (map f t) lv
  | HParent n v d t => HParent n v d (map f t)
  | HListItem mk p => HListItem mk (map f p)
  | HDListItem t p => HDListItem t (map f p)
  | HLeaf n fm d l => HLeaf n fm d (map f l)
  | HCell l => HCell (map f l)
  | _ => h
  end.
Fixpoint map_inlines (f : inline -> inline) (b : block) : block :=
  match b with
  | Blk h m k loc => Blk (map_own_inlines f h) m (map (map_inlines f) k) loc
  end.

(** blocks.rs 525-592 [id] ([Break] has no metadata, see [add_metadata]) *)
Definition block_id (b : block) : option bytes :=
  match b_meta b with
  | Some m => element_id m
  | None => None
  end.

Definition mextend {V} (m : list (bytes * V)) (n : list (bytes * V)) : list (bytes * V) :=
  fold_left (fun a kv => minsert (fst kv) (snd kv) a) n m.

(** blocks.rs 480-523 [id_hashes] *)
Fixpoint id_hashes (b : block) : list (bytes * list inline) :=
  match b with
  | Blk h m k loc =>
      let own := match block_id b with
                 | Some i => [(i, match block_title b with Some t => t | None => [] end)]
                 | None => []
                 end in
      (fix go (acc : list (bytes * list inline)) (l : list block) :=
         match l with
         | [] => acc
         | x :: r => go (mextend acc (id_hashes x)) r
         end) own k
  end.

(** blocks.rs 705-732 [add_metadata] *)
Definition add_metadata (b : block) (m : metadata) : result block :=
  if meta_is_empty m then Ok b
  else match b with
       | Blk (HBreak _) _ _ _ => Err (EInternal [])
       | Blk h _ k loc => Ok (Blk h (Some m) k loc)
       end.

(** blocks.rs 614-621 [add_locations]: [todo!()] unless a leaf block *)
Definition add_locations (b : block) (l : list location) : result block :=
  match b with
  | Blk (HLeaf n f d i) m k loc => Ok (Blk (HLeaf n f d i) m k (reconcile loc l))
  | _ => Panic
  end.

(** blocks.rs 735-800 [block_text] *)
Definition own_text (h : head) : bytes :=
  match h with
  | HSection _ t _ => inlines_text t
  | HListItem _ p => inlines_text p
  | HDListItem _ p => inlines_text p
  | HMacro _ c => inlines_text c
  | HLeaf _ _ _ l => inlines_text l
  | HCell l => inlines_text l
  | HList _ | HDList | HBreak _ | HParent _ _ _ _ => []
  end.
Fixpoint block_text (b : block) : bytes :=
  match b with
  | Blk h _ k _ => own_text h ++ List.concat (map block_text k)
  end.

(** blocks.rs 1067-1083 [new_footnote_def_from_id_and_inlines] *)
Definition new_footnote_def (id : bytes) (l : list inline) : block :=
  Blk (HLeaf NParagraph FmParagraph None l)
      (Some (meta_with_id_and_roles id [bs "footnote"])) [] [].

(** the inline loop of blocks.rs 438-458 (and lists.rs 117-137, 249-269): the
    top-level footnotes of [l] numbered from [count + 1] *)
Fixpoint extract_inline_footnotes (l : list inline) (count : nat) (doc_id : bytes)
  : list inline * list block :=
  match l with
  | [] => ([], [])
  | i :: r =>
      match i with
      | ISpan SFootnote _ kids _ loc _ =>
          let '(def, repl, contents) := deconstruct_footnote kids loc (S count) doc_id in
          let (r', ds) := extract_inline_footnotes r (S count) doc_id in
          (repl :: r', new_footnote_def def contents :: ds)
      | _ =>
          let (r', ds) := extract_inline_footnotes r count doc_id in
          (i :: r', ds)
      end
  end.

(** blocks.rs 385-465 [extract_footnote_definitions] with lists.rs 110-144,
    242-276 [extract_footnotes].  As written, a container passes
    [extracted.len()] (not the running document count) to its children, and a
    list item starts from 0; breaks, block macros and table cells are
    [todo!()]. *)
Fixpoint extract_footnotes (b : block) (count : nat) (doc_id : bytes)
  : result (block * list block) :=
  match b with
  | Blk h m k loc =>
      let kids_from :=
        (fix go (l : list block) (n : nat) : result (list block * list block) :=
           match l with
           | [] => Ok ([], [])
           | x :: r =>
               let* (x', d) := extract_footnotes x n doc_id in
               let* (r', ds) := go r (n + List.length d) in
               Ok (x' :: r', d ++ ds)
           end) in
      match h with
      | HSection _ _ _ | HParent _ _ _ _ | HList _ | HDList =>
          let* (k', ds) := kids_from k 0 in Ok (Blk h m k' loc, ds)
      | HListItem mk p =>
          let (p', d0) := extract_inline_footnotes p 0 doc_id in
          let* (k', ds) := kids_from k (List.length d0) in
          Ok (Blk (HListItem mk p') m k' loc, d0 ++ ds)
      | HDListItem t p =>
          let (p', d0) := extract_inline_footnotes p 0 doc_id in
          let* (k', ds) := kids_from k (List.length d0) in
          Ok (Blk (HDListItem t p') m k' loc, d0 ++ ds)
      | HLeaf n f d l =>
          let (l', ds) := extract_inline_footnotes l count doc_id in
          Ok (Blk (HLeaf n f d l') m k loc, ds)
      | HBreak _ | HMacro _ _ | HCell _ => Panic
      end
  end.

(** ** Constructors from tokens *)
(** blocks.rs 829-841 [Section::new] *)
Definition new_section (level : nat) (loc : location) : block :=
  Blk (HSection [] [] level) None [] [loc].
(** blocks.rs 889-896 [Break::new] *)
Definition new_break (v : break_variant) (loc : list location) : block :=
  Blk (HBreak v) None [] loc.
(** blocks.rs 954-960 [BlockMacro::add_metadata] *)
Definition macro_meta (m : option metadata) (incoming : metadata) : metadata :=
  match m with Some x => add_metadata_from_other x incoming | None => incoming end.
(** blocks.rs 1029-1055 [LeafBlock::new_from_token] *)
Definition leaf_from_token (t : token) : result block :=
  let mk n := Ok (Blk (HLeaf n FmDelimited (Some (token_text t)) []) None [] (token_locations t)) in
  match ttype t with
  | TPassthroughBlock => mk NPass
  | TLiteralBlock => mk NLiteral
  | TSourceBlock => mk NListing
  | TCommentBlock => mk NListing
  | TQuoteVerseBlock => mk NVerse
  | _ => Err EInvalidToken
  end.
(** blocks.rs 1174-1249 [ParentBlock::new_from_token] *)
Definition parent_from_token (t : token) : result block :=
  let mk n v := Ok (Blk (HParent n v (token_text t) []) None [] (token_locations t)) in
  match ttype t with
  | TSidebarBlock => mk PSidebar None
  | TExampleBlock => mk PExample None
  | TQuoteVerseBlock => mk PQuote None
  | TOpenBlock => mk POpen None
  | TNotePara => mk PAdmonition (Some VNote)
  | TTipPara => mk PAdmonition (Some VTip)
  | TImportantPara => mk PAdmonition (Some VImportant)
  | TCautionPara => mk PAdmonition (Some VCaution)
  | TWarningPara => mk PAdmonition (Some VWarning)
  | TTable => mk PTable None
  | _ => Err EInvalidToken
  end.
(** blocks.rs 1104-1116 [PartialEq for ParentBlock] *)
Definition parent_eqb (a b : block) : bool :=
  match b_head a, b_head b with
  | HParent n v _ _, HParent n' v' _ _ =>
      match v with
      | Some x => match v' with
                  | Some y => parent_variant_beq x y && parent_name_beq n n'
                  | None => false
                  end
      | None => parent_name_beq n n'
      end
  | _, _ => false
  end.
(** blocks.rs 1286-1294 [TableCell::new_from_token] *)
Definition new_cell (t : token) : block := Blk (HCell []) None [] (token_locations t).
(** lists.rs 32-49, 85-96, 168-177, 207-224 *)
Definition new_list (v : list_variant) (loc : list location) : block := Blk (HList v) None [] loc.
Definition new_list_item (marker : bytes) (loc : list location) : block :=
  Blk (HListItem (trim marker) []) None [] loc.
Definition new_dlist (loc : list location) : block := Blk HDList None [] loc.
Definition new_dlist_item (terms : list inline) (loc : list location) : block :=
  Blk (HDListItem terms []) None []
      (fold_left (fun l i => reconcile l (inline_locs i)) terms loc).
