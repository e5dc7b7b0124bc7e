(** * Json: the serialisation of the graph (the [Serialize] derivations in
    /repo/src/graph, used by bin/asciidocr/main.rs 50-53 and by the Tera context
    of backends/htmls.rs 27)

    Objects keep the field order of the Rust structs; for a [HashMap] the order of
    its entries is that of the association list (in Rust: arbitrary). *)
From Verif Require Import Base World Location Token Meta Inline Block Asg.
Local Open Scope char_scope.
Local Open Scope nat_scope.

(** serde_json [Value], restricted to what occurs *)
Inductive json :=
| JStr (s : bytes)
| JNum (n : nat)
| JArr (l : list json)
| JObj (l : list (bytes * json)).

Definition jstr (s : string) : json := JStr (bs s).

(** nodes.rs 78-84 [Location]: [file] is skipped when empty *)
Definition json_of_loc (l : location) : json :=
  JObj ([(bs "line", JNum (loc_line l)); (bs "col", JNum (loc_col l))]
        ++ match loc_file l with
           | [] => []
           | fs => [(bs "file", JArr (map JStr fs))]
           end).
Definition jlocs (l : list location) : json := JArr (map json_of_loc l).

(** a [HashMap<String, String>] *)
Definition json_of_map (m : list (bytes * bytes)) : json :=
  JObj (map (fun kv => (fst kv, JStr (snd kv))) m).

(** metadata.rs 37-47 [ElementMetadata]: [inline_metadata], [declared_type] skipped *)
Definition json_of_meta (m : metadata) : json :=
  JObj [(bs "attributes", json_of_map (m_attrs m));
        (bs "options", JArr (map JStr (m_options m)));
        (bs "roles", JArr (map JStr (m_roles m)));
        (bs "location", jlocs (m_loc m))].
Definition jmeta (m : option metadata) : list (bytes * json) :=
  match m with Some x => [(bs "metadata", json_of_meta x)] | None => [] end.

Definition span_variant_name (v : span_variant) : bytes :=
  match v with
  | SStrong => bs "strong" | SEmphasis => bs "emphasis" | SCode => bs "code" | SMark => bs "mark"
  | SSuperscript => bs "superscript" | SSubscript => bs "subscript" | SFootnote => bs "footnote"
  end.
Definition span_form_name (f : span_form) : bytes :=
  match f with FConstrained => bs "constrained" | FUnconstrained => bs "unconstrained" end.
Definition ref_variant_name (v : ref_variant) : bytes :=
  match v with RLink => bs "link" | RXref => bs "xref" | RImage => bs "image" end.
Definition literal_name_name (n : literal_name) : bytes :=
  match n with LText => bs "text" | LCharref => bs "charref" end.

(** inlines.rs 18-25, 261-274, 513-523, 635-641, 738-743 *)
Fixpoint json_of_inline (i : inline) : json :=
  match i with
  | ISpan v f l m loc _ =>
      JObj ([(bs "name", jstr "span"); (bs "type", jstr "inline");
             (bs "variant", JStr (span_variant_name v)); (bs "form", JStr (span_form_name f));
             (bs "inlines", JArr (map json_of_inline l))]
            ++ jmeta m ++ [(bs "location", jlocs loc)])
  | IRef v t l m loc =>
      JObj ([(bs "name", jstr "ref"); (bs "type", jstr "inline");
             (bs "variant", JStr (ref_variant_name v)); (bs "target", JStr t);
             (bs "inlines", JArr (map json_of_inline l))]
            ++ jmeta m ++ [(bs "location", jlocs loc)])
  | ILit n ni v loc =>
      JObj [(bs "name", JStr (literal_name_name n));
            (bs "type", jstr (if ni then "inline" else "string"));
            (bs "value", JStr v); (bs "location", jlocs loc)]
  | IBreak loc =>
      JObj [(bs "name", jstr "linebreak"); (bs "type", jstr "inline"); (bs "location", jlocs loc)]
  end.
Definition jinlines (l : list inline) : json := JArr (map json_of_inline l).

Definition opt_field {A} (k : string) (l : list A) (j : json) : list (bytes * json) :=
  match l with [] => [] | _ => [(bs k, j)] end.

Definition leaf_name_name (n : leaf_name) : bytes :=
  match n with
  | NListing => bs "listing" | NLiteral => bs "literal" | NParagraph => bs "paragraph"
  | NPass => bs "pass" | NVerse => bs "verse"
  end.
Definition parent_name_name (n : parent_name) : bytes :=
  match n with
  | PAdmonition => bs "admonition" | PExample => bs "example" | PSidebar => bs "sidebar"
  | POpen => bs "open" | PQuote => bs "quote" | PTable => bs "table"
  | PFootnotes => bs "footnotecontainer"
  end.
Definition parent_variant_name (v : parent_variant) : bytes :=
  match v with
  | VCaution => bs "caution" | VImportant => bs "important" | VNote => bs "note"
  | VTip => bs "tip" | VWarning => bs "warning"
  end.

(** blocks.rs 16-39, 803-818, 866-873, 899-911, 963-976, 1086-1102, 1269-1277;
    lists.rs 12-23, 64-76, 148-158, 183-197 *)
Fixpoint json_of_block (b : block) : json :=
  match b with
  | Blk h m kids loc =>
      let meta := jmeta m in
      let locf := [(bs "location", jlocs loc)] in
      let kidsj := JArr (map json_of_block kids) in
      let ty := (bs "type", jstr "block") in
      match h with
      | HSection id title level =>
          JObj ([(bs "name", jstr "section"); ty]
                ++ opt_field "id" id (JStr id)
                ++ [(bs "title", jinlines title)] ++ meta
                ++ [(bs "level", JNum level); (bs "blocks", kidsj)] ++ locf)
      | HList v =>
          let (mk, nm) := match v with
                          | LOrdered => (bs ".", bs "ordered")
                          | LUnordered => (bs "*", bs "unordered")
                          end in
          JObj ([(bs "name", jstr "list"); ty; (bs "marker", JStr mk); (bs "variant", JStr nm);
                 (bs "items", kidsj)] ++ meta ++ locf)
      | HListItem mk p =>
          JObj ([(bs "name", jstr "listItem"); ty; (bs "marker", JStr mk);
                 (bs "principal", jinlines p)]
                ++ opt_field "blocks" kids kidsj ++ meta ++ locf)
      | HDList =>
          JObj ([(bs "name", jstr "dlist"); ty; (bs "marker", jstr "::"); (bs "items", kidsj)]
                ++ meta ++ locf)
      | HDListItem ts p =>
          JObj ([(bs "name", jstr "dlistItem"); ty; (bs "marker", jstr "::");
                 (bs "terms", jinlines ts)]
                ++ opt_field "principal" p (jinlines p)
                ++ opt_field "blocks" kids kidsj ++ meta ++ locf)
      | HBreak v =>
          JObj ([(bs "name", jstr "break"); ty;
                 (bs "variant", jstr (match v with BPage => "page" | BThematic => "thematic" end))]
                ++ locf)
      | HMacro t cap =>
          JObj ([(bs "name", jstr "image"); ty; (bs "form", jstr "macro"); (bs "target", JStr t)]
                ++ opt_field "caption" cap (jinlines cap) ++ meta ++ locf)
      | HLeaf n f d l =>
          JObj ([(bs "name", JStr (leaf_name_name n)); ty]
                ++ match f with FmDelimited => [(bs "form", jstr "delimited")] | FmParagraph => [] end
                ++ match d with Some x => [(bs "delimiter", JStr x)] | None => [] end
                ++ [(bs "inlines", jinlines l)] ++ meta ++ locf)
      | HParent n v d t =>
          JObj ([(bs "name", JStr (parent_name_name n))]
                ++ match v with
                   | Some x => [(bs "variant", JStr (parent_variant_name x))]
                   | None => []
                   end
                ++ [ty; (bs "form", jstr "delimited")]
                ++ opt_field "delimiter" d (JStr d)
                ++ [(bs "blocks", kidsj)]
                ++ opt_field "title" t (jinlines t) ++ meta ++ locf)
      | HCell l =>
          JObj ([(bs "name", jstr "tableCell"); (bs "node_type", jstr "block");
                 (bs "inlines", jinlines l)] ++ meta ++ locf)
      end
  end.

(** nodes.rs 14-20 [Header]; asg.rs 17-39 [Asg] *)
Definition json_of_header (h : header) : json :=
  JObj [(bs "title", jinlines (hd_title h)); (bs "location", jlocs (hd_loc h))].
Definition json_of_asg (a : asg) : json :=
  JObj ([(bs "name", jstr "document"); (bs "type", jstr "block")]
        ++ match a_attrs a with Some m => [(bs "attributes", json_of_map m)] | None => [] end
        ++ match a_header a with Some h => [(bs "header", json_of_header h)] | None => [] end
        ++ [(bs "blocks", JArr (map json_of_block (a_blocks a)));
            (bs "location", jlocs (a_loc a))]).

(** serde_json's string escapes *)
Definition hexdigit (n : nat) : ascii := nth n (bs "0123456789abcdef") "0"%char.
Definition json_escape_char (c : ascii) : bytes :=
  let n := nat_of_ascii c in
  if n =? 34 then ["\"; DQ]%char
  else if n =? 92 then ["\"; "\"]%char
  else if n =? 8 then bs "\b"
  else if n =? 9 then bs "\t"
  else if n =? 10 then bs "\n"
  else if n =? 12 then bs "\f"
  else if n =? 13 then bs "\r"
  else if n <? 32 then bs "\u00" ++ [hexdigit (n / 16); hexdigit (n mod 16)]
  else [c].
Definition json_quote (s : bytes) : bytes :=
  [DQ] ++ List.concat (map json_escape_char s) ++ [DQ].

(** [serde_json::to_string_pretty]: members and elements on lines of their own,
    indented by two spaces for each level *)
Definition indent (n : nat) : bytes := List.concat (repeat (bs "  ") n).
Fixpoint json_pretty (n : nat) (j : json) : bytes :=
  let put (l : list bytes) :=
    match l with
    | [] => []
    | _ => NL :: join (bs "," ++ [NL]) (map (fun x => indent (S n) ++ x) l) ++ NL :: indent n
    end in
  match j with
  | JStr s => json_quote s
  | JNum k => dec k
  | JArr l => bs "[" ++ put (map (json_pretty (S n)) l) ++ bs "]"
  | JObj l => bs "{" ++ put (map (fun kv => json_quote (fst kv) ++ bs ": " ++ json_pretty (S n) (snd kv)) l) ++ bs "}"
  end.
(** main.rs 52 *)
Definition render_json (a : asg) : bytes := json_pretty 0 (json_of_asg a).
