(** * Specification of the text of the docx output: C65 *)
From Verif Require Import Base World Location Token Meta Inline Block Asg Docx SpecScan SpecText SpecDocx SpecHtmlText.
Local Open Scope char_scope.
Local Open Scope nat_scope.

(** the runs of a document from front to back *)
Definition body_runs (b : body) : list run :=
  match b with
  | BPara p => pa_runs p
  | BTable rows => flat_map pa_runs (List.concat rows)
  | BPic _ => []
  end.
Definition docx_runs (d : docx) : list run := flat_map body_runs (d_body d).

(** what there is to see: the texts and line breaks of the graph, each inside a span or a
    reference or not, and the labels that the output adds *)
Inductive bit := Shown (s : option (literal_name * bytes)) (inside : bool) | Label (s : bytes).
Fixpoint inline_bits (inside : bool) (i : inline) : list bit :=
  match i with
  | ILit n _ v _ => [Shown (Some (n, v)) inside]
  | IBreak _ => [Shown None inside]
  | ISpan _ _ l _ _ _ => List.concat (map (inline_bits true) l)
  | IRef RImage _ _ _ _ => []
  | IRef _ t [] _ _ => [Shown (Some (LText, t)) true]
  | IRef _ _ l _ _ => List.concat (map (inline_bits true) l)
  end.
Definition inlines_bits (l : list inline) : list bit := List.concat (map (inline_bits false) l).
Definition label (v : option parent_variant) : list bit :=
  match v with
  | None => []
  | Some VCaution => [Label (bs "Caution")]
  | Some VImportant => [Label (bs "Important")]
  | Some VNote => [Label (bs "Note")]
  | Some VTip => [Label (bs "Tip")]
  | Some VWarning => [Label (bs "Warning")]
  end.
Definition head_bits (h : head) : list bit :=
  match h with
  | HSection _ l _ | HListItem _ l | HLeaf _ _ _ l | HCell l | HMacro _ l => inlines_bits l
  | HParent _ v _ l => label v ++ inlines_bits l
  | HDListItem t p => inlines_bits t ++ inlines_bits p
  | HBreak BThematic => [Label (bs "#")]
  | HList _ | HDList | HBreak BPage => []
  end.
Definition credits (m : option metadata) : list bit :=
  match m with
  | None => []
  | Some x =>
      match find (fun kv => beqb (bs "attribution") (fst kv)) (m_attrs x) with
      | Some (_, a) => [Label (bs "— " ++ a ++ [NL])]
      | None => []
      end
  end.
Fixpoint block_bits (b : block) : list bit :=
  match b with Blk h m k _ => head_bits h ++ List.concat (map block_bits k) ++ credits m end.
Definition graph_bits (a : asg) : list bit :=
  match a_header a with Some h => inlines_bits (hd_title h) | None => [] end
  ++ List.concat (map block_bits (a_blocks a)).

(** the bits and nothing else, in order; [after]: a line break stands before *)
Fixpoint spelled (after : bool) (l : list bit) (rs : list run) : Prop :=
  match l, rs with
  | [], [] => True
  | Label s :: l, r :: rs => r = RText s no_props /\ spelled after l rs
  | Shown None _ :: l, r :: rs => r = RBreak /\ spelled true l rs
  | Shown (Some (n, v)) inside :: l, r :: rs =>
      (exists s p t, r = RText s p /\ reads n v t /\ (utf8 v -> shown after inside t s)) /\ spelled false l rs
  | _, _ => False
  end.

(** ** Graphs without what gets lost: references without a text, images with a caption, tables,
    the titles of quotes and open blocks, attributions of anything but a quote,
    citations, and attached to list items also terms, thematic breaks and the labels of admonitions *)
Fixpoint texted (i : inline) : Prop :=
  match i with
  | ISpan _ _ l _ _ _ => fold_right and True (map texted l)
  | IRef RImage _ l _ _ => l = []
  | IRef _ _ l _ _ => l <> [] /\ fold_right and True (map texted l)
  | ILit _ _ _ _ | IBreak _ => True
  end.
Definition texted_head (h : head) : Prop :=
  match h with
  | HSection _ l _ | HListItem _ l | HLeaf _ _ _ l | HParent _ _ _ l | HCell l | HMacro _ l => Forall texted l
  | HDListItem t p => Forall texted t /\ Forall texted p
  | HList _ | HDList | HBreak _ => True
  end.
Definition uncited (m : option metadata) : Prop := match m with Some x => value "citation" x = [] | None => True end.
(** attached to a list item *)
Fixpoint attached (b : block) : Prop :=
  match b with
  | Blk h m k _ =>
      texted_head h /\ credits m = []
      /\ match h with
         | HDListItem t _ => t = []
         | HMacro _ cap => cap = []
         | HBreak BThematic => False
         | HParent _ v _ _ => v = None
         | _ => True
         end
      /\ fold_right and True (map attached k)
  end.
Fixpoint kept (b : block) : Prop :=
  match b with
  | Blk h m k _ =>
      texted_head h
      /\ match h with
         | HLeaf _ _ _ _ | HBreak _ => k = [] /\ credits m = []
         | HMacro _ cap => k = [] /\ cap = [] /\ credits m = []
         | HListItem _ _ => Forall attached k /\ credits m = []
         | HCell _ => False
         | HParent PTable _ _ _ | HParent PFootnotes _ _ _ => False
         | HParent PQuote v _ t => v = None /\ t = [] /\ fold_right and True (map kept k) /\ uncited m
         | HParent POpen v _ t => v = None /\ t = [] /\ fold_right and True (map kept k) /\ credits m = []
         | _ => fold_right and True (map kept k) /\ credits m = []
         end
  end.
Definition kept_graph (a : asg) : Prop :=
  Forall kept (a_blocks a) /\ match a_header a with Some h => Forall texted (hd_title h) | None => True end.
