(** * Specification of the text of the HTMLBook output: C64 *)
From Verif Require Import Base World Location Token Meta Inline Block Asg.
Local Open Scope char_scope.
Local Open Scope nat_scope.

(** what a reader of the page sees: everything outside the tags *)
Fixpoint visible (inside : bool) (s : bytes) : bytes :=
  match s with
  | [] => []
  | c :: r =>
      if inside then visible (negb (Ascii.eqb c ">")) r
      else if Ascii.eqb c "<" then visible true r
      else c :: visible false r
  end.

(** ** The text of a graph, in the order of the document *)
Fixpoint inline_text (i : inline) : bytes :=
  match i with
  | ILit _ _ v _ => v
  | ISpan _ _ l _ _ _ => List.concat (map inline_text l)
  | IRef RImage _ _ _ _ => []
  | IRef v t [] _ _ => match v with RXref => "#" :: t | _ => t end
  | IRef _ _ l _ _ => List.concat (map inline_text l)
  | IBreak _ => []
  end.
Definition inlines_text (l : list inline) : bytes := List.concat (map inline_text l).
Definition head_text (h : head) : bytes :=
  match h with
  | HSection _ l _ | HListItem _ l | HLeaf _ _ _ l | HParent _ _ _ l | HCell l | HMacro _ l => inlines_text l
  | HDListItem t p => inlines_text t ++ inlines_text p
  | HList _ | HDList | HBreak _ => []
  end.
(** who said it and where *)
Definition value (k : string) (m : metadata) : bytes :=
  match find (fun kv => beqb (bs k) (fst kv)) (m_attrs m) with Some kv => snd kv | None => [] end.
Definition credit (m : option metadata) : bytes :=
  match m with
  | None => []
  | Some x =>
      match value "attribution" x, value "citation" x with
      | [], _ => []
      | a, [] => a
      | a, c => a ++ bs ", " ++ c
      end
  end.
Fixpoint block_text (b : block) : bytes :=
  match b with
  | Blk h m k _ =>
      let kids := List.concat (map block_text k) in
      match h with
      | HSection _ _ _ => head_text h ++ credit m ++ kids
      | _ => head_text h ++ kids ++ credit m
      end
  end.
Definition graph_text (a : asg) : bytes :=
  match a_header a with Some h => inlines_text (hd_title h) | None => [] end
  ++ List.concat (map block_text (a_blocks a)).

(** ** Graphs without the texts that get lost: titles of tables, and attributions of blocks that
    are one stretch of text or a table.  Blocks without children have none; tables consist of
    cells. *)
Definition cell (b : block) : Prop :=
  match b with Blk (HCell _) m [] _ => credit m = [] | _ => False end.
Fixpoint presentable (b : block) : Prop :=
  match b with
  | Blk h m k _ =>
      match h with
      | HLeaf _ _ _ _ | HBreak _ => k = [] /\ credit m = []
      | HMacro _ _ | HCell _ => k = []
      | HParent PTable _ _ t => Forall cell k /\ inlines_text t = [] /\ credit m = []
      | _ => fold_right and True (map presentable k)
      end
  end.
Definition presentable_graph (a : asg) : Prop := Forall presentable (a_blocks a).
