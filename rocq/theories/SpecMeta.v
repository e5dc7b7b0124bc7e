(** * Specification of element metadata: C26 to C29 *)
From Coq Require Import Permutation.
From Verif Require Import Base World Location Token Meta Inline Block Asg Json.
Local Open Scope char_scope.
Local Open Scope nat_scope.

(** ** C26: two graphs that differ only in the order of the entries of their maps *)
Definition same_map {V} (a b : list (bytes * V)) : Prop := NoDup (map fst a) /\ Permutation a b.
Definition same_meta (m m' : option metadata) : Prop :=
  match m, m' with
  | Some x, Some y => same_map (m_attrs x) (m_attrs y) /\ m_options x = m_options y /\ m_roles x = m_roles y
      /\ m_inline x = m_inline y /\ m_type x = m_type y /\ m_loc x = m_loc y
  | None, None => True
  | _, _ => False
  end.
Inductive same_inline : inline -> inline -> Prop :=
| same_span v f l l' m m' loc o : Forall2 same_inline l l' -> same_meta m m' -> same_inline (ISpan v f l m loc o) (ISpan v f l' m' loc o)
| same_ref v t l l' m m' loc : Forall2 same_inline l l' -> same_meta m m' -> same_inline (IRef v t l m loc) (IRef v t l' m' loc)
| same_lit n k v loc : same_inline (ILit n k v loc) (ILit n k v loc)
| same_break loc : same_inline (IBreak loc) (IBreak loc).
Notation same_inlines := (Forall2 same_inline).
Inductive same_head : head -> head -> Prop :=
| same_section id t t' lv : same_inlines t t' -> same_head (HSection id t lv) (HSection id t' lv)
| same_list v : same_head (HList v) (HList v)
| same_item mk p p' : same_inlines p p' -> same_head (HListItem mk p) (HListItem mk p')
| same_dlist : same_head HDList HDList
| same_ditem t t' p p' : same_inlines t t' -> same_inlines p p' -> same_head (HDListItem t p) (HDListItem t' p')
| same_hbreak v : same_head (HBreak v) (HBreak v)
| same_macro t c c' : same_inlines c c' -> same_head (HMacro t c) (HMacro t c')
| same_leaf n f d l l' : same_inlines l l' -> same_head (HLeaf n f d l) (HLeaf n f d l')
| same_parent n v d t t' : same_inlines t t' -> same_head (HParent n v d t) (HParent n v d t')
| same_cell l l' : same_inlines l l' -> same_head (HCell l) (HCell l').
Inductive same_block : block -> block -> Prop :=
| same_blk h h' m m' k k' loc : same_head h h' -> same_meta m m' -> Forall2 same_block k k' ->
    same_block (Blk h m k loc) (Blk h' m' k' loc).
Definition same_graph (a b : asg) : Prop :=
  Forall2 same_block (a_blocks a) (a_blocks b) /\ a_loc a = a_loc b
  /\ match a_attrs a, a_attrs b with
     | Some x, Some y => same_map x y
     | None, None => True
     | _, _ => False
     end
  /\ match a_header a, a_header b with
     | Some h, Some h' => same_inlines (hd_title h) (hd_title h') /\ hd_loc h = hd_loc h'
     | None, None => True
     | _, _ => False
     end.
(** JSON values that differ only in the order of the members of objects *)
Inductive same_json : json -> json -> Prop :=
| same_str s : same_json (JStr s) (JStr s)
| same_num n : same_json (JNum n) (JNum n)
| same_arr l l' : Forall2 same_json l l' -> same_json (JArr l) (JArr l')
| same_obj l l1 l' : Permutation l l1 -> Forall2 (fun x y => fst x = fst y /\ same_json (snd x) (snd y)) l1 l' ->
    same_json (JObj l) (JObj l').

(** ** C29: the text of a list of named attributes *)
Definition pair_text (p : bytes * bytes) : bytes := fst p ++ ["="; DQ] ++ snd p ++ [DQ].
Fixpoint comma_list (l : list bytes) : bytes :=
  match l with
  | [] => []
  | [x] => x
  | x :: r => x ++ "," :: comma_list r
  end.
Definition attribute_list (l : list (bytes * bytes)) : bytes := comma_list (map pair_text l).
Definition name_of (n : bytes) : Prop := n <> [] /\ Forall (fun c => is_ascii_alnum c = true \/ c = "_") n.
Definition value_of (v : bytes) : Prop :=
  Forall (fun c => c <> DQ /\ c <> NL /\ c <> "=") v /\ match v with c :: _ => is_cont c = false | [] => True end.
(** no pair is the end of another *)
Definition apart (l : list (bytes * bytes)) : Prop :=
  forall p q x, In p l -> In q l -> pair_text q = x ++ pair_text p -> p = q.
Definition is_role (p : bytes * bytes) : bool := beqb (fst p) (bs "role").
(** the words of a text, and the words joined by single spaces *)
Fixpoint spaced (l : list bytes) : bytes :=
  match l with
  | [] => []
  | [x] => x
  | x :: r => x ++ SP :: spaced r
  end.
Definition words (v : bytes) (l : list bytes) : Prop := l <> [] /\ spaced l = v /\ Forall (fun x => ~ In SP x) l.
(** the metadata of an attribute list of named attributes *)
Definition names_to_values (l : list (bytes * bytes)) (m : metadata) : Prop :=
  m_attrs m = filter (fun p => negb (is_role p)) l /\ m_options m = [] /\ m_type m = None
  /\ match find is_role l with
     | Some p => words (snd p) (m_roles m)
     | None => m_roles m = []
     end.

(** ** C28: texts of attribute lists that are accepted *)
Definition fields (s : bytes) : list bytes := split_on (fun c => Ascii.eqb c ",") s.
Definition ascii_text (s : bytes) : Prop := Forall (fun c => is_ascii c = true) s.
