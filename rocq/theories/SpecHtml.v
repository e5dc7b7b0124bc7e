(** * Specification of the HTMLBook output: C32, C33 *)
From Verif Require Import Base World Location Token Meta Inline Block Asg SpecScan.
Local Open Scope char_scope.
Local Open Scope nat_scope.

(** text without markup of its own, and text that is moreover the value of an attribute *)
Definition plain (s : bytes) : Prop := Forall (fun c => c <> "<" /\ c <> ">") s.
Definition clean (s : bytes) : Prop := Forall (fun c => c <> "<" /\ c <> ">" /\ c <> "034") s.

(** ** A grammar of well-nested text over the elements and attributes of the templates *)
Definition elements : list bytes := map bs
  ["html"; "head"; "title"; "body"; "section"; "h1"; "h5"; "p"; "pre"; "div"; "blockquote"; "aside"; "figure";
   "figcaption"; "ul"; "ol"; "li"; "dl"; "dt"; "dd"; "table"; "thead"; "tbody"; "tr"; "th"; "td";
   "em"; "strong"; "code"; "span"; "sup"; "sub"; "a"; "UNHANDLED"]%string.
Definition empty_elements : list bytes := map bs ["br"; "hr"; "img"]%string.
Definition attribute_names : list bytes := map bs
  ["lang"; "class"; "id"; "data-type"; "data-code-language"; "href"; "src"; "alt"; "style"]%string.
Definition unclosed : list bytes := map bs
  ["<!DOCTYPE html>"; "<meta charset=""UTF-8"">";
   "<meta name=""viewport"" content=""width=device-width, initial-scale=1"">"]%string.

Inductive attributes : bytes -> Prop :=
| attributes_nil : attributes []
| attributes_cons k v r : In k attribute_names -> clean v -> attributes r ->
    attributes (" " :: k ++ "=" :: "034" :: v ++ "034" :: r).
Inductive html : bytes -> Prop :=
| html_nil : html []
| html_app a b : html a -> html b -> html (a ++ b)
| html_text s : plain s -> html s
| html_element n a s : In n elements -> attributes a -> html s ->
    html ("<" :: n ++ a ++ ">" :: s ++ "<" :: "/" :: n ++ [">"])
| html_empty n a gap : In n empty_elements -> attributes a -> gap = [] \/ gap = [" "] -> html ("<" :: n ++ a ++ gap ++ bs "/>")
| html_unclosed s : In s unclosed -> html s.

(** ** A reader of tags with a stack of open elements; [tag] is the tag being read, reversed *)
Fixpoint tag_name (t : bytes) : bytes :=
  match t with
  | c :: r => if Ascii.eqb c " " then [] else c :: tag_name r
  | [] => []
  end.
Definition tag_effect (t : bytes) (open : list bytes) : option (list bytes) :=
  match t with
  | "/" :: n => match open with
                | x :: r => if beqb x n then Some r else None
                | [] => None
                end
  | "!" :: _ => Some open
  | _ => if beqb (tag_name t) (bs "meta") || Ascii.eqb (last t " ") "/" then Some open
         else Some (tag_name t :: open)
  end.
Fixpoint nests (tag : option bytes) (open : list bytes) (s : bytes) : bool :=
  match s with
  | [] => match tag, open with None, [] => true | _, _ => false end
  | c :: r =>
      match tag with
      | None => if Ascii.eqb c "<" then nests (Some []) open r
                else if Ascii.eqb c ">" then false else nests None open r
      | Some t => if Ascii.eqb c "<" then false
                  else if Ascii.eqb c ">" then
                    match tag_effect (rev t) open with Some o => nests None o r | None => false end
                  else nests (Some (c :: t)) open r
      end
  end.
Definition well_nested (s : bytes) : bool := nests None [] s.

(** ** Graphs whose texts are clean *)
Definition all {A} (P : A -> Prop) (l : list A) : Prop := fold_right and True (map P l).
Definition clean_meta (m : option metadata) : Prop :=
  match m with
  | Some x => Forall clean (m_roles x) /\ Forall (fun kv => clean (snd kv)) (m_attrs x)
  | None => True
  end.
Fixpoint clean_inline (i : inline) : Prop :=
  match i with
  | ISpan _ _ l m _ _ => clean_meta m /\ all clean_inline l
  | IRef _ t l m _ => clean_meta m /\ clean t /\ all clean_inline l
  | ILit _ _ v _ => plain v
  | IBreak _ => True
  end.
Definition clean_head (h : head) : Prop :=
  match h with
  | HSection _ l _ | HListItem _ l | HLeaf _ _ _ l | HParent _ _ _ l | HCell l => all clean_inline l
  | HDListItem t p => all clean_inline t /\ all clean_inline p
  | HMacro t l => clean t /\ all clean_inline l
  | HList _ | HDList | HBreak _ => True
  end.
Fixpoint clean_block (b : block) : Prop :=
  match b with Blk h m k _ => clean_head h /\ clean_meta m /\ all clean_block k end.
Definition clean_graph (a : asg) : Prop :=
  all clean_block (a_blocks a)
  /\ match a_header a with Some h => all clean_inline (hd_title h) | None => True end.
