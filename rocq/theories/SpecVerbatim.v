(** * Specification of verbatim and comment blocks: C12, C13 *)
From Verif Require Import Base World Location Token Inline Block Parser.

(** the delimited blocks whose content is taken literally *)
Inductive verbatim : token_type -> leaf_name -> Prop :=
| verbatim_listing : verbatim TSourceBlock NListing
| verbatim_literal : verbatim TLiteralBlock NLiteral
| verbatim_pass : verbatim TPassthroughBlock NPass.

(** what may stand between two delimiters of type [ty] *)
Definition content (ty : token_type) (t : token) : Prop :=
  ttype t <> ty /\ (ty = TSourceBlock -> ttype t <> TCodeCallout /\ ttype t <> TInclude).

Definition source_text (ts : list token) : bytes := List.concat (map lexeme ts).

(** a place where a block can start: no text, title line or continuation pending *)
Definition between_blocks (p : pstate) : Prop :=
  p_header p = None /\ p_open_type p = None /\ p_istack p = [] /\ p_dangling p = None
  /\ p_in_line p = false /\ p_in_cont p = false.

(** no reference is being given its text *)
Definition no_open_reference (p : pstate) : Prop :=
  match p_istack p with IRef _ _ _ _ _ :: _ => p_close_parent p = true | _ => True end.
