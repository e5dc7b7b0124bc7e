(** * Specification: sources put one after the other *)
From Verif Require Import Base Token SpecScan SpecLex.
Local Open Scope char_scope.
Local Open Scope nat_scope.

(** the tokens without their places *)
Definition kinds (ts : list token) : list (token_type * bytes) := map (fun t => (ttype t, lexeme t)) ts.
(** the same token [n] lines further down *)
Definition lowered (n : nat) (t : token) : token :=
  mkTok (ttype t) (lexeme t) (literal t) (n + tline t) (startcol t) (endcol t) (tfiles t).
(** what the last token is not, what it is *)
Definition last_not (ty : token_type) (ts : list token) : Prop :=
  forall p t, ts = p ++ [t] -> ttype t <> ty.
Definition last_is (ty : token_type) (ts : list token) : Prop := exists p t, ts = p ++ [t] /\ ttype t = ty.
(** how many newline tokens there are *)
Definition newlines (ts : list token) : nat :=
  List.length (filter (fun t => match ttype t with TNewLineChar => true | _ => false end) ts).
