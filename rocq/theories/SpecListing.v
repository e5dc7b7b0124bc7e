(** * Specification: include directives in a listing *)
From Verif Require Import Base World Location Token Scanner Meta Inline Block Parser SpecVerbatim SpecSelect SpecPath.
Local Open Scope char_scope.
Local Open Scope nat_scope.

(** what becomes of the tokens of a file: in a file that is no AsciiDoc, references to
    characters and quotation marks are replaced *)
Definition included (target : bytes) (ts : list token) : bytes :=
  if is_adoc target then source_text ts else List.concat (map token_text ts).
(** neither a reference to a character nor a quotation mark *)
Definition unreplaced (t : token) : Prop := ~ In (ttype t) [TCharRef; TOpenDoubleQuote; TCloseDoubleQuote; TOpenSingleQuote; TCloseSingleQuote].

Section Quoted.
  Variable w : world.
  Variable origin : bytes.
  (** the files in which the listing stands *)
  Variable files : list bytes.

  (** [fetches t target ts]: the directive [t] names the file [target], of which it takes [ts] *)
  Inductive fetches (t : token) : bytes -> list token -> Prop :=
  | fetches_all target path content ts : target_and_attrs_from_token w t = Ok (target, None) ->
      w_canon w (located origin files target) = Some path -> w_read w path = Some content ->
      scan_with content (files ++ [target]) = Ok ts -> fetches t target ts
  | fetches_some target m path content ts ts1 ts2 : target_and_attrs_from_token w t = Ok (target, Some m) ->
      mget (bs "leveloffset") (m_attrs m) = None ->
      w_canon w (located origin files target) = Some path -> w_read w path = Some content ->
      scan_with content (files ++ [target]) = Ok ts -> by_lines m ts ts1 -> by_tags m ts1 ts2 -> fetches t target ts2.

  (** [quoted ts l]: the tokens [ts] between the fences stand for the texts [l]; a text ends
      with what a directive takes in.  A file of AsciiDoc may not hold a fence, a callout or
      a directive itself. *)
  Inductive quoted : list token -> list bytes -> Prop :=
  | quoted_end ts : ts <> [] -> Forall (content TSourceBlock) ts -> quoted ts [source_text ts]
  | quoted_file ts t target fts rest l : ts <> [] -> Forall (content TSourceBlock) ts -> ttype t = TInclude ->
      fetches t target fts -> (is_adoc target = true -> Forall (content TSourceBlock) fts) ->
      quoted rest l -> quoted (ts ++ t :: rest) ((source_text ts ++ included target fts) :: l).
End Quoted.

(** the texts as they stand in a block *)
Definition holds (l : list bytes) (ils : list inline) : Prop := Forall2 (fun s i => exists loc, i = ILit LText false s loc) l ils.
