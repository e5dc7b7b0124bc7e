(** * Specification: which parts of a file an include directive takes in *)
From Verif Require Import Base World Location Token Scanner Meta Inline Block Asg Parser SpecLevel SpecText SpecDocx SpecPath.
Local Open Scope char_scope.
Local Open Scope nat_scope.

(** ** Lines *)
(** the tokens that end a line: newlines and the directives around tagged regions *)
Definition ends_line (ty : token_type) : bool := match ty with TNewLineChar | TStartTag | TEndTag => true | _ => false end.
Definition line_ends (ts : list token) : nat := List.length (filter (fun t => ends_line (ttype t)) ts).
Inductive pick := Just (a : nat) | Through (a b : nat) | Onward (a : nat).
(** [writes i f]: the selection [i] written out *)
Inductive writes : pick -> bytes -> Prop :=
| writes_just x a : decimal x a -> writes (Just (N.to_nat a)) x
| writes_through x a y b : decimal x a -> decimal y b -> writes (Through (N.to_nat a) (N.to_nat b)) (x ++ bs ".." ++ y)
| writes_onward x a : decimal x a -> writes (Onward (N.to_nat a)) (x ++ bs "..")
| writes_onward' x a : decimal x a -> writes (Onward (N.to_nat a)) (x ++ bs "..-1").
(** selections separated by commas or semicolons *)
Inductive chooses : list pick -> bytes -> Prop :=
| chooses_one i f : writes i f -> chooses [i] f
| chooses_more i f c l v : writes i f -> c = "," \/ c = ";" -> chooses l v -> chooses (i :: l) (f ++ c :: v).
Definition picks (i : pick) (line : nat) : bool :=
  match i with
  | Just a => Nat.eqb line a
  | Through a b => Nat.leb a line && Nat.leb line b
  | Onward a => Nat.leb a line
  end.
Definition wants (l : list pick) (line : nat) : bool := existsb (fun i => picks i line) l.
(** numbers that fit in 32 bits; an open range only at the end and from a line that exists *)
Definition below (a : nat) : Prop := (Z.of_nat a < 2147483647)%Z.
Definition closed (i : pick) : Prop :=
  match i with Just a => below a | Through a b => below a /\ below b | Onward a => False end.
Definition usable (l : list pick) : Prop :=
  (Forall closed l /\ exists line, wants l line = true)
  \/ exists l' a, l = l' ++ [Onward a] /\ Forall closed l' /\ below a /\ a <> 0.

(** ** Tags *)
Definition opens_tag (g : bytes) (t : token) : Prop := ttype t = TStartTag /\ lexeme t = bs "tag::" ++ g ++ bs "[]".
Definition closes_tag (g : bytes) (t : token) : Prop := ttype t = TEndTag /\ lexeme t = bs "end::" ++ g ++ bs "[]".
(** after [pre]: between the directives of one of the tags *)
Definition inside (g : bytes) (pre : list token) : Prop :=
  exists a s b, pre = a ++ s :: b /\ opens_tag g s /\ Forall (fun t => ~ closes_tag g t) b.
Definition within (tags : list bytes) (pre : list token) : Prop := exists g, In g tags /\ inside g pre.
Definition marks (tags : list bytes) (t : token) : Prop := exists g, In g tags /\ (opens_tag g t \/ closes_tag g t).
Inductive tagged (tags : list bytes) : list token -> list token -> list token -> Prop :=
| tagged_nil pre : tagged tags pre [] []
| tagged_in pre t r r' : within tags pre -> ~ marks tags t -> tagged tags (pre ++ [t]) r r' -> tagged tags pre (t :: r) (t :: r')
| tagged_mark pre t r r' : marks tags t -> tagged tags (pre ++ [t]) r r' -> tagged tags pre (t :: r) r'
| tagged_out pre t r r' : ~ within tags pre -> tagged tags (pre ++ [t]) r r' -> tagged tags pre (t :: r) r'.
(** the directives are well formed; those of the selected tags are not nested *)
Definition well_formed (ts : list token) : Prop :=
  Forall (fun t => (ttype t = TStartTag -> exists g, opens_tag g t /\ starts_char g)
                   /\ (ttype t = TEndTag -> exists g, closes_tag g t /\ starts_char g)) ts.
Definition not_nested (tags : list bytes) (ts : list token) : Prop :=
  forall pre t post g, ts = pre ++ t :: post -> In g tags ->
    (opens_tag g t -> ~ within tags pre) /\ (closes_tag g t -> within tags pre -> inside g pre).

(** ** Taking in the tokens [ts] of a file *)
Section Feed.
  Variable rec : token -> pstate -> result pstate.
  Variable adoc : bool.
  (** each token is parsed, or taken as text when the file is no AsciiDoc file *)
  Fixpoint feed (ts : list token) (p : pstate) : result pstate :=
    match ts with
    | [] => Ok p
    | t :: r =>
        let* q := if adoc then let* q := rec t p in Ok (set_last (ttype t) q)
                  else parse_text t (set_last (if tt_eqb (ttype t) TEof then TEof else TText) p) in
        feed r q
    end.
  (** the file [target], of which the tokens [ts] are taken and whose scan ends with [e] *)
  Definition take_in (target : bytes) (ts : list token) (e : result unit) (p : pstate) : result pstate :=
    let* q := feed ts (set_files (p_files p ++ [target]) p) in
    let* _ := e in
    let* q := add_inlines_to_block_stack q in
    let* q := flush_to (List.length (p_bstack p)) q in
    Ok (set_files (removelast (p_files q)) q).
End Feed.
Definition is_adoc (target : bytes) : bool :=
  memb (last (split_on (fun c => Ascii.eqb c ".") target) []) [bs "adoc"; bs "asciidoc"; bs "txt"].

(** the lines and tags asked for by the attributes of the directive *)
Definition by_lines (m : metadata) (ts ts' : list token) : Prop :=
  match mget (bs "lines") (m_attrs m) with
  | None => ts' = ts
  | Some v => exists l, chooses l v /\ usable l /\ ts' = filter (fun t => wants l (tline t)) ts
  end.
Definition asks (m : metadata) (tags : list bytes) : Prop :=
  exists a b, tags = a ++ b
    /\ match mget (bs "tag") (m_attrs m) with None => a = [] | Some g => a = [g] end
    /\ match mget (bs "tags") (m_attrs m) with
       | None => b = []
       | Some v => b <> [] /\ v = join (bs ";") b /\ Forall (fun g => ~ In ";" g) b
       end.
Definition by_tags (m : metadata) (ts ts' : list token) : Prop :=
  exists tags, asks m tags /\ (tags = [] /\ ts' = ts \/ tags <> [] /\ well_formed ts /\ not_nested tags ts /\ tagged tags [] ts ts').
(** the file the directive names, seen from the file and the chain of files the parser is in *)
Definition names (w : world) (t : token) (p : pstate) (target : bytes) (m : metadata) (content : bytes) : Prop :=
  target_and_attrs_from_token w t = Ok (target, Some m) /\ mget (bs "leveloffset") (m_attrs m) = None
  /\ exists path, w_canon w (located (p_origin p) (p_files p) target) = Some path /\ w_read w path = Some content.
