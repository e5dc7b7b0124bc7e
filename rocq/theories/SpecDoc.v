(** * Simple documents: blank lines, attribute entries, and lines of plain text with
    attribute references *)
From Verif Require Import Base Location Token Meta Inline Block Asg SpecScan.
Local Open Scope char_scope.
Local Open Scope nat_scope.

(** the spellings that mean something to the scanner anywhere in a line *)
Definition markup : list bytes :=
  ["010"] :: map bs
    ["*"; "_"; "`"; "^"; "~"; "#"; "["; "]"; "&"; "{"; "+"; "<"; "'"; "|"; "--"; "->"; "=>"; "...";
     "(C)"; "(R)"; "(TM)"; "::"; "http"; "image:";
     "NOTE: "; "TIP: "; "IMPORTANT: "; "CAUTION: "; "WARNING: "]%string.
(** and those that mean something at the start of a line *)
Definition line_markup : list bytes := map bs ["."; "="; "//"; ":"]%string.

Definition plain (s : bytes) : Prop := utf8 s /\ Forall (fun o => ~ occurs o s) markup.
Definition plain_start (s : bytes) : Prop :=
  Forall (fun o => ~ exists r, s = o ++ r) line_markup.

Inductive line :=
| Blank
| Entry (name value : bytes)                       (* :name: value *)
| Words (s : bytes) (l : list (bytes * bytes)).    (* s{name}s{name}s.. *)

Definition spell (l : line) : bytes :=
  match l with
  | Blank => []
  | Entry name value => ":" :: name ++ ":" :: match value with [] => [] | _ => " " :: value end
  | Words s l => s ++ List.concat (map (fun x => "{" :: fst x ++ "}" :: snd x) l)
  end.
Definition source (ls : list line) : bytes := List.concat (map (fun l => spell l ++ ["010"]) ls).

Definition graphic (c : ascii) : Prop := (33 <= N_of_ascii c <= 126)%N.
Definition name_char (c : ascii) : Prop := is_ascii_alnum c = true \/ c = "-".

Definition simple_line (l : line) : Prop :=
  match l with
  | Blank => True
  | Entry name value =>
      Forall name_char name /\ name <> bs "leveloffset" /\ name <> value
      /\ utf8 value /\ ~ In "010" value /\ ~ In ":" value
      /\ (value = [] \/ exists c r, value = c :: r /\ graphic c)
      /\ (value = [] \/ exists c r, value = r ++ [c] /\ graphic c)
  | Words s l =>
      spell (Words s l) <> [] /\ plain s /\ plain_start s
      /\ Forall (fun x => Forall name_char (fst x) /\ plain (snd x)) l
  end.

(** ** What such a document says: the attributes so far, the text of the paragraph so
    far, whether the line before was not blank *)
Notation env := (bytes -> option bytes).
Definition set_env (e : env) (name value : bytes) : env :=
  fun n => if list_eq_dec Ascii.ascii_dec n name then Some value else e n.
(** an undefined reference stands for its own spelling *)
Definition value_of (e : env) (name : bytes) : bytes :=
  match e name with Some v => v | None => "{" :: name ++ ["}"] end.
Definition expand (e : env) (s : bytes) (l : list (bytes * bytes)) : bytes :=
  s ++ List.concat (map (fun x => value_of e (fst x) ++ snd x) l).
Definition paragraph_of (cur : option bytes) : list bytes :=
  match cur with Some s => [s] | None => [] end.
(** a line break inside a paragraph stays a newline.  An entry line directly before a
    text line counts: its line break is kept too. *)
Fixpoint paragraphs (e : env) (cur : option bytes) (follows : bool) (ls : list line) : list bytes :=
  match ls with
  | [] => paragraph_of cur
  | Blank :: r => paragraph_of cur ++ paragraphs e None false r
  | Entry name value :: r => paragraphs (set_env e name value) cur true r
  | Words s l :: r =>
      let text := (if follows then ["010"] else []) ++ expand e s l in
      paragraphs e (Some (match cur with Some t => t ++ text | None => text end)) true r
  end.
(** the text after the last newline, as lines *)
Definition fin_line (fin : bytes) : list line := match fin with [] => [] | _ => [Words fin []] end.
Definition no_env : env := fun _ => None.

(** the text of a paragraph block *)
Definition paragraph_text (b : block) (s : bytes) : Prop :=
  exists loc loc', b = Blk (HLeaf NParagraph FmParagraph None [ILit LText false s loc]) None [] loc'.

(** ** Plain documents: no entries, no references.  The paragraphs are the runs of
    lines between blank ones, each with the number of its first line. *)
Fixpoint runs_of (n : nat) (cur : list bytes) (ls : list bytes) : list (nat * list bytes) :=
  match ls with
  | [] => match cur with [] => [] | _ => [(n - List.length cur, cur)] end
  | [] :: r => match cur with [] => [] | _ => [(n - List.length cur, cur)] end ++ runs_of (S n) [] r
  | l :: r => runs_of (S n) (cur ++ [l]) r
  end.
Definition joined (l : list bytes) : bytes :=
  match l with [] => [] | x :: r => x ++ List.concat (map (fun y => "010" :: y) r) end.
(** the paragraph made of the lines [l], the first of which is line [n] *)
Definition plain_paragraph (n : nat) (l : list bytes) : block :=
  let loc := [mkLoc n 1 []; mkLoc (n + List.length l - 1) (List.length (last l [])) []] in
  Blk (HLeaf NParagraph FmParagraph None [ILit LText false (joined l) loc]) None [] loc.

(** the lines of paragraphs separated by one blank line, and the number of the first
    line of each *)
Fixpoint separated (ps : list (list bytes)) : list bytes :=
  match ps with
  | [] => []
  | p :: r => match r with [] => p | _ => p ++ [] :: separated r end
  end.
Fixpoint numbered (n : nat) (ps : list (list bytes)) : list (nat * list bytes) :=
  match ps with
  | [] => []
  | p :: r => (n, p) :: numbered (n + List.length p + 1) r
  end.
