(** * Specification: documents in several files

    A document whose source takes in other files, or parts of them, by include directives that
    stand by themselves, and whose files may take in further files; what it stands for is said
    by the pieces of [SpecScript], file by file. *)
From Verif Require SpecAttrs.
From Verif Require Import Base World Location Token Scanner Meta Inline Block Parser SpecScan SpecLex SpecPath SpecSelect SpecDoc SpecScript.
Local Open Scope char_scope.
Local Open Scope nat_scope.

(** what stands in a file, or in the parts of it that are taken in: pieces and directives, at
    the end maybe a paragraph without a blank line after it; a directive may ask for lines or
    tags of its file *)
Inductive body :=
| Stop
| Lines (c : list decor) (l : list element) (ended : bool)
| Own (c : list decor) (x : piece) (rest : body)
| File (target : bytes) (asked : list SpecAttrs.item) (inside : body) (breaks : nat) (rest : body).
Record cut := mkCut { ct_title : option (list element * list (bytes * bytes)); ct_body : body }.

(** ** The words of each file *)
Definition file_word (target : bytes) (asked : list SpecAttrs.item) : word :=
  (TInclude, bs "include::" ++ target ++ bs "[" ++ SpecAttrs.list_text asked ++ bs "]").
Fixpoint body_words (b : body) : list word :=
  match b with
  | Stop => []
  | Lines c l ended => decor_words c ++ text_words l ++ (if ended then [newline] else [])
  | Own c x r => decor_words c ++ piece_words x ++ body_words r
  | File t asked _ n r => file_word t asked :: repeat newline n ++ body_words r
  end.
Definition beginning (d : cut) : script := mkScript (ct_title d) [] None.
Definition cut_words (d : cut) : list word :=
  match ct_title d with
  | Some (t, l) =>
      head_word 0 :: text_words t ++ newline :: List.concat (map (fun x => [entry_word (fst x) (snd x); newline]) l) ++ [newline]
  | None => []
  end ++ body_words (ct_body d) ++ [(TEof, [])].

(** ** What they stand for: a section that a file begins ends with the file, unless a
    section was open before *)
Definition sealed (o : bool) (g : page) : page :=
  if o then g else mkPage (g_env g) (g_keep g) (g_flag g) false (g_flow g).
Fixpoint body_page (b : body) (g : page) : page :=
  match b with
  | Stop => g
  | Lines c l _ => place (page_para g (dress c) (waits (g_keep g) c) l) (flag_page (macros l) g)
  | Own c x r => body_page r (piece_page c x g)
  | File _ _ f _ r => body_page r (sealed (g_open g) (body_page f g))
  end.
Definition cut_page (d : cut) : page := body_page (ct_body d) (first_page (beginning d)).
Definition cut_blocks (d : cut) : list block := referred (outline (g_flow (cut_page d))).
Definition cut_title (d : cut) : option (list inline) := script_title (beginning d).

(** the attributes of a directive *)
Definition asked_for (asked : list SpecAttrs.item) (k : bytes) : option bytes := SpecAttrs.last_given None (SpecAttrs.order asked) k.
Definition asked_ok (asked : list SpecAttrs.item) : Prop :=
  asked = []
  \/ SpecAttrs.items_ok asked /\ SpecAttrs.list_text asked <> [] /\ SpecAttrs.list_refused None (SpecAttrs.order asked) = false
     /\ asked_for asked (bs "leveloffset") = None.
(** ** Which documents are meant.  A directive has a blank line after it, or is the last
    line of its file.  No macro in a file ends the section in which the directive stands. *)
Fixpoint body_ok (b : body) (g : page) : Prop :=
  match b with
  | Stop => True
  | Lines c l _ => decors_ok c /\ text_fits (g_keep g) (waits (g_keep g) c) l = true
  | Own c x r => piece_ok g c x /\ body_ok r (piece_page c x g)
  | File t asked f n r =>
      asked_ok asked /\ is_adoc t = true /\ target_fits t = true /\ match t with [] => True | c :: _ => is_cont c = false end
      /\ body_ok f g /\ (g_open g = true -> g_open (body_page f g) = true)
      /\ (n = 2 \/ n < 2 /\ r = Stop) /\ body_ok r (sealed (g_open g) (body_page f g))
  end.
Definition cut_ok (d : cut) : Prop :=
  match ct_title d with
  | None => True
  | Some (t, l) =>
      text_fits plainly false t = true /\ forallb header_word (text_words t) = true
      /\ Forall (fun x => simple_line (Entry (fst x) (snd x))) l
  end
  /\ body_ok (ct_body d) (first_page (beginning d))
  /\ clear 0 (g_flow (cut_page d)) = true.
(** files inside of files, and table cells, are read by recursion *)
Fixpoint depth (b : body) : nat :=
  match b with
  | Stop | Lines _ _ _ => 0
  | Own _ x r => Nat.max (match x with Grid _ _ rows => match grid_cells rows with [] => 0 | _ => 1 end | _ => 0 end) (depth r)
  | File _ _ f _ r => Nat.max (S (depth f)) (depth r)
  end.

(** ** The parts of a file that are asked for, lines first *)
Definition chosen (asked : list SpecAttrs.item) (ts ts' : list token) : Prop :=
  exists m ts1, (forall k, mget k (m_attrs m) = asked_for asked k) /\ by_lines m ts ts1 /\ by_tags m ts1 ts'.
(** tables must keep their lines *)
Fixpoint gridless (b : body) : bool :=
  match b with
  | Stop | Lines _ _ _ => true
  | Own _ (Grid _ _ _) _ => false
  | Own _ _ r | File _ _ _ _ r => gridless r
  end.
Fixpoint steady (ts : list token) : Prop :=
  match ts with
  | t :: (u :: _) as r => tline u = (match ttype t with TNewLineChar => S (tline t) | _ => tline t end) /\ steady r
  | _ => True
  end.
(** the tokens [ts] of a file: the words of the parts asked for are those of [f], with or
    without the end of the file *)
Definition parted (asked : list SpecAttrs.item) (f : body) (ts : list token) : Prop :=
  exists ts', chosen asked ts ts'
    /\ (map (fun t => (ttype t, lexeme t)) ts' = body_words f \/ map (fun t => (ttype t, lexeme t)) ts' = body_words f ++ [(TEof, [])])
    /\ (gridless f = true \/ steady ts').

(** ** The files on the disk.  [files] are the targets of the directives that led here. *)
Section Stored.
  Variables (w : world) (origin : bytes) (resolve : bool).
  Fixpoint stored (files : list bytes) (b : body) : Prop :=
    match b with
    | Stop | Lines _ _ _ => True
    | Own _ x r =>
        match x with
        | Picture _ t _ => resolve = true -> w_canon w (located origin files t) <> None
        | Grid _ _ rows => Forall (fun c => utf8 (fst c) /\ tokenised [] (fst c) (text_words (snd c) ++ [(TEof, [])])) (grid_cells rows)
        | _ => True
        end /\ stored files r
    | File t asked f _ r =>
        (exists path content, w_canon w (located origin files t) = Some path /\ w_read w path = Some content
           /\ match asked with
              | [] => utf8 content /\ tokenised [] content (body_words f ++ [(TEof, [])])
              | _ => exists ts, scan_stream content (files ++ [t]) = (ts, Ok tt) /\ parted asked f ts
              end)
        /\ stored (files ++ [t]) f /\ stored files r
    end.
End Stored.

(** ** The document in one file: what stands in the other files in place of the directives *)
Fixpoint pieces_of (b : body) : list (list decor * piece) :=
  match b with
  | Stop => []
  | Lines c l _ => [(c, Part (Text l))]
  | Own c x r => (c, x) :: pieces_of r
  | File _ _ f _ r => pieces_of f ++ pieces_of r
  end.
Fixpoint front (b : body) : list (list decor * piece) :=
  match b with
  | Stop | Lines _ _ _ => []
  | Own c x r => (c, x) :: front r
  | File _ _ f _ r => pieces_of f ++ front r
  end.
Fixpoint last_lines (b : body) : option (list decor * (list element * bool)) :=
  match b with
  | Stop => None
  | Lines c l ended => Some (c, (l, ended))
  | Own _ _ r | File _ _ _ _ r => last_lines r
  end.
Definition whole (d : cut) : script := mkScript (ct_title d) (front (ct_body d)) (last_lines (ct_body d)).
(** no file begins a section where none is open, and the last paragraph of a file neither
    holds nor follows a macro that would make it end the section *)
Fixpoint joins (main : bool) (b : body) (g : page) : bool :=
  match b with
  | Stop => true
  | Lines c l _ => main || negb ((g_flag g || macros l) && g_open g)
  | Own c x r => joins main r (piece_page c x g)
  | File _ _ f _ r => (g_open g || negb (g_open (body_page f g))) && joins false f g && joins main r (sealed (g_open g) (body_page f g))
  end.
Definition seamless (d : cut) : bool := joins true (ct_body d) (first_page (beginning d)).
