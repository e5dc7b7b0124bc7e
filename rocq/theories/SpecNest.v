(** * Blocks in blocks, continued items, lists in lists, and texts of several lines *)
(** What a writer would expect of these documents, and what the parser makes of them
    instead.  The documents are given by their tokens, as in [SpecScript]. *)
From Verif Require Import Base Token Meta Inline Block SpecLex SpecDoc SpecArticle SpecScript.
Local Open Scope char_scope.
Local Open Scope nat_scope.

Definition eof : word := (TEof, []).
Definition text (l : list element) : list inline := text_inlines plainly no_env None false l.

(** ** A delimited block in a delimited block *)
Definition nest_words (b1 b2 : box) (l : list element) : list word :=
  [box_word b1; newline; box_word b2; newline] ++ text_words l
  ++ [newline; box_word b2; newline; box_word b1; newline; eof].
Definition boxed (b : box) (kids : list block) : block := Blk (HParent (box_name b) None (box_fence b) []) None kids [].
Definition nest_meant (b1 b2 : box) (l : list element) : list block :=
  referred [boxed b1 [boxed b2 [para None (text l)]]].
(** the inner block, although closed, is still the last delimited block on the stack when
    the closing line of the outer one comes: that line opens a third block *)
Definition nest_made (b1 b2 : box) (l : list element) : list block :=
  referred [boxed b1 [boxed b2 [para None (text l); boxed b1 []]]].

(** ** A paragraph attached to a list item *)
Definition plus : word := (TBlockContinuation, ["+"]).
Definition item (b : bullet) (l : list element) : list word := bullet_word b :: text_words l ++ [newline].
Definition attached (b : bullet) (x y : list element) : list word := item b x ++ [plus; newline] ++ text_words y ++ [newline].
(** line breaks after the plus are dropped *)
Definition dropping : manner := mkManner false true.
Definition loose (l : list element) : list inline := text_inlines dropping no_env None false l.
Definition listed (b : bullet) (items : list block) : block := Blk (HList (bullet_variant b)) (list_meta b None) items [].
Definition entry (b : bullet) (x : list inline) (kids : list block) : block := Blk (HListItem (bullet_mark b) x) None kids [].
(** as the last thing in the document *)
Definition attach_end (b : bullet) (x y : list element) : list word := attached b x y ++ [eof].
Definition attach_meant (b : bullet) (x y : list element) : list block :=
  referred [listed b [entry b (text x) [para None (loose y)]]].
(** before another item *)
Definition attach_more (b b' : bullet) (x y z : list element) : list word := attached b x y ++ item b' z ++ [eof].
Definition attach_more_meant (b b' : bullet) (x y z : list element) : list block :=
  referred [listed b [entry b (text x) [para None (loose y)]; entry b' (text z) []]].
(** the paragraph becomes part of the text of the item, and the next item loses its own
    to a paragraph in front of the list *)
Definition attach_more_made (b b' : bullet) (x y z : list element) : list block :=
  referred [para None (text z); listed b [entry b (text x ++ loose y) []; entry b' [] []]].
(** before a blank line and another paragraph, whatever follows *)
Definition attach_after (b : bullet) (x y z : list element) (rest : list word) : list word :=
  attached b x y ++ [newline] ++ text_words z ++ [newline] ++ rest.

(** ** Lists in lists *)
(** items, one after the other *)
Definition sunk_words (l : list (bullet * list element)) : list word :=
  List.concat (map (fun x => item (fst x) (snd x)) l) ++ [eof].
Fixpoint alternating (l : list (bullet * list element)) : Prop :=
  match l with
  | x :: (y :: _) as r => bullet_variant (fst x) <> bullet_variant (fst y) /\ alternating r
  | _ => True
  end.
(** every item opens a list in the item before it; the items with the texts [s] *)
Fixpoint sunk (l : list (bullet * list element)) (s : list (list inline)) : list block :=
  match l, s with
  | x :: r, i :: s => [listed (fst x) [entry (fst x) i (sunk r s)]]
  | _, _ => []
  end.
(** the texts one would expect, and what they are: all goes to the last item *)
Definition sunk_meant (l : list (bullet * list element)) : list block := referred (sunk l (map (fun x => text (snd x)) l)).
Definition sunk_made (l : list (bullet * list element)) : list block :=
  referred (sunk l (map (fun _ => []) (tl l) ++ [text (List.concat (map snd l))])).

(** ** A description of two lines *)
Definition two_words (t : list element) (b : bool) (x y t' : list element) (b' : bool) (z : list element) : list word :=
  text_words t ++ term_word b :: text_words x ++ newline :: text_words y ++ newline
  :: text_words t' ++ term_word b' :: text_words z ++ [newline; newline; eof].
(** in a description list line breaks are kept as they are *)
Definition lined : manner := mkManner true false.
Definition kept (l : list element) : list inline := text_inlines lined no_env None false l.
Definition described (l : list (list inline * list inline)) : block :=
  Blk HDList None (map (fun i => Blk (HDListItem (fst i) (snd i)) None [] []) l) [].
Definition two_meant (t x y t' z : list element) : list block :=
  referred [described [(text t, kept (x ++ Bit Newline :: y)); (kept t', kept z)]].
(** the second line is taken for the start of the next term *)
Definition two_made (t x y t' z : list element) : list block :=
  referred [described [(text t, kept x); (kept (y ++ Bit Newline :: t'), kept z)]].
(** the texts: the term and the lines [x] stand on one line, the second line starts with
    plain text *)
Definition two_fit (t x y t' z : list element) : bool :=
  text_fits plainly false t && one_line t && unbroken (text t)
  && terms_ok lined no_env x [(y ++ Bit Newline :: t', false, z)].
