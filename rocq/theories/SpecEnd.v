(** * How documents end: the blank line after the last block *)
From Verif Require Import Base Token SpecScan SpecLex SpecDoc SpecArticle SpecScript.
Local Open Scope nat_scope.

(** the words of a script without the newline that makes the blank line after its last piece *)
Definition front_words (d : script) : list word :=
  match sc_title d with
  | Some (t, l) =>
      head_word 0 :: text_words t ++ [newline]
      ++ List.concat (map (fun x => [entry_word (fst x) (snd x); newline]) l) ++ [newline]
  | None => []
  end.
Definition body_words (d : script) : list word :=
  List.concat (map (fun x => decor_words (fst x) ++ piece_words (snd x)) (sc_pieces d)).
Definition short_words (d : script) : list word := front_words d ++ removelast (body_words d) ++ [(TEof, [])].
Definition short_written (src : bytes) (d : script) : Prop :=
  tokenised [] src (short_words d)
  /\ Forall (fun c => utf8 (fst c) /\ tokenised [] (fst c) (text_words (snd c) ++ [(TEof, [])])) (cells d).

(** the pieces that may stand last without a blank line: not a list of one item, nor a list
    or description list whose last text is styled *)
Definition lasts (p : piece) : bool :=
  match p with
  | Part Space => false
  | Part (Points _ l) => (2 <=? List.length l) && negb (styled (last l []))
  | Part (Terms l) => negb (styled (snd (last l ([], false, []))))
  | Threaded _ rest =>
      match rev rest with
      | [] => false
      | (_, t, []) :: _ => negb (styled t)
      | _ => true
      end
  | _ => true
  end.
Definition ends_short (d : script) : Prop :=
  sc_last d = None /\ match rev (sc_pieces d) with [] => False | x :: _ => lasts (snd x) = true end.
