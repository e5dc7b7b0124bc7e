(** * C11, C17: simple documents *)
From Verif Require Import Base World Location Token Scanner Meta Inline Block Asg Parser SpecScan SpecDoc
  ScanFail2 DocGraph.
Local Open Scope char_scope.
Local Open Scope nat_scope.

Ltac utf8_ascii := repeat (apply utf8_1; [vm_compute; split; discriminate|]); apply utf8_nil.
Ltac plain_line := split; [utf8_ascii | apply not_occurs_by; vm_compute; reflexivity].
Ltac start_line := repeat (apply Forall_cons; [intros (? & K); discriminate K|]); apply Forall_nil.

(** ** C11: paragraphs separated by a blank line; and any list of lines, each blank or
    plain, where several blank lines separate as well as one *)
Theorem C11_paragraphs : forall w fuel origin resolve ps, ps <> [] ->
  Forall (fun p => p <> [] /\ Forall (fun l => l <> [] /\ plain l /\ plain_start l) p) ps ->
  exists a, parse w fuel origin resolve (joined (separated ps)) = Ok a
    /\ a_blocks a = map (fun x => plain_paragraph (fst x) (snd x)) (numbered 1 ps).
Proof. exact plain_paragraphs_parsed. Qed.
Print Assumptions C11_paragraphs.

Theorem C11_lines : forall w fuel origin resolve lines, lines <> [] ->
  Forall (fun l => plain l /\ plain_start l) lines ->
  exists a, parse w fuel origin resolve (joined lines) = Ok a
    /\ a_blocks a = map (fun x => plain_paragraph (fst x) (snd x)) (runs_of 1 [] lines)
    /\ a_header a = None /\ a_attrs a = None /\ a_ids a = [].
Proof. exact plain_parsed. Qed.
Print Assumptions C11_lines.

Definition example_lines : list bytes :=
  [bs "It was (or: seemed) a dark night;"; bs "the rain fell, 100% of it - in torrents."; []; [];
   bs "Except at ""occasional"" intervals = 0/1."].
Example C11_example :
  Forall (fun l => plain l /\ plain_start l) example_lines
  /\ map (fun x => plain_paragraph (fst x) (snd x)) (runs_of 1 [] example_lines)
     = [let loc := [mkLoc 1 1 []; mkLoc 2 40 []] in
        Blk (HLeaf NParagraph FmParagraph None
          [ILit LText false (bs "It was (or: seemed) a dark night;" ++ NL :: bs "the rain fell, 100% of it - in torrents.") loc]) None [] loc;
        let loc := [mkLoc 5 1 []; mkLoc 5 39 []] in
        Blk (HLeaf NParagraph FmParagraph None
          [ILit LText false (bs "Except at ""occasional"" intervals = 0/1.") loc]) None [] loc].
Proof.
  split; [|reflexivity].
  repeat (apply Forall_cons; [split; [plain_line|start_line]|]). apply Forall_nil.
Qed.

(** ** C17: refuted for values that contain a colon, and for a value equal to the name;
    true of the documents of [SpecDoc.v], at every position of a paragraph.  Missing:
    references inside other blocks and inside spans. *)
Theorem C17_substitution_refuted : exists name value text a loc loc', text <> value
  /\ parse world0 1 [] false (":" :: name ++ bs ": " ++ value ++ [NL; NL] ++ "{" :: name ++ bs "}" ++ [NL]) = Ok a
  /\ a_blocks a = [Blk (HLeaf NParagraph FmParagraph None [ILit LText false text loc]) None [] loc'].
Proof.
  exists (bs "url"), (bs "https://example.com"), (bs "//example.com"). do 3 eexists.
  split; [discriminate|]. split; vm_compute; reflexivity.
Qed.
Print Assumptions C17_substitution_refuted.

Theorem C17_same_as_name_refuted : exists name text a loc loc', text <> name
  /\ parse world0 1 [] false (":" :: name ++ bs ": " ++ name ++ [NL; NL] ++ "{" :: name ++ bs "}" ++ [NL]) = Ok a
  /\ a_blocks a = [Blk (HLeaf NParagraph FmParagraph None [ILit LText false text loc]) None [] loc'].
Proof.
  exists (bs "draft"), []. do 3 eexists. split; [discriminate|]. split; vm_compute; reflexivity.
Qed.
Print Assumptions C17_same_as_name_refuted.

Theorem C17_substitution_partial : forall w fuel origin resolve ls fin,
  Forall simple_line ls -> plain fin -> plain_start fin ->
  exists a, parse w fuel origin resolve (source ls ++ fin) = Ok a
    /\ Forall2 paragraph_text (a_blocks a) (paragraphs no_env None false (ls ++ fin_line fin))
    /\ a_header a = None.
Proof. exact paragraphs_parsed. Qed.
Print Assumptions C17_substitution_partial.

Definition example_doc : list line :=
  [Entry (bs "name") (bs "Ann B"); Blank;
   Words (bs "Dear ") [(bs "name", bs " of "); (bs "city", bs ",")];
   Words [] [(bs "name", [])]; Blank;
   Entry (bs "name") []; Blank; Words (bs "(") [(bs "name", bs ")")]].
Example C17_example :
  paragraphs no_env None false example_doc
    = [bs "Dear Ann B of {city}," ++ NL :: bs "Ann B"; bs "()"]
  /\ Forall simple_line example_doc.
Proof.
  split; [reflexivity|]. unfold example_doc.
  assert (forall n, forallb (fun c => is_ascii_alnum c || Ascii.eqb c "-") n = true -> Forall name_char n) as N.
  { intros n H. rewrite forallb_forall in H. apply Forall_forall. intros x K. apply H in K. apply orb_prop in K as [K|K]; [now left|].
    right. now apply Ascii.eqb_eq in K. }
  repeat match goal with
  | |- Forall simple_line [] => apply Forall_nil
  | |- Forall simple_line (Blank :: _) => apply Forall_cons; [exact I|]
  | |- Forall simple_line (Words _ _ :: _) => apply Forall_cons;
      [split; [discriminate|split; [plain_line|split; [start_line|
         repeat (apply Forall_cons; [split; [apply N; reflexivity|plain_line]|]); apply Forall_nil]]]|]
  | |- Forall simple_line (Entry _ ?v :: _) => apply Forall_cons;
      [split; [apply N; reflexivity|split; [discriminate|split; [discriminate|split; [utf8_ascii|
        split; [cbn; intuition discriminate|split; [cbn; intuition discriminate|]]]]]]|]
  end.
  - split; right; [exists "A", (bs "nn B")|exists "B", (bs "Ann ")]; (split; [reflexivity|split; vm_compute; discriminate]).
  - split; now left.
Qed.
