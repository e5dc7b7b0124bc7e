(** * C79: include directives in listings *)
From Verif Require Import Base World Location Token Scanner Meta Inline Block Asg Parser SpecScan SpecVerbatim SpecInclude SpecSelect SpecListing
  VerbatimProofs ListingProofs.
Local Open Scope char_scope.
Local Open Scope nat_scope.
Definition lines (l : list bytes) : bytes := List.concat (map (fun s => s ++ [NL]) l).

(** ** C79: false as stated (see the refutations below).  In every document that is one listing,
    and at every place of a document where a block can start, each directive stands for the
    tokens it takes of its file.  Missing: callouts next to directives, listings in
    continuations, and directives in other verbatim blocks, which are text. *)
Theorem C79_document_partial : forall w fuel origin resolve src op ts cl nl eof l, fuel <> 0 ->
  scan src = Ok (op :: ts ++ [cl; nl; eof]) -> ttype op = TSourceBlock -> ttype cl = TSourceBlock ->
  quoted w origin [] ts l -> ttype nl = TNewLineChar -> ttype eof = TEof ->
  exists a ils loc, parse w fuel origin resolve src = Ok a /\ holds l ils
    /\ a_blocks a = [Blk (HLeaf NListing FmDelimited (Some (token_text op)) ils) None [] loc].
Proof. exact listing_document. Qed.
Print Assumptions C79_document_partial.

Theorem C79_block_partial : forall w fuel op ts cl l p, fuel <> 0 -> ttype op = TSourceBlock -> ttype cl = TSourceBlock ->
  quoted w (p_origin p) (p_files p) ts l -> between_blocks p ->
  exists ils loc m, holds l ils /\ (p_meta p = None -> m = None) /\ parse_loop w fuel (op :: ts ++ [cl]) p
    = Ok (set_last TSourceBlock (set_force_new false (set_meta None
            (set_bstack (Blk (HLeaf NListing FmDelimited (Some (token_text op)) ils) m [] loc :: p_bstack p) p)))).
Proof. exact listing_block. Qed.
Print Assumptions C79_block_partial.

(** a file without tag directives is taken in byte for byte, if it is a file of AsciiDoc or has
    nothing that the scanner takes for a reference to a character or a quotation mark *)
Theorem C79_file_partial : forall content files ts target, scan_with content files = Ok ts -> no_tags ts ->
  is_adoc target = true \/ Forall unreplaced ts -> included target ts = content.
Proof. exact file_text. Qed.
Print Assumptions C79_file_partial.

Definition code (name : bytes) (content : bytes) : world := disk [(name, content)].
Definition listing (dir : bytes) : bytes := lines [bs "----"; bs "on"; dir; bs "by"; bs "----"].
Example C79_example : exists op ts cl nl eof, scan (listing (bs "include::f.rs[]")) = Ok (op :: ts ++ [cl; nl; eof])
  /\ ttype op = TSourceBlock /\ ttype cl = TSourceBlock /\ ttype nl = TNewLineChar /\ ttype eof = TEof
  /\ quoted (code (bs "f.rs") (lines [bs "a *b* <1>"; bs "----"; bs "|==="; bs "{c}"])) [] [] ts
       [[NL] ++ lines [bs "on"; bs "a *b* <1>"; bs "----"; bs "|==="; bs "{c}"]; [NL] ++ lines [bs "by"]].
Proof.
  remember (scan (listing (bs "include::f.rs[]"))) as r eqn:E. vm_compute in E.
  match type of E with r = Ok (?a :: ?l) =>
    let n := eval vm_compute in (List.length l - 3) in
    let ts := eval vm_compute in (firstn n l) in
    match eval vm_compute in (skipn n l) with [?c; ?x; ?y] => exists a, ts, c, x, y end end.
  subst r. split; [reflexivity|]. do 4 (split; [reflexivity|]).
  match goal with |- quoted _ _ _ ?ts [?s1; ?s2] =>
    let n := eval vm_compute in (List.length (fst (fold_left (fun p t => match p with (pre, true) => (pre, true) | (pre, false) => if tt_eqb (ttype t) TInclude then (pre, true) else (pre ++ [t], false) end) ts (([] : list token), false)))) in
    let a := eval vm_compute in (firstn n ts) in
    match eval vm_compute in (skipn n ts) with ?t :: ?b =>
      change ts with (a ++ t :: b);
      let fts := eval vm_compute in (match scan_with (lines [bs "a *b* <1>"; bs "----"; bs "|==="; bs "{c}"]) [bs "f.rs"] with Ok x => x | _ => [] end) in
      replace s1 with (source_text a ++ included (bs "f.rs") fts) by (vm_compute; reflexivity);
      replace [s2] with [source_text b] by (vm_compute; reflexivity);
      apply (quoted_file _ _ _ a t (bs "f.rs") fts b) end end.
  - discriminate.
  - repeat (apply Forall_cons; [split; [discriminate|intros _; split; discriminate]|]); apply Forall_nil.
  - reflexivity.
  - eapply fetches_all; vm_compute; reflexivity.
  - discriminate.
  - constructor; [discriminate|]. repeat (apply Forall_cons; [split; [discriminate|intros _; split; discriminate]|]); apply Forall_nil.
Qed.
Example C79_file_example : exists ts, scan_with (lines [bs "a *b* <1>"; bs "----"; bs "|==="; bs "{c}"]) [] = Ok ts /\ no_tags ts /\ Forall unreplaced ts.
Proof.
  eexists. split; [vm_compute; reflexivity|]. split.
  - repeat (apply Forall_cons; [intros [K|K]; discriminate K|]); apply Forall_nil.
  - repeat (apply Forall_cons; [intros K; cbn in K; repeat (destruct K as [K|K]; [discriminate K|]); exact K|]); apply Forall_nil.
Qed.

(** an arrow in a file of code becomes a reference to a character *)
Theorem C79_arrow_refuted : exists a loc1 loc2 loc, parse (code (bs "f.rs") (bs "a -> b")) 1 [] false (listing (bs "include::f.rs[]")) = Ok a
  /\ a_blocks a = [Blk (HLeaf NListing FmDelimited (Some (bs "----"))
       [ILit LText false ([NL] ++ lines [bs "on"] ++ bs "a &#8594; b") loc1; ILit LText false ([NL] ++ lines [bs "by"]) loc2]) None [] loc].
Proof. do 4 eexists. split; [vm_compute; reflexivity|vm_compute; reflexivity]. Qed.
Print Assumptions C79_arrow_refuted.
(** the line break at the end of the file stands besides the one at the end of the directive *)
Theorem C79_blank_refuted : exists a loc1 loc2 loc, parse (code (bs "f.rs") (lines [bs "a"])) 1 [] false (listing (bs "include::f.rs[]")) = Ok a
  /\ a_blocks a = [Blk (HLeaf NListing FmDelimited (Some (bs "----"))
       [ILit LText false ([NL] ++ lines [bs "on"; bs "a"]) loc1; ILit LText false ([NL] ++ lines [bs "by"]) loc2]) None [] loc].
Proof. do 4 eexists. split; [vm_compute; reflexivity|vm_compute; reflexivity]. Qed.
Print Assumptions C79_blank_refuted.
(** a tag directive in the file is shown, and the next line is joined to it *)
Theorem C79_tag_refuted : exists a loc1 loc2 loc, parse (code (bs "f.rs") (lines [bs "// tag::x[]"; bs "a"])) 1 [] false (listing (bs "include::f.rs[]")) = Ok a
  /\ a_blocks a = [Blk (HLeaf NListing FmDelimited (Some (bs "----"))
       [ILit LText false ([NL] ++ lines [bs "on"; bs "// tag::x[]a"]) loc1; ILit LText false ([NL] ++ lines [bs "by"]) loc2]) None [] loc].
Proof. do 4 eexists. split; [vm_compute; reflexivity|vm_compute; reflexivity]. Qed.
Print Assumptions C79_tag_refuted.
(** a fence in a file of AsciiDoc ends the listing, and the rest of the file comes second *)
Theorem C79_fence_refuted : exists a loc1 loc2 loc3 loc4 loc5, parse (code (bs "f.adoc") (lines [bs "a"; bs "----"; bs "b"])) 1 [] false (listing (bs "include::f.adoc[]")) = Ok a
  /\ a_blocks a = [Blk (HLeaf NListing FmDelimited (Some (bs "----")) [ILit LText false ([NL] ++ lines [bs "by"; []]) loc3]) None [] loc4;
       Blk (HLeaf NListing FmDelimited (Some (bs "----")) [ILit LText false ([NL] ++ lines [bs "on"; bs "a"]) loc1; ILit LText false (NL :: bs "b") loc2]) None [] loc5].
Proof. do 6 eexists. split; [vm_compute; reflexivity|]. vm_compute. reflexivity. Qed.
Print Assumptions C79_fence_refuted.
