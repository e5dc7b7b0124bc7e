(** * C14, C18, C20, C25, C39, C44: every parsed graph *)
From Verif Require Import Base World Location Token Scanner Meta Inline Block Asg Parser SpecScan SpecLoc
  SpecGraph SpecInclude GraphProofs.
Local Open Scope char_scope.
Local Open Scope nat_scope.

Definition lines (l : list bytes) : bytes := List.concat (map (fun s => s ++ [NL]) l).
Ltac find := repeat first [left; reflexivity | right].
(** the first block of the graph, and the first child of a block *)
Tactic Notation "top" integer(n) := eexists; split; [find | ]; (do n (eapply within_kid; [find|])); apply within_self.

(** ** C14 *)
Theorem C14_sections_nest : forall w fuel origin resolve src a,
  parse w fuel origin resolve src = Ok a ->
  forall id title l m k loc, block_of a (Blk (HSection id title l) m k loc) ->
  1 <= l <= 4 /\
  forall id' title' l' m' k' loc', In (Blk (HSection id' title' l') m' k' loc') k -> l < l'.
Proof. exact sections_nest. Qed.
Print Assumptions C14_sections_nest.

Example C14_example : exists a, parse world0 1 [] false (lines [bs "== A"; []; bs "==== B"; []; bs "=== C"]) = Ok a
  /\ exists id title m k loc, block_of a (Blk (HSection id title 1) m k loc)
  /\ map b_head k = [HSection [] [ILit LText false (bs "B") [mkLoc 3 6 []; mkLoc 3 6 []]] 3;
                     HSection [] [ILit LText false (bs "C") [mkLoc 5 5 []; mkLoc 5 5 []]] 2].
Proof.
  eexists. split; [vm_compute; reflexivity|]. do 5 eexists. split; [top 0 | reflexivity].
Qed.

(** ** C18: the first half is proved; the second half, that cells occur only inside
    tables, is false. *)
Theorem C18_tables_cells_partial : forall w fuel origin resolve src a,
  parse w fuel origin resolve src = Ok a ->
  forall v d title m k loc, block_of a (Blk (HParent PTable v d title) m k loc) ->
  Forall (fun c => exists l, b_head c = HCell l) k.
Proof. exact tables_cells. Qed.
Print Assumptions C18_tables_cells_partial.

Example C18_example : exists a,
  parse world0 2 [] false (lines [bs "|==="; bs "|a |b"; bs "|c |d"; bs "|==="]) = Ok a
  /\ exists v d title m k loc, block_of a (Blk (HParent PTable v d title) m k loc) /\ List.length k = 4.
Proof.
  eexists. split; [vm_compute; reflexivity|]. do 6 eexists. split; [top 0 | reflexivity].
Qed.

Theorem C18_cells_refuted : exists w fuel origin resolve src a c,
  parse w fuel origin resolve src = Ok a /\ In c (a_blocks a) /\ exists l, b_head c = HCell l.
Proof.
  exists world0, 1, [], false, (lines [bs "|foo"]). eexists _, _.
  split; [vm_compute; reflexivity|]. split; [left; reflexivity|]. eexists. reflexivity.
Qed.
Print Assumptions C18_cells_refuted.

(** ** C20: at most two entries, always; in order, where no text contains an attribute
    reference.  Missing: documents with attribute references, for which the second half
    is false when a value is empty. *)
Theorem C20_at_most_two_partial : forall w fuel origin resolve src a,
  parse w fuel origin resolve src = Ok a -> forall l, location_of a l -> List.length l <= 2.
Proof. exact locations_two. Qed.
Print Assumptions C20_at_most_two_partial.

Theorem C20_ordered_partial : forall w fuel origin resolve src a,
  ~ occurs (bs "{") src -> (forall path content, w_read w path = Some content -> ~ occurs (bs "{") content) ->
  parse w fuel origin resolve src = Ok a -> forall l, location_of a l -> ordered_span l.
Proof. exact locations_ordered. Qed.
Print Assumptions C20_ordered_partial.

Example C20_example : exists a, parse world0 1 [] false (lines [bs "a *b*"; bs "c"]) = Ok a
  /\ location_of a [mkLoc 1 1 []; mkLoc 2 1 []].
Proof.
  eexists. split; [vm_compute; reflexivity|]. apply lo_graph.
Qed.

Theorem C20_ordered_refuted : exists w fuel origin resolve src a l,
  parse w fuel origin resolve src = Ok a /\ location_of a l /\ ~ ordered_span l.
Proof.
  exists world0, 1, [], false, (lines [bs ":e:"; []; bs "{e}"]). eexists.
  exists [mkLoc 3 1 []; mkLoc 3 0 []].
  split; [vm_compute; reflexivity|]. split.
  - match goal with |- location_of ?a _ => apply (lo_inline a (ILit LText false [] [mkLoc 3 1 []; mkLoc 3 0 []])) end.
    eapply in_block; [top 0 | left; reflexivity | apply iw_self].
  - cbn. unfold not_after, depth. cbn. lia.
Qed.
Print Assumptions C20_ordered_refuted.

(** ** C25: every location carries the chain of include directives to a file that was
    opened, and after the parse the chain is empty again.  Missing: that it is the chain
    of the very file the text came from, which is false in table cells. *)
Theorem C25_chains_partial : forall w fuel origin resolve src a,
  parse w fuel origin resolve src = Ok a ->
  forall l x, location_of a l -> In x l -> exists content, opens w origin src (loc_file x) content.
Proof. exact chains_followed. Qed.
Print Assumptions C25_chains_partial.

Theorem C25_restored_partial : forall w fuel origin resolve src a p,
  parse_with w fuel (scan_stream src []) (new_parser origin resolve) = Ok (a, p) -> p_files p = [].
Proof. exact chain_restored. Qed.
Print Assumptions C25_restored_partial.

Definition two_files : world :=
  disk [(bs "d/a.adoc", lines [bs "x"; []; bs "include::b.adoc[]"]); (bs "d/b.adoc", lines [bs "y"])].
Example C25_example : exists a,
  parse two_files 3 [] false (lines [bs "include::d/a.adoc[]"]) = Ok a
  /\ exists l, location_of a l /\ map loc_file l = [[bs "d/a.adoc"; bs "b.adoc"]; [bs "d/a.adoc"; bs "b.adoc"]].
Proof.
  eexists. split; [vm_compute; reflexivity|]. eexists. split.
  - match goal with |- location_of ?a _ => eapply (lo_block a) end.
    eexists. split; [right; left; reflexivity | apply within_self].
  - reflexivity.
Qed.

(** text of line 2 of an included file, though the main document has one line *)
Theorem C25_cells_refuted : exists w fuel origin resolve src a l x,
  parse w fuel origin resolve src = Ok a /\ location_of a l /\ In x l
  /\ loc_file x = [] /\ loc_line x > List.length (split_on (fun c => Ascii.eqb c NL) src).
Proof.
  exists (disk [(bs "t.adoc", lines [bs "a"; []; bs "|==="; bs "|b"; bs "|==="])]), 2, [], false, (lines [bs "include::t.adoc[]"]).
  eexists. exists [mkLoc 4 2 []; mkLoc 4 2 []]. eexists.
  split; [vm_compute; reflexivity|]. split; [|split; [left; reflexivity|]].
  - match goal with |- location_of ?a _ =>
      apply (lo_inline a (ILit LText false (bs "b") [mkLoc 4 2 []; mkLoc 4 2 []])) end.
    eapply in_block; [eexists; split; [right; left; reflexivity|]; eapply within_kid; [left; reflexivity | apply within_self]
                     | left; reflexivity | apply iw_self].
  - split; [reflexivity | vm_compute; lia].
Qed.
Print Assumptions C25_cells_refuted.

(** ** C39: nothing is left open.  The rest is false: a second parse with the same
    parser can give another graph, and text in front of a comment block is dropped. *)
Theorem C39_nothing_open_partial : forall w fuel s p a p',
  parse_with w fuel s p = Ok (a, p') -> p_bstack p' = [] /\ p_istack p' = [].
Proof. exact nothing_open. Qed.
Print Assumptions C39_nothing_open_partial.

Example C39_example : exists a p',
  parse_with world0 1 (scan_stream (lines [bs "== A"; bs "* b"]) []) (new_parser [] false) = Ok (a, p')
  /\ List.length (a_blocks a) = 1.
Proof. eexists _, _. split; vm_compute; reflexivity. Qed.

Theorem C39_twice_refuted : exists w fuel src p a p' a' p'',
  p = new_parser [] false
  /\ parse_with w fuel (scan_stream src []) p = Ok (a, p')
  /\ parse_with w fuel (scan_stream src []) p' = Ok (a', p'') /\ a <> a'.
Proof.
  exists world0, 1, (lines [bs "=== A"; []; bs ":leveloffset: -1"; []; bs "x"]), (new_parser [] false).
  do 4 eexists. split; [reflexivity|]. split; [vm_compute; reflexivity|]. split; [vm_compute; reflexivity|].
  discriminate.
Qed.
Print Assumptions C39_twice_refuted.

Theorem C39_dropped_refuted : exists src a p',
  parse_with world0 1 (scan_stream (bs "text" ++ [NL] ++ src) []) (new_parser [] false) = Ok (a, p')
  /\ a_blocks a = [].
Proof.
  exists (lines [bs "////"; bs "c"; bs "////"]). eexists _, _. split; [vm_compute; reflexivity | reflexivity].
Qed.
Print Assumptions C39_dropped_refuted.

(** ** C44: the attribute maps of a parsed graph have one value per key *)
Theorem C44_attributes_unique : forall w fuel origin resolve src a,
  parse w fuel origin resolve src = Ok a -> forall m, metadata_of a m -> NoDup (map fst (m_attrs m)).
Proof. exact attrs_nodup. Qed.
Print Assumptions C44_attributes_unique.
Theorem C44_document : forall w fuel origin resolve src a,
  parse w fuel origin resolve src = Ok a -> forall l, a_attrs a = Some l -> NoDup (map fst l).
Proof. exact document_attrs_nodup. Qed.
Print Assumptions C44_document.

Example C44_example : exists a m, parse world0 1 [] false (lines [bs "[a=1,b=2,a=3]"; bs "x"]) = Ok a
  /\ metadata_of a m /\ m_attrs m = [(bs "a", bs "3"); (bs "b", bs "2")].
Proof.
  eexists _, _. split; [vm_compute; reflexivity|]. split; [eapply meta_block; [top 0 | reflexivity] | reflexivity].
Qed.
