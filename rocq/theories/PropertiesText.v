(** * C30, C31: footnote numbers and word counts *)
From Verif Require Import Base World Location Token Scanner Meta Inline Block Asg Parser
  SpecText SpecDocx SpecXref SpecNotes SpecWords NoteProofs WordProofs.
Local Open Scope char_scope.
Local Open Scope nat_scope.
Definition lines (l : list bytes) : bytes := List.concat (map (fun s => s ++ [NL]) l).

(** ** C30: false as stated.  True when no footnote stands before a section, list or delimited
    block with footnotes in it.  Missing: those, and footnotes in titles and terms (they stay
    where they are). *)
Theorem C30_partial : forall a a', standardize_footnotes a = Ok a' -> first_notes (document a) ->
  (forall b n f d l, In b (document a) -> b_head b = HLeaf n f d l -> b_kids b = []) ->
  exists bl defs m loc, a_blocks a' = bl ++ [Blk (HParent PFootnotes None [] []) m defs loc]
    /\ numbered (a_docid a) 0 (texts_of (document a)) (texts_of (List.concat (map in_order bl))) defs
    /\ List.length defs = notes (texts_of (document a))
    /\ forall i j d d' id, nth_error defs i = Some d -> nth_error defs j = Some d' -> has_id d id -> has_id d' id -> i = j.
Proof. exact footnotes_numbered. Qed.
Print Assumptions C30_partial.

Definition notes_src : bytes := lines [bs "a footnote:[*x* y] b"; []; bs "c footnote:[z]"].
Example C30_example : exists a a' bl d d' m loc, parse world0 0 [] false notes_src = Ok a /\ standardize_footnotes a = Ok a'
  /\ first_notes (document a) /\ (forall b n f d l, In b (document a) -> b_head b = HLeaf n f d l -> b_kids b = [])
  /\ a_blocks a' = bl ++ [Blk (HParent PFootnotes None [] []) m [d; d'] loc]
  /\ has_id d (bs "_footnotedef_1") /\ has_id d' (bs "_footnotedef_2").
Proof.
  destruct (parse world0 0 [] false notes_src) as [a| | | |] eqn:P; vm_compute in P; try discriminate P. injection P as <-.
  do 7 eexists. split; [reflexivity|]. split; [vm_compute; reflexivity|]. split.
  { intros pre d post H N. exfalso. assert (In d (pre ++ d :: post)) as I by (apply in_or_app; right; left; reflexivity). rewrite <- H in I.
    vm_compute in I. destruct I as [<-|[<-|[]]]; eapply N; reflexivity. }
  split. { intros b n f d l I _. vm_compute in I. destruct I as [<-|[<-|[]]]; reflexivity. }
  split. { match goal with |- ?l = _ => let l' := eval vm_compute in l in change l with l' end. match goal with |- [?x; ?y; ?z] = _ => apply (eq_refl : [x; y; z] = [x; y] ++ [z]) end. }
  split; eexists; split; vm_compute; reflexivity.
Qed.

(** two definitions with the same number *)
Theorem C30_refuted : exists src a a' bl d d' m loc id, parse world0 0 [] false src = Ok a /\ standardize_footnotes a = Ok a'
  /\ a_blocks a' = bl ++ [Blk (HParent PFootnotes None [] []) m [d; d'] loc] /\ has_id d id /\ has_id d' id.
Proof.
  exists (lines [bs "a footnote:[x]"; []; bs "* b footnote:[y]"]). do 8 eexists. split; [vm_compute; reflexivity|]. split; [vm_compute; reflexivity|].
  split. { match goal with |- ?l = _ => let l' := eval vm_compute in l in change l with l' end. match goal with |- [?x; ?y; ?z] = _ => apply (eq_refl : [x; y; z] = [x; y] ++ [z]) end. }
  split; eexists; split; vm_compute; reflexivity.
Qed.
Print Assumptions C30_refuted.
(** a footnote in a section title stays a footnote, thematic breaks are not handled at all *)
Theorem C30_title_refuted : exists src a a' d m loc, parse world0 0 [] false src = Ok a /\ standardize_footnotes a = Ok a'
  /\ a_blocks a' = [d; Blk (HParent PFootnotes None [] []) m [] loc] /\ exists i, In i (match b_head d with HSection _ t _ => t | _ => [] end) /\ is_note i = true.
Proof.
  exists (lines [bs "== Title footnote:[x]"]). do 5 eexists. split; [vm_compute; reflexivity|]. split; [vm_compute; reflexivity|].
  split; [vm_compute; reflexivity|]. eexists. split; [vm_compute; right; left; reflexivity|reflexivity].
Qed.
Print Assumptions C30_title_refuted.
Theorem C30_break_refuted : exists src a, parse world0 0 [] false src = Ok a /\ standardize_footnotes a = Panic.
Proof. exists (lines [bs "a"; []; [chr 39; chr 39; chr 39]]). eexists. split; vm_compute; reflexivity. Qed.
Print Assumptions C30_break_refuted.

(** ** C31: false as stated.  The count is the number of words of the texts run together:
    wherever a text ends and the next begins without whitespace two words count as one, and
    titles of delimited blocks and terms of description lists are not counted. *)
Theorem C31_exact : forall a, Forall starts_char (List.concat (map counted (a_blocks a))) ->
  word_count a + glued false (List.concat (map counted (a_blocks a))) = total (map words_in (List.concat (map counted (a_blocks a)))).
Proof. exact count_exact. Qed.
Print Assumptions C31_exact.
Theorem C31_partial : forall a, Forall no_dropped (a_blocks a) -> Forall starts_char (List.concat (map texts (a_blocks a))) ->
  separated (List.concat (map texts (a_blocks a))) -> word_count a = total (map words_in (List.concat (map texts (a_blocks a)))).
Proof. exact count_separated. Qed.
Print Assumptions C31_partial.

Definition words_src : bytes := lines [bs "== One two"; []; bs "* three *four* five"; bs "* six"; []; bs "seven eight"].
Example C31_exact_example : exists a, parse world0 0 [] false words_src = Ok a /\ Forall starts_char (List.concat (map counted (a_blocks a)))
  /\ word_count a = 5 /\ glued false (List.concat (map counted (a_blocks a))) = 3 /\ total (map words_in (List.concat (map counted (a_blocks a)))) = 8.
Proof.
  eexists. split; [vm_compute; reflexivity|]. split; [vm_compute; repeat constructor|]. split; [|split]; vm_compute; reflexivity.
Qed.
Example C31_example : exists a, parse world0 0 [] false (lines [bs "one *two* three `four`"]) = Ok a
  /\ Forall no_dropped (a_blocks a) /\ Forall starts_char (List.concat (map texts (a_blocks a)))
  /\ separated (List.concat (map texts (a_blocks a))) /\ total (map words_in (List.concat (map texts (a_blocks a)))) = 4.
Proof.
  eexists. split; [vm_compute; reflexivity|]. split; [|split; [vm_compute; repeat constructor|split; vm_compute; reflexivity]].
  constructor; [|constructor]. constructor; [exact I|constructor].
Qed.
(** one word each in two paragraphs: one word *)
Theorem C31_refuted : exists src a, parse world0 0 [] false src = Ok a /\ word_count a = 1
  /\ List.concat (map texts (a_blocks a)) = [bs "a"; bs "b"].
Proof. exists (lines [bs "a"; []; bs "b"]). eexists. split; [|split]; vm_compute; reflexivity. Qed.
Print Assumptions C31_refuted.
(** the term is not counted *)
Theorem C31_term_refuted : exists src a, parse world0 0 [] false src = Ok a /\ word_count a = 1
  /\ List.concat (map texts (a_blocks a)) = [bs "term"; bs "text"].
Proof. exists (lines [bs "term:: text"]). eexists. split; [|split]; vm_compute; reflexivity. Qed.
Print Assumptions C31_term_refuted.
