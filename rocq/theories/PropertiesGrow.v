(** * C92: what is in the graph stays, and does not matter to what comes *)
From Verif Require Import Base World Location Token Scanner Meta Inline Block Asg Parser SpecScan SpecLex SpecJoin SpecGrow GrowProofs Fixtures.
Local Open Scope char_scope.
Local Open Scope nat_scope.

(** whatever tokens come, from any state of the parser: the blocks in the graph are still there
    afterwards, in the same order and unchanged, save that the last one may have headings added
    at its end *)
Theorem C92_final : forall w fuel ts p p',
  parse_loop w fuel ts p = Ok p' -> later (a_blocks (p_asg p)) (a_blocks (p_asg p')).
Proof. exact loop_later. Qed.
Print Assumptions C92_final.

(** whatever tokens come, from any state of the parser: with another graph, the same happens and
    the same blocks are added, if the two graphs end with blocks no heading goes into *)
Theorem C92_same : forall w fuel ts p a1 a2,
  shut (a_blocks a1) -> shut (a_blocks a2) ->
  same_but (a_blocks a1) (a_blocks a2) (parse_loop w fuel ts (set_asg a1 p)) (parse_loop w fuel ts (set_asg a2 p)).
Proof. exact loop_same. Qed.
Print Assumptions C92_same.

(** for sources: the blocks made of a source that ends a line are blocks of the document,
    whatever is written below *)
Theorem C92_below : forall w fuel origin resolve a ts e b tb p1 g,
  utf8 a -> ends [NL] a -> scan a = Ok (ts ++ [e]) -> no_tags (ts ++ [e]) -> last_not THyperlink ts ->
  utf8 b -> scan b = Ok tb -> no_tags tb ->
  parse_loop w fuel ts (new_parser origin resolve) = Ok p1 -> parse w fuel origin resolve (a ++ b) = Ok g ->
  later (map unref (a_blocks (p_asg p1))) (map unref (a_blocks g)).
Proof. exact below_later. Qed.
Print Assumptions C92_below.

(** and what is written below two sources of as many lines stands for the same blocks, or fails
    in the same way, if the two leave the parser in the same state but for the graph *)
Theorem C92_above : forall w fuel origin resolve a1 ts1 e1 p1 a2 ts2 e2 p2 b tb,
  utf8 a1 -> ends [NL] a1 -> scan a1 = Ok (ts1 ++ [e1]) -> no_tags (ts1 ++ [e1]) -> last_is TNewLineChar ts1 ->
  utf8 a2 -> ends [NL] a2 -> scan a2 = Ok (ts2 ++ [e2]) -> no_tags (ts2 ++ [e2]) -> last_is TNewLineChar ts2 ->
  newlines ts1 = newlines ts2 ->
  parse_loop w fuel ts1 (new_parser origin resolve) = Ok p1 -> parse_loop w fuel ts2 (new_parser origin resolve) = Ok p2 ->
  set_asg new_asg p1 = set_asg new_asg p2 -> shut (a_blocks (p_asg p1)) -> shut (a_blocks (p_asg p2)) ->
  utf8 b -> scan b = Ok tb -> no_tags tb ->
  same_text (map unref (a_blocks (p_asg p1))) (map unref (a_blocks (p_asg p2)))
    (parse w fuel origin resolve (a1 ++ b)) (parse w fuel origin resolve (a2 ++ b)).
Proof. exact below_same. Qed.
Print Assumptions C92_above.

(** in particular: below a source after which nothing is open, waiting or defined, a text stands
    for what it stands for below as many blank lines *)
Theorem C92_apart : forall w fuel origin resolve a ts e p1 b tb,
  utf8 a -> ends [NL] a -> scan a = Ok (ts ++ [e]) -> no_tags (ts ++ [e]) -> last_is TNewLineChar ts ->
  parse_loop w fuel ts (new_parser origin resolve) = Ok p1 -> idle origin resolve p1 -> shut (a_blocks (p_asg p1)) ->
  utf8 b -> scan b = Ok tb -> no_tags tb ->
  same_text (map unref (a_blocks (p_asg p1))) []
    (parse w fuel origin resolve (a ++ b)) (parse w fuel origin resolve (repeat NL (newlines ts) ++ b)).
Proof. exact below_blank. Qed.
Print Assumptions C92_apart.

Definition kids_of (b : block) : nat := match b with Blk _ _ k _ => List.length k end.
(** a paragraph and two headings, of which the second is still open; below, a third heading:
    the paragraph stays and the section has two sections in it *)
Definition C92_first : bytes := bs "Aa *b* <<x>>

== B

=== C

".
Definition C92_second : bytes := bs "=== D

[[x]]
d
".
Example C92_example : exists ts e tb p1 g,
  scan C92_first = Ok (ts ++ [e]) /\ no_tags (ts ++ [e]) /\ last_not THyperlink ts
  /\ scan C92_second = Ok tb /\ no_tags tb
  /\ parse_loop fixture_world 0 ts (new_parser [] false) = Ok p1
  /\ parse fixture_world 0 [] false (C92_first ++ C92_second) = Ok g
  /\ map kids_of (a_blocks (p_asg p1)) = [0; 0] /\ map kids_of (a_blocks g) = [0; 2]
  /\ removelast (map unref (a_blocks (p_asg p1))) = removelast (map unref (a_blocks g))
  /\ removelast (map unref (a_blocks (p_asg p1))) <> [].
Proof.
  eexists [_; _; _; _; _; _; _; _; _; _; _; _; _; _; _; _], _, _, _, _.
  split; [vm_compute; reflexivity|]. split; [repeat constructor; intros [K|K]; discriminate|].
  split; [intros p t E; apply (f_equal (fun l => ttype (last l (mkTok TEof [] None 0 0 0 [])))) in E; rewrite last_last in E; cbn [last ttype] in E; rewrite <- E; discriminate|].
  split; [vm_compute; reflexivity|]. split; [repeat constructor; intros [K|K]; discriminate|].
  split; [vm_compute; reflexivity|]. split; [vm_compute; reflexivity|].
  split; [reflexivity|]. split; [reflexivity|]. split; [reflexivity | discriminate].
Qed.

(** two paragraphs, or a list of two items: what comes below makes the same blocks *)
Definition C92_paragraphs : bytes := bs "Aa

Bb

".
Definition C92_list : bytes := bs "* Aa
* Bb


".
Definition C92_rest : bytes := bs "== D

* f
g
".
Example C92_above_example : exists ts1 e1 p1 ts2 e2 p2 tb g1 g2,
  scan C92_paragraphs = Ok (ts1 ++ [e1]) /\ scan C92_list = Ok (ts2 ++ [e2]) /\ scan C92_rest = Ok tb
  /\ last_is TNewLineChar ts1 /\ last_is TNewLineChar ts2 /\ newlines ts1 = newlines ts2
  /\ no_tags (ts1 ++ [e1]) /\ no_tags (ts2 ++ [e2]) /\ no_tags tb
  /\ parse_loop fixture_world 0 ts1 (new_parser [] false) = Ok p1 /\ parse_loop fixture_world 0 ts2 (new_parser [] false) = Ok p2
  /\ set_asg new_asg p1 = set_asg new_asg p2 /\ shut (a_blocks (p_asg p1)) /\ shut (a_blocks (p_asg p2))
  /\ parse fixture_world 0 [] false (C92_paragraphs ++ C92_rest) = Ok g1 /\ parse fixture_world 0 [] false (C92_list ++ C92_rest) = Ok g2
  /\ map kids_of (a_blocks g1) = [0; 0; 1] /\ map kids_of (a_blocks g2) = [2; 1]
  /\ last (a_blocks g1) (Blk HDList None [] []) = last (a_blocks g2) (Blk HDList None [] []).
Proof.
  assert (forall x l d, ~ roomy (b_head (last l d)) -> l = x -> shut l) as Sh.
  { intros _ l d H _ k y ->. now rewrite last_last in H. }
  eexists [_; _; _; _; _; _], _, _, [_; _; _; _; _; _; _; _], _, _, _, _, _.
  split; [vm_compute; reflexivity|]. split; [vm_compute; reflexivity|]. split; [vm_compute; reflexivity|].
  split; [eexists [_; _; _; _; _], _; split; reflexivity|]. split; [eexists [_; _; _; _; _; _; _], _; split; reflexivity|]. split; [reflexivity|].
  split; [repeat constructor; intros [K|K]; discriminate|]. split; [repeat constructor; intros [K|K]; discriminate|]. split; [repeat constructor; intros [K|K]; discriminate|].
  split; [vm_compute; reflexivity|]. split; [vm_compute; reflexivity|]. split; [reflexivity|].
  split; [eapply (Sh _ _ (Blk HDList None [] [])); [exact (fun x => x) | reflexivity]|].
  split; [eapply (Sh _ _ (Blk HDList None [] [])); [exact (fun x => x) | reflexivity]|].
  split; [vm_compute; reflexivity|]. split; [vm_compute; reflexivity|]. repeat split.
Qed.

(** the list, and the same number of blank lines *)
Example C92_apart_example : exists ts e p1 g1 g2,
  scan C92_list = Ok (ts ++ [e]) /\ no_tags (ts ++ [e]) /\ last_is TNewLineChar ts /\ newlines ts = 4
  /\ parse_loop fixture_world 0 ts (new_parser [] false) = Ok p1 /\ idle [] false p1
  /\ parse fixture_world 0 [] false (C92_list ++ C92_rest) = Ok g1 /\ parse fixture_world 0 [] false (repeat NL 4 ++ C92_rest) = Ok g2
  /\ a_blocks g1 = a_blocks (p_asg p1) ++ a_blocks g2 /\ map kids_of (a_blocks (p_asg p1)) = [2] /\ map kids_of (a_blocks g2) = [1].
Proof.
  eexists [_; _; _; _; _; _; _; _], _, _, _, _.
  split; [vm_compute; reflexivity|]. split; [repeat constructor; intros [K|K]; discriminate|].
  split; [eexists [_; _; _; _; _; _; _], _; split; reflexivity|]. split; [reflexivity|].
  split; [vm_compute; reflexivity|]. split; [repeat split|].
  split; [vm_compute; reflexivity|]. split; [vm_compute; reflexivity|]. repeat split.
Qed.

(** with a graph that ends with a section it is not so: a heading goes into it *)
Theorem C92_any_graph_refuted : exists w fuel ts p a1 a2,
  ~ same_but (a_blocks a1) (a_blocks a2) (parse_loop w fuel ts (set_asg a1 p)) (parse_loop w fuel ts (set_asg a2 p)).
Proof.
  exists fixture_world, 0, (match scan (bs "=== D

== E
") with Ok l => l | _ => [] end), (new_parser [] false), new_asg, (mkAsg None None [] [] [Blk (HSection [] [] 1) None [] []] []).
  vm_compute. intros (_ & new & _ & K). discriminate.
Qed.
Print Assumptions C92_any_graph_refuted.
(** and with a graph that ends with a table the heading is an error *)
Theorem C92_after_table_refuted : exists w fuel ts p a1 a2 p1 e,
  parse_loop w fuel ts (set_asg a1 p) = Ok p1 /\ parse_loop w fuel ts (set_asg a2 p) = Err e.
Proof.
  exists fixture_world, 0, (match scan (bs "== D

== E
") with Ok l => l | _ => [] end), (new_parser [] false), new_asg, (mkAsg None None [] [] [Blk (HParent PTable None [] []) None [] []] []).
  eexists _, _. split; vm_compute; reflexivity.
Qed.
Print Assumptions C92_after_table_refuted.
