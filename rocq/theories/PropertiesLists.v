(** * C19: what lists contain *)
From Verif Require Import Base World Location Token Scanner Meta Inline Block Asg Parser SpecGraph SpecLists ListProofs.
Local Open Scope char_scope.
Local Open Scope nat_scope.

Definition lines (l : list bytes) : bytes := List.concat (map (fun s => s ++ [NL]) l).
Ltac find := repeat first [left; reflexivity | right].
Tactic Notation "top" integer(n) := eexists; split; [find | ]; (do n (eapply within_kid; [find|])); apply within_self.

(** ** C19: in documents without block continuations, includes and table cells, where
    description lists and delimited parent blocks do not occur together and every list
    marker follows a newline token: items occur only in lists, lists hold only items, and
    the items of a list have the markers of its kind.  Missing: the other documents, for
    which it is false (the refutations below are one for each restriction but the includes
    and table cells). *)
Theorem C19_partial : forall w fuel origin resolve src a,
  plain_lists (map ttype (fst (scan_stream src []))) ->
  parse w fuel origin resolve src = Ok a -> lists_proper a.
Proof. exact lists_hold. Qed.
Print Assumptions C19_partial.

Definition nested : bytes :=
  lines [bs "===="; bs "* a"; bs "* b"; bs ". c"; []; bs "text"; []; bs "<1> d"; bs "----"; bs "* x"; bs "----"; bs "===="; []; bs "* e"].
Example C19_example : plain_lists (map ttype (fst (scan_stream nested [])))
  /\ exists a, parse world0 1 [] false nested = Ok a
  /\ map skel_of (a_blocks a) =
       [Node (KParent PExample None)
          [Node (KList LUnordered) [Node (KListItem (bs "*")) []; Node (KListItem (bs "*")) []];
           Node (KList LOrdered) [Node (KListItem (bs ".")) []];
           Node (KLeaf NParagraph) [];
           Node (KList LOrdered) [Node (KListItem (bs "<1>")) []];
           Node (KLeaf NListing) []];
        Node (KList LUnordered) [Node (KListItem (bs "*")) [Node (KLeaf NParagraph) []]]].
Proof.
  split; [apply plain_check_ok; vm_compute; reflexivity|]. eexists. split; vm_compute; reflexivity.
Qed.

(** a paragraph directly inside a list: a continuation of an item after a continuation *)
Theorem C19_list_refuted : exists w fuel origin resolve src a v m k loc c,
  parse w fuel origin resolve src = Ok a /\ block_of a (Blk (HList v) m k loc) /\ In c k
  /\ forall mk p, b_head c <> HListItem mk p.
Proof.
  exists world0, 1, [], false, (lines [bs "* a"; bs "+"; bs "* "; bs "+"; bs "foo"]).
  eexists _, _, _, _, _, _. split; [vm_compute; reflexivity|]. split; [top 0|]. split; [right; right; left; reflexivity|]. discriminate.
Qed.
Print Assumptions C19_list_refuted.

(** a list item directly inside another *)
Theorem C19_item_refuted : exists w fuel origin resolve src a mk p m k loc c mk' p',
  parse w fuel origin resolve src = Ok a /\ block_of a (Blk (HListItem mk p) m k loc) /\ In c k
  /\ b_head c = HListItem mk' p'.
Proof.
  exists world0, 1, [], false, (lines [bs "* a"; bs "+"; bs ". b"]).
  eexists _, _, _, _, _, _, _, _, _. split; [vm_compute; reflexivity|]. split; [top 1|]. split; [right; left; reflexivity|]. reflexivity.
Qed.
Print Assumptions C19_item_refuted.

(** a list item in no list: the marker follows a link that took in the newline *)
Theorem C19_no_list_refuted : exists w fuel origin resolve src a c mk p,
  parse w fuel origin resolve src = Ok a /\ In c (a_blocks a) /\ b_head c = HListItem mk p.
Proof.
  exists world0, 1, [], false, (lines [bs "* a"; bs ".http://x"; bs "* b"]).
  eexists _, _, _, _. split; [vm_compute; reflexivity|]. split; [left; reflexivity|]. reflexivity.
Qed.
Print Assumptions C19_no_list_refuted.

(** a description list in a delimited block: the item lies beside its list *)
Theorem C19_dlist_refuted : exists w fuel origin resolve src a n v d ti m k loc c t p,
  parse w fuel origin resolve src = Ok a /\ block_of a (Blk (HParent n v d ti) m k loc) /\ In c k
  /\ b_head c = HDListItem t p.
Proof.
  exists world0, 1, [], false, (lines [bs "===="; bs "a:: b"; bs "===="]).
  eexists _, _, _, _, _, _, _, _, _, _, _. split; [vm_compute; reflexivity|]. split; [top 0|]. split; [right; left; reflexivity|]. reflexivity.
Qed.
Print Assumptions C19_dlist_refuted.
