(** * C90: documents without a blank line after the last block *)
From Verif Require Import Fixtures Base World Location Token Scanner Meta Inline Block Asg Html Parser SpecScan SpecLex SpecDoc SpecArticle
  ScriptCheck EndProofs EndHtml SpecScript SpecScriptHtml SpecEnd.
Local Open Scope nat_scope.

(** false as stated.  True unless the last block is a list of one item, or a list or description
    list whose last text is styled *)
Theorem C90_blocks_partial : forall w fuel origin resolve src d, utf8 src -> script_ok d -> ends_short d ->
  (resolve = true -> Forall (fun t => w_canon w (path_join origin t) <> None) (pictures d)) ->
  (cells d = [] \/ 0 < fuel) -> short_written src d ->
  exists g, parse w fuel origin resolve src = Ok g
    /\ map unplaced (a_blocks g) = script_blocks d
    /\ option_map (fun h => map unplaced_inline (hd_title h)) (a_header g) = script_title d.
Proof. exact short_graph. Qed.
Print Assumptions C90_blocks_partial.

Theorem C90_html_partial : forall w fuel origin resolve src d, utf8 src -> script_ok d -> ends_short d -> forallb tables_fit (script_blocks d) = true ->
  (resolve = true -> Forall (fun t => w_canon w (path_join origin t) <> None) (pictures d)) ->
  (cells d = [] \/ 0 < fuel) -> short_written src d ->
  exists g, parse w fuel origin resolve src = Ok g /\ render_htmlbook w g = Ok (script_html d).
Proof. exact short_shown. Qed.
Print Assumptions C90_html_partial.

(** with and without the blank line *)
Theorem C90_same_partial : forall w fuel origin resolve src src' d, utf8 src -> utf8 src' -> script_ok d -> ends_short d ->
  (resolve = true -> Forall (fun t => w_canon w (path_join origin t) <> None) (pictures d)) ->
  (cells d = [] \/ 0 < fuel) -> short_written src d -> written src' d ->
  exists g g', parse w fuel origin resolve src = Ok g /\ parse w fuel origin resolve src' = Ok g'
    /\ map unplaced (a_blocks g) = map unplaced (a_blocks g')
    /\ option_map (fun h => map unplaced_inline (hd_title h)) (a_header g) = option_map (fun h => map unplaced_inline (hd_title h)) (a_header g').
Proof. exact short_same. Qed.
Print Assumptions C90_same_partial.

(** documents that end with a list, a description list, a heading, a table and an admonition *)
Local Notation say s := (Bit (Said (bs s%string))).
Local Notation txt s := (ILit LText false (bs s%string) []).
Local Notation par l := (Blk (HLeaf NParagraph FmParagraph None l) None [] []).
Local Notation item s k := (Blk (HListItem (bs "*") [txt s]) None k []).
Definition C90_script (x : list decor * piece) : script := mkScript (Some ([say "Un"], []))
  [([], Head 1 [say "Run"]); ([], Part (Text [say "Go"])); x] None.
Definition C90_start : bytes := bs "= Un

== Run

Go

".
Definition C90_list : list decor * piece := ([Fields false [Roles [bs "red"]]],
  Threaded (Star, [say "a"]) [(Star, [say "b"], [Bound None Example [] [say "on"]])]).
Definition C90_list_source : bytes := C90_start ++ bs "[role=red]
* a
* b
+
====
on
====
".
Example C90_list_words : utf8 C90_list_source /\ short_written C90_list_source (C90_script C90_list) /\ script_ok (C90_script C90_list) /\ ends_short (C90_script C90_list).
Proof.
  destruct (short_writtenb_ok C90_list_source (C90_script C90_list)) as [H1 H2]; [vm_compute; reflexivity|]. split; [exact H1|]. split; [exact H2|].
  split; [apply script_okb_ok; vm_compute; reflexivity|split; reflexivity].
Qed.
Example C90_list_example : exists g, parse fixture_world 1 [] false C90_list_source = Ok g
  /\ map unplaced (a_blocks g) =
     [Blk (HSection [] [txt "Run"] 1) None
        [par [txt "Go"];
         Blk (HList LUnordered) (Some (mkMeta [] [] [bs "red"] false None []))
           [item "a" []; item "b" [Blk (HParent PExample None (bs "====") []) None [par [txt "on"]] []]] []] []].
Proof. eexists. split; vm_compute; reflexivity. Qed.
Definition C90_last (n : nat) : list decor * piece :=
  match n with
  | 0 => ([], Part (Terms [([say "a"], false, [say "un"]); ([say "b"], false, [say "on"])]))
  | 1 => ([], Head 2 [say "Sun"])
  | 2 => ([], Grid None true [Row [(bs "a ", [say "a "]); (bs "b", [say "b"])] false])
  | 3 => ([], Alert VTip [say "On"])
  | 4 => ([], Part (Points true [[say "a"]; [say "b"]]))
  | _ => ([], Part (Fenced Listing [newline; (Token.TText, bs "a"); newline]))
  end.
Definition C90_text (n : nat) : bytes := C90_start ++
  match n with
  | 0 => bs "a:: un
b:: on
"
  | 1 => bs "=== Sun
"
  | 2 => bs "|===

|a |b
|===
"
  | 3 => bs "TIP: On
"
  | 4 => bs ". a
. b
"
  | _ => bs "----
a
----
"
  end.
Example C90_last_words : Forall (fun n => utf8 (C90_text n) /\ short_written (C90_text n) (C90_script (C90_last n)) /\ script_ok (C90_script (C90_last n)) /\ ends_short (C90_script (C90_last n)))
  [0; 1; 2; 3; 4; 5].
Proof.
  repeat (apply Forall_cons; [
    match goal with |- utf8 (C90_text ?n) /\ _ => destruct (short_writtenb_ok (C90_text n) (C90_script (C90_last n))) as [H1 H2]; [vm_compute; reflexivity|] end;
    split; [exact H1|]; split; [exact H2|]; split; [apply script_okb_ok; vm_compute; reflexivity|split; reflexivity]|]). apply Forall_nil.
Qed.
Example C90_last_blocks : Forall (fun n => exists g, parse fixture_world 1 [] false (C90_text n) = Ok g /\ map unplaced (a_blocks g) = script_blocks (C90_script (C90_last n))) [0; 1; 2; 3; 4; 5].
Proof. repeat (apply Forall_cons; [eexists; split; vm_compute; reflexivity|]). apply Forall_nil. Qed.

(** the text of the only item of a list at the end becomes a paragraph in it, unless a blank
    line follows *)
Theorem C90_refuted : exists g g', parse fixture_world 0 [] false (bs "Go

* a
") = Ok g /\ parse fixture_world 0 [] false (bs "Go

* a

") = Ok g'
  /\ map unplaced (a_blocks g) = [par [txt "Go"]; Blk (HList LUnordered) None [Blk (HListItem (bs "*") []) None [par [txt "a"]] []] []]
  /\ map unplaced (a_blocks g') = [par [txt "Go"]; Blk (HList LUnordered) None [item "a" []] []].
Proof. do 2 eexists. do 3 (split; [vm_compute; reflexivity|]). vm_compute. reflexivity. Qed.
Print Assumptions C90_refuted.
(** so does that of the last item if a word in it has a role *)
Theorem C90_styled_refuted : exists g, parse fixture_world 0 [] false (bs "* a
* [.red]#b#
") = Ok g
  /\ map unplaced (a_blocks g) = [Blk (HList LUnordered) None
       [item "a" []; Blk (HListItem (bs "*") []) None [par [ISpan SMark FConstrained [txt "b"] (Some (mkMeta [] [] [bs "red"] true None [])) [] false]] []] []].
Proof. eexists. split; vm_compute; reflexivity. Qed.
Print Assumptions C90_styled_refuted.
(** the title of a section at the end becomes a paragraph in it if not even its line is ended *)
Theorem C90_line_refuted : exists g, parse fixture_world 0 [] false (bs "== a") = Ok g
  /\ map unplaced (a_blocks g) = [Blk (HSection [] [] 1) None [par [txt "a"]] []].
Proof. eexists. split; vm_compute; reflexivity. Qed.
Print Assumptions C90_line_refuted.
