(** * C73-C76: blocks in blocks, continued items, lists in lists, descriptions of two lines *)
From Verif Require Import Fixtures Base World Location Token Scanner Meta Inline Block Asg Parser SpecScan SpecLex SpecDoc SpecArticle
  ScanFail2 ArticleCheck ScriptWords ScriptText ScriptWhole ScriptCheck NestProofs SpecScript SpecNest.

Local Notation say s := (Bit (Said (bs s%string))).
Local Notation txt s := (ILit LText false (bs s%string) []).
Ltac scan_words := apply scanned; [apply ascii_utf8; repeat (apply Forall_cons; [reflexivity|]); apply Forall_nil|vm_compute; reflexivity|vm_compute; reflexivity].
Ltac plain_ascii := apply ascii_utf8; repeat (apply Forall_cons; [reflexivity|]); apply Forall_nil.

(** ** C73: a delimited block in a delimited block *)
Theorem C73_exact_partial : forall w fuel origin resolve b1 b2 l src, b1 <> b2 -> text_fits plainly false l = true ->
  utf8 src -> tokenised [] src (nest_words b1 b2 l) ->
  exists g, parse w fuel origin resolve src = Ok g /\ map unplaced (a_blocks g) = nest_made b1 b2 l.
Proof. exact nest_parse. Qed.
Print Assumptions C73_exact_partial.
Theorem C73_never_partial : forall b1 b2 l, nest_made b1 b2 l <> nest_meant b1 b2 l.
Proof. exact nest_never. Qed.
Print Assumptions C73_never_partial.
Definition C73_source : bytes := bs "====
--
Run *on*
go
--
====
".
Definition C73_text : list element := [say "Run "; Marked [] (Single Bold) [InBit (Said (bs "on"))]; Bit Newline; say "go"].
Example C73_words : tokenised [] C73_source (nest_words Example Open C73_text).
Proof. scan_words. Qed.
Theorem C73_refuted : exists g, parse fixture_world 0 [] false C73_source = Ok g
  /\ map unplaced (a_blocks g) <> nest_meant Example Open C73_text.
Proof. eexists. split; vm_compute; [reflexivity|discriminate]. Qed.
Print Assumptions C73_refuted.
Example C73_example : exists g, parse fixture_world 0 [] false C73_source = Ok g
  /\ map unplaced (a_blocks g) =
     [Blk (HParent PExample None (bs "====") []) None
        [Blk (HParent POpen None (bs "--") []) None
           [para None [txt "Run "; ISpan SStrong FConstrained [txt "on"] None [] false; txt "
go"];
            Blk (HParent PExample None (bs "====") []) None [] []] []] []].
Proof.
  destruct (C73_exact_partial fixture_world 0 [] false Example Open C73_text C73_source) as (g & E & B); [discriminate|reflexivity|plain_ascii|exact C73_words|].
  exists g. split; [exact E|]. rewrite B. vm_compute. reflexivity.
Qed.

(** ** C74: a paragraph attached to a list item *)
(** at the end of the document it becomes a block of the item *)
Theorem C74_end_partial : forall w fuel origin resolve b x y src, bullet_fits b = true -> text_fits plainly false x = true -> styled x = false ->
  text_fits dropping false y = true -> utf8 src -> tokenised [] src (attach_end b x y) ->
  exists g, parse w fuel origin resolve src = Ok g /\ map unplaced (a_blocks g) = attach_meant b x y.
Proof. exact attach_end_parse. Qed.
Print Assumptions C74_end_partial.
(** before another item it becomes part of the text of its own, and the other item loses its text *)
Theorem C74_more_partial : forall w fuel origin resolve b b' x y z src, bullet_fits b = true -> bullet_fits b' = true -> bullet_variant b' = bullet_variant b ->
  text_fits plainly false x = true -> styled x = false -> text_fits dropping false y = true -> text_fits plainly false z = true ->
  utf8 src -> tokenised [] src (attach_more b b' x y z) ->
  exists g, parse w fuel origin resolve src = Ok g /\ map unplaced (a_blocks g) = attach_more_made b b' x y z.
Proof. exact attach_more_parse. Qed.
Print Assumptions C74_more_partial.
Theorem C74_more_never_partial : forall b b' x y z, attach_more_made b b' x y z <> attach_more_meant b b' x y z.
Proof. exact attach_more_never. Qed.
Print Assumptions C74_more_never_partial.
(** before a blank line and another paragraph it is an error, whatever follows *)
Theorem C74_after_partial : forall w fuel origin resolve b x y z rest src, bullet_fits b = true -> text_fits plainly false x = true -> styled x = false ->
  text_fits dropping false y = true -> text_fits dropping false z = true -> rest = [eof] \/ (exists r, rest = newline :: r) ->
  utf8 src -> tokenised [] src (attach_after b x y z rest) ->
  parse w fuel origin resolve src = Err EBlockContinuation.
Proof. exact attach_after_parse. Qed.
Print Assumptions C74_after_partial.
Definition C74_end_source : bytes := bs "* Un
+
Run
go
".
Definition C74_y : list element := [say "Run"; Bit Newline; say "go"].
Example C74_end_words : tokenised [] C74_end_source (attach_end Star [say "Un"] C74_y).
Proof. scan_words. Qed.
(** the line break is lost *)
Example C74_end_example : exists g, parse fixture_world 0 [] false C74_end_source = Ok g
  /\ map unplaced (a_blocks g) = [Blk (HList LUnordered) None [Blk (HListItem (bs "*") [txt "Un"]) None [para None [txt "Rungo"]] []] []].
Proof.
  destruct (C74_end_partial fixture_world 0 [] false Star [say "Un"] C74_y C74_end_source) as (g & E & B);
    [reflexivity|reflexivity|reflexivity|reflexivity|plain_ascii|exact C74_end_words|].
  exists g. split; [exact E|]. rewrite B. vm_compute. reflexivity.
Qed.
Definition C74_more_source : bytes := bs "* Un
+
Run
* On
".
Example C74_more_words : tokenised [] C74_more_source (attach_more Star Star [say "Un"] [say "Run"] [say "On"]).
Proof. scan_words. Qed.
Theorem C74_refuted : exists g, parse fixture_world 0 [] false C74_more_source = Ok g
  /\ map unplaced (a_blocks g) <> attach_more_meant Star Star [say "Un"] [say "Run"] [say "On"].
Proof. eexists. split; vm_compute; [reflexivity|discriminate]. Qed.
Print Assumptions C74_refuted.
Example C74_more_example : exists g, parse fixture_world 0 [] false C74_more_source = Ok g
  /\ map unplaced (a_blocks g) =
     [para None [txt "On"];
      Blk (HList LUnordered) None
        [Blk (HListItem (bs "*") [txt "Un"; txt "Run"]) None [] []; Blk (HListItem (bs "*") []) None [] []] []].
Proof.
  destruct (C74_more_partial fixture_world 0 [] false Star Star [say "Un"] [say "Run"] [say "On"] C74_more_source) as (g & E & B);
    [reflexivity|reflexivity|reflexivity|reflexivity|reflexivity|reflexivity|reflexivity|plain_ascii|exact C74_more_words|].
  exists g. split; [exact E|]. rewrite B. vm_compute. reflexivity.
Qed.
Definition C74_after_source : bytes := bs ". Un
+
Run

On

*go*".
Example C74_after_words : tokenised [] C74_after_source (attach_after Dot [say "Un"] [say "Run"] [say "On"] [newline; (TStrong, bs "*"); (TText, bs "go"); (TStrong, bs "*"); eof]).
Proof. scan_words. Qed.
Example C74_after_example : parse fixture_world 0 [] false C74_after_source = Err EBlockContinuation.
Proof.
  refine (C74_after_partial fixture_world 0 [] false Dot [say "Un"] [say "Run"] [say "On"] _ C74_after_source eq_refl eq_refl eq_refl eq_refl eq_refl _ _ C74_after_words);
    [right; eexists; reflexivity|plain_ascii].
Qed.

(** ** C75: lists in lists *)
Theorem C75_exact_partial : forall w fuel origin resolve l src, l <> [] -> alternating l -> Forall (fun x => bullet_fits (fst x) = true) l ->
  Forall (fun x => one_line (snd x) = true /\ speaks (snd x) = true) l ->
  text_fits plainly false (List.concat (map snd l)) = true -> styled (List.concat (map snd l)) = false ->
  utf8 src -> tokenised [] src (sunk_words l) ->
  exists g, parse w fuel origin resolve src = Ok g /\ map unplaced (a_blocks g) = sunk_made l.
Proof. exact sunk_parse. Qed.
Print Assumptions C75_exact_partial.
Theorem C75_never_partial : forall x y l, speaks (snd x) = true -> sunk_made (x :: y :: l) <> sunk_meant (x :: y :: l).
Proof. exact sunk_never. Qed.
Print Assumptions C75_never_partial.
Definition C75_source : bytes := bs "* Un
. On *go*
* Run
".
Definition C75_items : list (bullet * list element) :=
  [(Star, [say "Un"]); (Dot, [say "On "; Marked [] (Single Bold) [InBit (Said (bs "go"))]]); (Star, [say "Run"])].
Example C75_words : tokenised [] C75_source (sunk_words C75_items).
Proof. scan_words. Qed.
Theorem C75_refuted : exists g, parse fixture_world 0 [] false C75_source = Ok g /\ map unplaced (a_blocks g) <> sunk_meant C75_items.
Proof. eexists. split; vm_compute; [reflexivity|discriminate]. Qed.
Print Assumptions C75_refuted.
Example C75_example : exists g, parse fixture_world 0 [] false C75_source = Ok g
  /\ map unplaced (a_blocks g) =
     [Blk (HList LUnordered) None [Blk (HListItem (bs "*") []) None
       [Blk (HList LOrdered) None [Blk (HListItem (bs ".") []) None
         [Blk (HList LUnordered) None [Blk (HListItem (bs "*") [txt "UnOn "; ISpan SStrong FConstrained [txt "go"] None [] false; txt "Run"]) None [] []] []] []] []] []] []].
Proof.
  destruct (C75_exact_partial fixture_world 0 [] false C75_items C75_source) as (g & E & B);
    [discriminate|cbn; repeat split; discriminate|repeat (constructor; [reflexivity|]); constructor|repeat (constructor; [split; reflexivity|]); constructor|reflexivity|reflexivity|plain_ascii|exact C75_words|].
  exists g. split; [exact E|]. rewrite B. vm_compute. reflexivity.
Qed.

(** ** C76: a description of two lines *)
Theorem C76_exact_partial : forall w fuel origin resolve t b x y t' b' z src, two_fit t x y t' z = true -> utf8 src -> tokenised [] src (two_words t b x y t' b' z) ->
  exists g, parse w fuel origin resolve src = Ok g /\ map unplaced (a_blocks g) = two_made t x y t' z.
Proof. exact two_parse. Qed.
Print Assumptions C76_exact_partial.
Definition C76_source : bytes := bs "Un:: go
run
On:: by

".
Example C76_words : tokenised [] C76_source (two_words [say "Un"] false [say "go"] [say "run"] [say "On"] false [say "by"]).
Proof. scan_words. Qed.
Theorem C76_refuted : exists g, parse fixture_world 0 [] false C76_source = Ok g
  /\ map unplaced (a_blocks g) <> two_meant [say "Un"] [say "go"] [say "run"] [say "On"] [say "by"].
Proof. eexists. split; vm_compute; [reflexivity|discriminate]. Qed.
Print Assumptions C76_refuted.
Example C76_example : exists g, parse fixture_world 0 [] false C76_source = Ok g
  /\ map unplaced (a_blocks g) =
     [Blk HDList None
        [Blk (HDListItem [txt "Un"] [txt "go"]) None [] [];
         Blk (HDListItem [txt "run"; txt "
"; txt "On"] [txt "by"]) None [] []] []].
Proof.
  destruct (C76_exact_partial fixture_world 0 [] false [say "Un"] false [say "go"] [say "run"] [say "On"] false [say "by"] C76_source) as (g & E & B);
    [reflexivity|plain_ascii|exact C76_words|].
  exists g. split; [exact E|]. rewrite B. vm_compute. reflexivity.
Qed.
