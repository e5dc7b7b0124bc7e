(** * C66, C67, C68: the lexical grammar *)
From Verif Require Import Base Location Token Scanner SpecScan SpecLex ScanLex ScanGrammar ScanComplete ScanFail2 ScanWhole.
Local Open Scope char_scope.
Local Open Scope nat_scope.

(** each token covers a stretch of the source whose spelling and surroundings are
    those the grammar gives for its type *)
Theorem C66_tokens_lexed : forall src files ts sc pre t post,
  utf8 src -> yields src files ts sc -> ts = pre ++ t :: post ->
  exists before after, src = before ++ lexeme t ++ after
    /\ (no_tags pre -> before = text_of pre) /\ lexed (ttype t) before (lexeme t) after.
Proof. exact tokens_lexed. Qed.
Print Assumptions C66_tokens_lexed.

Example C66_example : exists ts, scan (bs "== A *b* http://c.d[e] f|g
| h | i
<<j>> {k} &amp; l (C)
") = Ok ts
  /\ map (fun t => (ttype t, string_of_list_ascii (lexeme t))) ts
     = [(THeading2, "== "); (TText, "A "); (TStrong, "*"); (TText, "b"); (TStrong, "*"); (TText, " ");
        (TLinkMacro, "http://c.d["); (TText, "e"); (TInlineMacroClose, "]"); (TText, " "); (TText, "f|g"); (TNewLineChar, "
"); (TTableCell, "| h "); (TTableCell, "| i"); (TNewLineChar, "
"); (TCrossReference, "<<j>>"); (TText, " "); (TAttributeReference, "{k}"); (TText, " "); (TCharRef, "&amp;");
        (TText, " l ("); (TText, "C)"); (TNewLineChar, "
"); (TEof, "")]%string.
Proof. eexists. split; vm_compute; reflexivity. Qed.

(** ** What one might expect of the grammar and does not hold *)
(** a thematic break need not be a line of its own *)
Theorem C66_break_own_line_refuted : exists src ts pre t post,
  scan src = Ok ts /\ ts = pre ++ t :: post /\ no_tags pre /\ ttype t = TThematicBreak /\ ~ at_line_start (text_of pre).
Proof.
  exists (bs "a'''" ++ ["010"]). eexists. eexists [_], _, _. split; [vm_compute; reflexivity|]. split; [reflexivity|].
  split; [repeat constructor; intros [K|K]; discriminate|]. split; [reflexivity|].
  intros [K|(b & K)]; [discriminate|]. destruct b as [|x [|y b]]; discriminate.
Qed.
(** nor must an admonition begin a line *)
Theorem C66_note_own_line_refuted : exists src ts pre t post,
  scan src = Ok ts /\ ts = pre ++ t :: post /\ no_tags pre /\ ttype t = TNotePara /\ ~ at_line_start (text_of pre).
Proof.
  exists (bs "a NOTE: b"). eexists. eexists [_], _, _. split; [vm_compute; reflexivity|]. split; [reflexivity|].
  split; [repeat constructor; intros [K|K]; discriminate|]. split; [reflexivity|].
  intros [K|(b & K)]; [discriminate|]. destruct b as [|x [|y [|z b]]]; discriminate.
Qed.
(** a copyright sign between blanks need not be replaced: text runs over the bracket *)
Theorem C66_copyright_replaced_refuted : exists ts,
  scan (bs "a (C) b") = Ok ts /\ ~ exists t, In t ts /\ ttype t = TCharRef.
Proof.
  eexists. split; [vm_compute; reflexivity|].
  intros (t & H & K). repeat (destruct H as [<-|H]; [discriminate K|]). destruct H.
Qed.

(** ** C67: the grammar is complete *)
(** whatever the grammar calls markup at the place reached is the next token; in
    particular the scanner neither fails there nor takes it for something else *)
Theorem C67_recognised : forall src files ts sc ty lex after,
  utf8 src -> yields src files ts sc -> no_tags ts ->
  src = text_of ts ++ lex ++ after -> lexed ty (text_of ts) lex after -> markup ty ->
  exists t sc', yields src files (ts ++ [t]) sc' /\ ttype t = ty /\ lexeme t = lex.
Proof. exact lexed_recognised. Qed.
Print Assumptions C67_recognised.

(** and a token is text exactly where the grammar has no markup *)
Theorem C67_text_otherwise : forall src files ts t sc,
  utf8 src -> yields src files (ts ++ [t]) sc -> no_tags (ts ++ [t]) -> ttype t <> TEof ->
  (ttype t = TText
   <-> ~ exists ty lex after, markup ty /\ src = text_of ts ++ lex ++ after /\ lexed ty (text_of ts) lex after).
Proof. exact text_otherwise. Qed.
Print Assumptions C67_text_otherwise.

(** the grammar leaves no choice between two kinds or two lengths of markup *)
Theorem C67_unambiguous : forall src files ts sc ty lex after ty' lex' after',
  utf8 src -> yields src files ts sc -> no_tags ts ->
  src = text_of ts ++ lex ++ after -> lexed ty (text_of ts) lex after -> markup ty ->
  src = text_of ts ++ lex' ++ after' -> lexed ty' (text_of ts) lex' after' -> markup ty' ->
  ty = ty' /\ lex = lex'.
Proof. exact grammar_unique. Qed.
Print Assumptions C67_unambiguous.

(** a cross reference after a text: the grammar calls it one, so the scanner does *)
Example C67_example : exists ts sc t sc',
  yields (bs "a <<b-1>> c") [] ts sc /\ no_tags ts /\ text_of ts = bs "a "
  /\ lexed TCrossReference (text_of ts) (bs "<<b-1>>") (bs " c") /\ markup TCrossReference
  /\ next sc = Ok (Some t, sc') /\ ttype t = TCrossReference /\ lexeme t = bs "<<b-1>>".
Proof.
  eexists [_], _, _, _. split.
  { apply (yields_snoc _ _ [] (new_with_stack (bs "a <<b-1>> c") [])); [constructor | vm_compute; reflexivity]. }
  split; [repeat constructor; intros [K|K]; discriminate|]. split; [reflexivity|]. split.
  { split; [|split; cbn; intuition discriminate]. exists (bs "b-1"). split; [reflexivity|]. split; [repeat constructor|].
    intros u v K. destruct u as [|? [|? [|? [|? [|? [|? ?]]]]]]; cbn in K; try discriminate K.
    now injection K. }
  split; [unfold markup; cbn; intuition discriminate|]. split; [vm_compute; reflexivity|]. split; reflexivity.
Qed.

(** ** C68: the scanner is the grammar *)
(** the next token, at a place without include tags before it, is the one that the grammar
    gives there: text as much as markup and include tags, its type and its lexeme *)
Theorem C68_next_token : forall src files ts sc ty lex after,
  utf8 src -> yields src files ts sc -> no_tags ts -> src = text_of ts ++ lex ++ after -> lex <> [] ->
  ((exists t sc', next sc = Ok (Some t, sc') /\ ttype t = ty /\ lexeme t = lex)
   <-> grammar (text_of ts) ty lex after).
Proof. exact next_iff. Qed.
Print Assumptions C68_next_token.

(** the scanner gives an error exactly where a line starts with six equals signs *)
Theorem C68_errs_exactly : forall src files ts sc rest,
  yields src files ts sc -> no_tags ts -> utf8 src -> src = text_of ts ++ rest ->
  ((exists e, next sc = Err e) <-> too_deep (text_of ts) rest).
Proof. exact (fun src files ts sc rest Y Hn Hu => errs_iff src files ts sc Y Hn Hu rest). Qed.
Print Assumptions C68_errs_exactly.

(** a source scans to these tokens, none of them an include tag, exactly if the grammar
    divides it into them; literals, lines and columns included *)
Theorem C68_scan_is_grammar : forall src files, utf8 src -> forall ts,
  (scan_with src files = Ok ts /\ no_tags ts) <-> exists ks, tokenised [] src ks /\ ts = laid files 1 1 ks.
Proof. exact scan_is_grammar. Qed.
Print Assumptions C68_scan_is_grammar.

(** for a source in which the grammar meets no include tag the four outcomes of a scan are
    told apart without mention of the scanner *)
Theorem C68_succeeds : forall src files, utf8 src -> forall ts, tagless src ->
  (scan_with src files = Ok ts <-> exists ks, tokenised [] src ks /\ ts = laid files 1 1 ks).
Proof. exact scan_succeeds. Qed.
Print Assumptions C68_succeeds.
Theorem C68_panics : forall src files, utf8 src -> tagless src ->
  (scan_with src files = Panic <-> exists before rest, gets src before /\ src = before ++ rest /\ breaks before rest).
Proof. exact scan_panics. Qed.
Print Assumptions C68_panics.
Theorem C68_hangs : forall src files, utf8 src -> tagless src ->
  (scan_with src files = Hang <-> exists before rest, gets src before /\ src = before ++ rest /\ unclosed before rest).
Proof. exact scan_hangs. Qed.
Print Assumptions C68_hangs.
Theorem C68_errs : forall src files, utf8 src -> tagless src ->
  ((exists e, scan_with src files = Err e)
   <-> exists before rest, gets src before /\ src = before ++ rest /\ too_deep before rest).
Proof. exact scan_errs. Qed.
Print Assumptions C68_errs.
(** it suffices that neither [tag::] nor [end::] is written in the source *)
Theorem C68_tagless : forall src, ~ occurs (bs "tag::") src -> ~ occurs (bs "end::") src -> tagless src.
Proof. exact unwritten_tagless. Qed.
Print Assumptions C68_tagless.

(** a source that the grammar divides into tokens, and their places *)
Example C68_example : tagless (bs "== A *b*
<<c d>> &lt;") /\ exists ks, tokenised [] (bs "== A *b*
<<c d>> &lt;") ks
  /\ map (fun t => (ttype t, string_of_list_ascii (lexeme t), tline t, startcol t)) (laid [] 1 1 ks)
     = [(THeading2, "== ", 1, 1); (TText, "A ", 1, 4); (TStrong, "*", 1, 6); (TText, "b", 1, 7); (TStrong, "*", 1, 8);
        (TNewLineChar, "
", 1, 9); (TText, "<<c d>>", 2, 1); (TText, " ", 2, 8); (TCharRef, "&lt;", 2, 9); (TEof, "", 2, 0)]%string.
Proof.
  split.
  { apply unwritten_tagless; intros K; apply occurs_contains in K; discriminate K. }
  match goal with |- exists ks, tokenised [] ?s ks /\ _ = ?out =>
    assert (exists ts, (scan_with s [] = Ok ts /\ no_tags ts)
            /\ map (fun t => (ttype t, string_of_list_ascii (lexeme t), tline t, startcol t)) ts = out) as (ts & S & M) end.
  { eexists. split; [split; [vm_compute; reflexivity | repeat constructor; intros [K|K]; discriminate] | vm_compute; reflexivity]. }
  apply scan_is_grammar in S as (ks & K1 & K2).
  2:{ apply ascii_utf8. repeat (apply Forall_cons; [reflexivity|]). apply Forall_nil. }
  exists ks. split; [exact K1|]. rewrite <- K2. exact M.
Qed.
(** a source that is refused *)
Example C68_example_deep : exists e, scan (bs "a
====== b") = Err e.
Proof.
  apply C68_errs.
  - apply ascii_utf8. repeat (apply Forall_cons; [reflexivity|]). apply Forall_nil.
  - apply unwritten_tagless; intros K; apply occurs_contains in K; discriminate K.
  - exists (bs "a" ++ [NL]), (bs "====== b"). split; [|split; [reflexivity|]].
    + change (gets (bs "a
====== b") (text_of [mkTok TText (bs "a") (Some (bs "a")) 1 1 1 []; mkTok TNewLineChar [NL] None 1 2 2 []])).
      eapply yields_gets.
      * apply ascii_utf8. repeat (apply Forall_cons; [reflexivity|]). apply Forall_nil.
      * eapply (yields_snoc _ [] [_]); [eapply (yields_snoc _ [] []); [constructor | vm_compute; reflexivity] | vm_compute; reflexivity].
      * repeat constructor; intros [K|K]; discriminate.
    + split; [right; exists (bs "a"); reflexivity | eexists; reflexivity].
Qed.
(** an end tag need not become an end tag: one whose name contains [tag] starts a region *)
Theorem C68_end_tag_refuted : exists ts t,
  scan (bs "end::tags[]") = Ok ts /\ In t ts /\ lexeme t = bs "end::tags[]" /\ ttype t = TStartTag.
Proof. do 2 eexists. split; [vm_compute; reflexivity|]. split; [left; reflexivity|]. split; reflexivity. Qed.
Print Assumptions C68_end_tag_refuted.
