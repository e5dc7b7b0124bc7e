(** * C12, C13: verbatim blocks and comments *)
From Verif Require Import Base World Location Token Scanner Meta Inline Block Asg Parser SpecScan SpecVerbatim
  VerbatimProofs.
Local Open Scope char_scope.
Local Open Scope nat_scope.

Definition lines (l : list bytes) : bytes := List.concat (map (fun s => s ++ [NL]) l).

(** ** C12: in every document that is one verbatim block, whatever tokens its content
    scans to; and at every place of a document where a block can start.  The text
    includes the line breaks next to the delimiters.  Missing: a block directly below a
    line of text (refuted), a block in a list continuation, and content with tag
    directives, of which the scanner drops the comment slashes. *)
Theorem C12_document_partial : forall w fuel origin resolve src ty n op ts cl nl eof, verbatim ty n ->
  scan src = Ok (op :: ts ++ [cl; nl; eof]) -> no_tags ts ->
  ttype op = ty -> ttype cl = ty -> Forall (content ty) ts -> ts <> [] -> ttype nl = TNewLineChar -> ttype eof = TEof ->
  exists text a loc loc', src = lexeme op ++ text ++ lexeme cl ++ lexeme nl ++ lexeme eof
    /\ parse w fuel origin resolve src = Ok a
    /\ a_blocks a = [Blk (HLeaf n FmDelimited (Some (token_text op)) [ILit LText false text loc]) None [] loc'].
Proof. exact verbatim_document. Qed.
Print Assumptions C12_document_partial.

Theorem C12_block_partial : forall w fuel ty n op ts cl p, verbatim ty n -> ttype op = ty -> ttype cl = ty ->
  Forall (content ty) ts -> ts <> [] -> between_blocks p ->
  exists loc loc' m, (p_meta p = None -> m = None) /\ parse_loop w fuel (op :: ts ++ [cl]) p
    = Ok (set_last ty (set_force_new false (set_meta None
            (set_bstack (Blk (HLeaf n FmDelimited (Some (token_text op)) [ILit LText false (source_text ts) loc]) m [] loc'
                         :: p_bstack p) p)))).
Proof. exact verbatim_block. Qed.
Print Assumptions C12_block_partial.

Definition example_source : bytes :=
  lines [bs "----"; bs "*b* {x} <<y>> == z"; []; bs ". |==="; bs "...."; bs "// c"; bs "----"].
Example C12_example : exists op ts cl nl eof, scan example_source = Ok (op :: ts ++ [cl; nl; eof])
  /\ no_tags ts /\ ttype op = TSourceBlock /\ ttype cl = TSourceBlock /\ Forall (content TSourceBlock) ts
  /\ ts <> [] /\ ttype nl = TNewLineChar /\ ttype eof = TEof.
Proof.
  remember (scan example_source) as r eqn:E. vm_compute in E.
  match type of E with r = Ok (?a :: ?l) =>
    let n := eval vm_compute in (List.length l - 3) in
    let ts := eval vm_compute in (firstn n l) in
    match eval vm_compute in (skipn n l) with [?c; ?x; ?y] => exists a, ts, c, x, y end end.
  subst r. split; [reflexivity|].
  split; [repeat (apply Forall_cons; [intros [K|K]; discriminate K|]); apply Forall_nil|].
  do 2 (split; [reflexivity|]).
  split; [repeat (apply Forall_cons; [split; [discriminate|intros _; split; discriminate]|]); apply Forall_nil|].
  repeat split. discriminate.
Qed.

Theorem C12_merged_refuted : exists w fuel origin resolve src a loc loc' delim,
  src = lines [bs "x"; bs "----"; bs "a"; bs "----"] /\ parse w fuel origin resolve src = Ok a
  /\ a_blocks a = [Blk (HLeaf NListing FmDelimited delim [ILit LText false (lines [bs "x"; []; bs "a"]) loc]) None [] loc'].
Proof. exists world0, 1, [], false. do 5 eexists. split; [reflexivity|]. split; vm_compute; reflexivity. Qed.
Print Assumptions C12_merged_refuted.

(** what the block contains can make the scan fail *)
Theorem C12_scan_refuted : exists w fuel origin resolve src,
  src = lines [bs "----"; bs "======= x"; bs "----"] /\ parse w fuel origin resolve src = Err (EHeadingLevel 2).
Proof. exists world0, 1, [], false. eexists. split; [reflexivity|]. vm_compute. reflexivity. Qed.
Print Assumptions C12_scan_refuted.

(** ** C13: two documents that differ in what a comment block says.  [p] is the state
    in which the block is met.  Missing: comments whose content does not scan (refuted),
    comments inside verbatim blocks, and a block between a reference and its text. *)
Theorem C13_comment_block_partial : forall w fuel origin resolve s1 s2 pre op ts ts' cl rest p,
  scan s1 = Ok (pre ++ op :: ts ++ cl :: rest) -> scan s2 = Ok (pre ++ op :: ts' ++ cl :: rest) ->
  ttype op = TCommentBlock -> ttype cl = TCommentBlock ->
  Forall (fun t => ttype t <> TCommentBlock) ts -> Forall (fun t => ttype t <> TCommentBlock) ts' -> ts <> [] -> ts' <> [] ->
  parse_loop w fuel pre (new_parser origin resolve) = Ok p ->
  p_open_type p = None -> no_open_reference p -> (p_header p <> None -> p_istack p = []) ->
  parse w fuel origin resolve s1 = parse w fuel origin resolve s2.
Proof. exact comment_document. Qed.
Print Assumptions C13_comment_block_partial.

Theorem C13_comment_line_partial : forall w fuel t p, ttype t = TComment ->
  (forall ty, p_open_type p = Some ty -> ty = TQuoteVerseBlock) -> token_into w fuel t p = Ok p.
Proof. exact comment_line. Qed.
Print Assumptions C13_comment_line_partial.

Definition comment_source (s : bytes) : bytes := lines [bs "a *b*"; []; bs "////"; s; bs "////"; []; bs "c"].
Example C13_example : exists pre op ts ts' cl rest p,
  scan (comment_source (bs "x *y*")) = Ok (pre ++ op :: ts ++ cl :: rest)
  /\ scan (comment_source (bs "== [z]")) = Ok (pre ++ op :: ts' ++ cl :: rest)
  /\ ttype op = TCommentBlock /\ ttype cl = TCommentBlock /\ ts <> ts'
  /\ parse_loop world0 1 pre (new_parser [] false) = Ok p
  /\ p_open_type p = None /\ no_open_reference p /\ p_header p = None.
Proof.
  remember (scan (comment_source (bs "x *y*"))) as r eqn:E. vm_compute in E.
  remember (scan (comment_source (bs "== [z]"))) as r' eqn:E'. vm_compute in E'.
  match type of E with r = Ok ?l => match type of E' with r' = Ok ?l' =>
    let n := eval vm_compute in (List.length l - 6) in
    let n' := eval vm_compute in (List.length l' - 6) in
    let pre := eval vm_compute in (firstn 6 l) in
    match eval vm_compute in (skipn 6 l) with ?o :: _ =>
    match eval vm_compute in (skipn n l) with ?c :: ?rest =>
    let ts := eval vm_compute in (skipn 7 (firstn n l)) in
    let ts' := eval vm_compute in (skipn 7 (firstn n' l')) in
    exists pre, o, ts, ts', c, rest end end end end.
  eexists. subst r r'. do 4 (split; [vm_compute; reflexivity|]).
  split; [intros K; apply (f_equal (@List.length _)) in K; vm_compute in K; discriminate|].
  split; [vm_compute; reflexivity|]. repeat split.
Qed.

Theorem C13_scan_refuted : exists w fuel origin resolve s1 s2 a,
  s1 = lines [bs "////"; bs "x"; bs "////"] /\ s2 = lines [bs "////"; bs "======= x"; bs "////"]
  /\ parse w fuel origin resolve s1 = Ok a /\ parse w fuel origin resolve s2 = Err (EHeadingLevel 2).
Proof. exists world0, 1, [], false. do 3 eexists. do 2 (split; [reflexivity|]). split; vm_compute; reflexivity. Qed.
Print Assumptions C13_scan_refuted.
