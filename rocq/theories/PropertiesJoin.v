(** * C91: the tokens of a source do not depend on the lines below *)
From Verif Require Import Base Location Token Scanner SpecScan SpecLex ScanWhole SpecJoin JoinProofs ScanFail2 ScanGrammar.
Local Open Scope char_scope.
Local Open Scope nat_scope.

(** a source that ends a line, followed by a second source: the tokens are those of the first
    without its end, then those of the second; exactly if the last token of the first is not
    a link *)
Theorem C91_joined_exactly : forall a files ts e,
  utf8 a -> ends [NL] a -> scan_with a files = Ok (ts ++ [e]) -> no_tags (ts ++ [e]) ->
  (last_not THyperlink ts
   <-> forall b tb, utf8 b -> scan_with b files = Ok tb -> no_tags tb ->
       exists tl, scan_with (a ++ b) files = Ok (ts ++ tl) /\ kinds tl = kinds tb).
Proof. exact joined_exactly. Qed.
Print Assumptions C91_joined_exactly.

(** if the last token of the first is a newline, the second has its tokens where it has them
    alone, but that many lines further down *)
Theorem C91_placed : forall a files ts e b tb,
  utf8 a -> ends [NL] a -> scan_with a files = Ok (ts ++ [e]) -> no_tags (ts ++ [e]) -> last_not THyperlink ts ->
  utf8 b -> scan_with b files = Ok tb -> no_tags tb ->
  exists tl, scan_with (a ++ b) files = Ok (ts ++ tl) /\ no_tags tl /\ kinds tl = kinds tb
    /\ (last_is TNewLineChar ts -> tl = map (lowered (newlines ts)) tb).
Proof. exact (fun a files ts e b tb U E S N H => joined a files ts e U E S N b tb H). Qed.
Print Assumptions C91_placed.

(** on texts alone: it suffices that [http] is not written in the first source and that its
    last line does not end with a colon or an equals sign *)
Theorem C91_lines : forall a files ts e b tb,
  utf8 a -> ends [NL] a -> scan_with a files = Ok (ts ++ [e]) -> no_tags (ts ++ [e]) ->
  ~ occurs (bs "http") a -> ~ ends [":"; NL] a -> ~ ends ["="; NL] a ->
  utf8 b -> scan_with b files = Ok tb -> no_tags tb ->
  scan_with (a ++ b) files = Ok (ts ++ map (lowered (newlines ts)) tb).
Proof. exact (fun a files ts e b tb U E S N => joined_lines a files ts e U E S N b tb). Qed.
Print Assumptions C91_lines.

(** and where the second source is not scanned to its end, neither are the two together, in
    the same way *)
Theorem C91_fails : forall a files ts e b,
  utf8 a -> ends [NL] a -> scan_with a files = Ok (ts ++ [e]) -> no_tags (ts ++ [e]) -> last_not THyperlink ts ->
  utf8 b -> tagless (a ++ b) ->
  (scan_with b files = Panic -> scan_with (a ++ b) files = Panic)
  /\ (scan_with b files = Hang -> scan_with (a ++ b) files = Hang)
  /\ (forall x, scan_with b files = Err x -> exists y, scan_with (a ++ b) files = Err y).
Proof. exact (fun a files ts e b U E S N => joined_fails a files ts e U E S N b). Qed.
Print Assumptions C91_fails.

(** two sources with a heading, a cross reference, a list, a delimited block and a note *)
Definition C91_first : bytes := bs "== A *b*
<<c,d>> e::f
* g

".
Definition C91_second : bytes := bs "NOTE: h
----
i
----
".
Example C91_example : exists ts e tb,
  scan C91_first = Ok (ts ++ [e]) /\ no_tags (ts ++ [e]) /\ last_not THyperlink ts /\ last_is TNewLineChar ts /\ newlines ts = 4
  /\ ~ occurs (bs "http") C91_first /\ ~ ends [":"; NL] C91_first /\ ~ ends ["="; NL] C91_first
  /\ scan C91_second = Ok tb /\ no_tags tb /\ List.length ts = 17 /\ List.length tb = 10
  /\ scan (C91_first ++ C91_second) = Ok (ts ++ map (lowered 4) tb).
Proof.
  eexists [_; _; _; _; _; _; _; _; _; _; _; _; _; _; _; _; _], _, _.
  split; [vm_compute; reflexivity|]. split; [repeat constructor; intros [K|K]; discriminate|].
  split; [intros p t E; apply (f_equal (fun l => ttype (last l (mkTok TEof [] None 0 0 0 [])))) in E; rewrite last_last in E; cbn [last ttype] in E; rewrite <- E; discriminate|].
  split; [eexists [_; _; _; _; _; _; _; _; _; _; _; _; _; _; _; _], _; split; reflexivity|].
  split; [reflexivity|].
  split; [intros K; apply occurs_contains in K; discriminate K|].
  split; [intros (w & K); apply (f_equal (fun s => nth 1 (rev s) NUL)) in K; rewrite rev_app_distr in K; discriminate K|].
  split; [intros (w & K); apply (f_equal (fun s => nth 1 (rev s) NUL)) in K; rewrite rev_app_distr in K; discriminate K|].
  split; [vm_compute; reflexivity|]. split; [repeat constructor; intros [K|K]; discriminate|].
  split; [reflexivity|]. split; [reflexivity|]. vm_compute. reflexivity.
Qed.
(** a second source that is not scanned to its end *)
Example C91_example_fails : scan (bs "a {b") = Panic /\ scan (C91_first ++ bs "a {b") = Panic
  /\ scan (bs "image:c") = Hang /\ scan (C91_first ++ bs "image:c") = Hang
  /\ (exists x, scan (bs "====== d") = Err x) /\ (exists x, scan (C91_first ++ bs "====== d") = Err x).
Proof. repeat split; try (vm_compute; reflexivity); eexists; vm_compute; reflexivity. Qed.

(** ** Where a source goes on into the lines below *)
(** a link at the end of a line takes the newline and the word below it into its address *)
Theorem C91_unless_link_refuted : exists a b ts e tb,
  ends [NL] a /\ scan a = Ok (ts ++ [e]) /\ no_tags (ts ++ [e]) /\ scan b = Ok tb /\ no_tags tb
  /\ ~ exists tl, scan (a ++ b) = Ok (ts ++ tl).
Proof.
  exists (bs "z http://a.b
"), (bs "c d
"). eexists [_; _], _, _. split; [exists (bs "z http://a.b"); reflexivity|].
  split; [vm_compute; reflexivity|]. split; [repeat constructor; intros [K|K]; discriminate|].
  split; [vm_compute; reflexivity|]. split; [repeat constructor; intros [K|K]; discriminate|].
  intros (tl & K). vm_compute in K. discriminate K.
Qed.
Print Assumptions C91_unless_link_refuted.
(** and after a blank line it does so as well *)
Theorem C91_paragraph_refuted : exists ts t, scan (bs "z http://a.b

c d
") = Ok ts /\ In t ts /\ ttype t = THyperlink /\ lexeme t = bs "http://a.b

c".
Proof. do 2 eexists. split; [vm_compute; reflexivity|]. split; [right; left; reflexivity|]. split; reflexivity. Qed.
Print Assumptions C91_paragraph_refuted.
(** a term marked at the end of its line hides that line from the count *)
Theorem C91_line_numbers_refuted : exists a b ts e tl t,
  ends [NL] a /\ scan a = Ok (ts ++ [e]) /\ no_tags (ts ++ [e]) /\ last_not THyperlink ts
  /\ scan (a ++ b) = Ok (ts ++ tl) /\ In t tl /\ lexeme t = b /\ tline t = 1 /\ startcol t = 5.
Proof.
  exists (bs "a::
"), (bs "b"). eexists [_; _], _, _, _. split; [exists (bs "a::"); reflexivity|].
  split; [vm_compute; reflexivity|]. split; [repeat constructor; intros [K|K]; discriminate|].
  split; [intros p t E; apply (f_equal (fun l => ttype (last l (mkTok TEof [] None 0 0 0 [])))) in E; rewrite last_last in E; cbn [last ttype] in E; rewrite <- E; discriminate|].
  split; [vm_compute; reflexivity|]. split; [left; reflexivity|]. repeat split; reflexivity.
Qed.
Print Assumptions C91_line_numbers_refuted.
