(** * C01-C08: the scanner *)
From Verif Require Import Base Location Token Scanner SpecScan ScanMain2 ScanLine ScanProofs.
Local Open Scope char_scope.
Local Open Scope nat_scope.

Ltac utf8_ascii := repeat (apply utf8_1; [vm_compute; split; discriminate|]); apply utf8_nil.
Ltac no_tags_here :=
  repeat (apply Forall_cons; [intros [?|?]; discriminate|]); apply Forall_nil.
Ltac no_newline :=
  let K := fresh in cbn; intros K; repeat (destruct K as [K|K]; [discriminate|]); exact K.

(** a document used in the examples below *)
Definition sample : bytes :=
  bs "= Title" ++ [NL; NL] ++ bs "== A *b* -- c" ++ [NL; NL] ++ bs "* (C) x" ++ [NL] ++
  bs "----" ++ [NL] ++ bs "code" ++ [NL] ++ bs "----" ++ [NL].

(** ** C01 *)
Theorem C01_scan_lossless : forall src files ts,
  scan_with src files = Ok ts -> no_tags ts -> text_of ts = src.
Proof. exact scan_lossless. Qed.
Print Assumptions C01_scan_lossless.

(** also of a scan that later fails: what has been yielded is a prefix *)
Theorem C01_stream_lossless : forall src files ts sc,
  yields src files ts sc -> no_tags ts -> exists rest, src = text_of ts ++ rest.
Proof. exact stream_lossless. Qed.
Print Assumptions C01_stream_lossless.

Example C01_example : exists ts, scan sample = Ok ts /\ List.length ts = 29 /\ no_tags ts.
Proof. eexists. split; [vm_compute; reflexivity|]. split; [reflexivity | no_tags_here]. Qed.

(** ** C02 *)
Theorem C02_scan_finite : forall src files ts,
  scan_with src files = Ok ts ->
  exists init e, ts = init ++ [e] /\ ttype e = TEof /\ lexeme e = []
    /\ Forall (fun t => ttype t <> TEof /\ lexeme t <> []) init
    /\ List.length ts <= List.length src + 1
    /\ exists sc, yields src files ts sc /\ next sc = Ok (None, sc).
Proof. exact scan_finite. Qed.
Print Assumptions C02_scan_finite.

Example C02_example : exists ts, scan (bs "a") = Ok ts /\ List.length ts = 2.
Proof. eexists. split; vm_compute; reflexivity. Qed.

(** ** C03: false as stated; true as long as no earlier token but a newline token
    contains a newline (and there are no include tags).  Missing: the positions after
    a description list marker, hyperlink or macro that runs over the end of its line. *)
Theorem C03_positions_refuted : exists src ts pre t post,
  scan src = Ok ts /\ ts = pre ++ t :: post /\ no_tags ts /\ ttype t <> TEof
  /\ ~ placed src pre t.
Proof.
  exists (bs "a::" ++ [NL] ++ bs "b").
  eexists. do 3 eexists.
  split; [vm_compute; reflexivity|].
  split; [instantiate (3 := [_; _]); reflexivity|].
  split; [no_tags_here|]. split; [discriminate|].
  intros [H _]. vm_compute in H. discriminate.
Qed.
Print Assumptions C03_positions_refuted.

Theorem C03_positions_partial : forall src files ts sc pre t post,
  yields src files ts sc -> ts = pre ++ t :: post -> no_tags (pre ++ [t]) ->
  ttype t <> TEof -> Forall one_line pre -> placed src pre t.
Proof. exact token_position. Qed.
Print Assumptions C03_positions_partial.

Example C03_example : exists ts, scan sample = Ok ts /\ Forall one_line ts.
Proof.
  eexists. split; [vm_compute; reflexivity|].
  repeat (apply Forall_cons; [first [left; reflexivity | right; no_newline]|]). apply Forall_nil.
Qed.

(** ** C06 *)
Theorem C06_heading_recognised : forall src files pre sc,
  yields src files pre sc -> no_tags pre -> utf8 src -> at_line_start (text_of pre) ->
  forall n rest, src = text_of pre ++ repeat "=" (S n) ++ " " :: rest ->
  match heading_type (S n) with
  | Some ty => exists t sc', next sc = Ok (Some t, sc') /\ ttype t = ty
                             /\ lexeme t = repeat "=" (S n) ++ [" "]
  | None => next sc = Err (EHeadingLevel (sc_line sc))
  end.
Proof. exact heading_recognised. Qed.
Print Assumptions C06_heading_recognised.

Example C06_example_3 : exists t sc', next (new (bs "=== é")) = Ok (Some t, sc') /\ ttype t = THeading3.
Proof. eexists _, _. split; vm_compute; reflexivity. Qed.
Example C06_example_6 : next (new (bs "====== x")) = Err (EHeadingLevel 1).
Proof. vm_compute. reflexivity. Qed.
Example C06_hypotheses :
  yields sample [] [] (new sample) /\ utf8 sample /\ at_line_start (text_of [])
  /\ sample = text_of [] ++ repeat "=" 1 ++ " " :: skipn 2 sample.
Proof. repeat split; [constructor | utf8_ascii | left; reflexivity]. Qed.

(** ** C07 *)
Theorem C07_delimiter_recognised : forall src files pre sc,
  yields src files pre sc -> no_tags pre -> utf8 src -> at_line_start (text_of pre) ->
  forall c ty rest, delimiter_of ty = Some c ->
  src = text_of pre ++ repeat c 4 ++ NL :: rest ->
  exists t sc', next sc = Ok (Some t, sc') /\ ttype t = ty /\ lexeme t = repeat c 4.
Proof. exact delimiter_recognised. Qed.
Print Assumptions C07_delimiter_recognised.

Theorem C07_block_markers_only : forall src files ts sc pre t post,
  yields src files ts sc -> ts = pre ++ t :: post -> no_tags (pre ++ [t]) ->
  block_token (ttype t) ->
  at_line_start (text_of pre) /\
  exists after, src = text_of pre ++ lexeme t ++ after /\ marks_block (ttype t) (lexeme t) after.
Proof. exact block_markers_only. Qed.
Print Assumptions C07_block_markers_only.

Example C07_example : exists ts pre t post,
  scan sample = Ok ts /\ ts = pre ++ t :: post /\ ttype t = TSourceBlock /\ no_tags (pre ++ [t])
  /\ text_of pre = firstn 32 sample.
Proof.
  eexists. do 3 eexists. split; [vm_compute; reflexivity|].
  split; [instantiate (3 := [_;_;_;_;_;_;_;_;_;_;_;_;_;_;_;_;_;_;_;_;_]); reflexivity|].
  split; [reflexivity|]. split; [no_tags_here | reflexivity].
Qed.

(** ** C08 *)
Theorem C08_replacements_only : forall src files ts sc t,
  yields src files ts sc -> In t ts ->
  (ttype t = TCharRef ->
     In (lexeme t, token_text t) replacements
     \/ token_text t = lexeme t
        /\ exists name, lexeme t = "&" :: name ++ [";"]
                        /\ Forall (fun c => is_alnum_latin1 c = true) name)
  /\ (forall s s', In (ttype t, (s, s')) quotes -> lexeme t = s /\ token_text t = s')
  /\ (ttype t <> TCharRef -> ~ In (ttype t) (map fst quotes) -> token_text t = lexeme t).
Proof. exact replacements_only. Qed.
Print Assumptions C08_replacements_only.

Example C08_example : exists ts, scan sample = Ok ts
  /\ map (fun t => (lexeme t, token_text t)) (filter (fun t => match ttype t with TCharRef => true | _ => false end) ts)
     = [(bs "--", bs "&#8212;"); (bs "(C)", bs "&#169;")].
Proof. eexists. split; vm_compute; reflexivity. Qed.
