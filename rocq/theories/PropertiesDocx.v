(** * C34, C35, C36: the docx output *)
From Verif Require Import Base World Location Token Scanner Meta Inline Block Asg Parser Docx SpecLevel LevelProofs SpecScan SpecText SpecDocx DocxProofs CharrefProofs.
Local Open Scope char_scope.
Local Open Scope nat_scope.

Definition lines (l : list bytes) : bytes := List.concat (map (fun s => s ++ [NL]) l).
Definition parsed (src : bytes) : result asg := parse world0 20 [] false src.

(** ** C34: with two or more columns the rows are full and hold the first cells in order;
    the row that the last cell belongs to is never written.  Missing: that row (refuted),
    and tables of one column, whose first row has two cells (refuted). *)
Theorem C34_partial : forall img a d x v dl t m k loc c, render_docx img a = Ok d -> In x (a_blocks a) ->
  within (Blk (HParent PTable v dl t) m k loc) x -> columns m c -> 2 <= c ->
  exists rows, In rows (tables d) /\ Forall (fun r => List.length r = c) rows
    /\ Forall2 cell_para (firstn (c * ((List.length k - 1) / c)) k) (List.concat rows).
Proof. exact docx_tables. Qed.
Print Assumptions C34_partial.

Definition table_source : bytes :=
  lines [bs "== S"; []; bs "[cols=""2""]"; bs "|==="; bs "|a |*b*"; bs "|c |d"; bs "|e"; bs "|==="].
Example C34_example : exists a d x v dl t m k loc, parsed table_source = Ok a /\ render_docx (fun _ => Ok tt) a = Ok d
  /\ In x (a_blocks a) /\ within (Blk (HParent PTable v dl t) m k loc) x /\ columns m 2 /\ List.length k = 5
  /\ map (map (map pa_runs)) (tables d)
     = [[[[RText (bs "a ") no_props]; [RText (bs "b") (mkProps true false false None None)]];
         [[RText (bs "c ") no_props]; [RText (bs "d") no_props]]]].
Proof.
  remember (parsed table_source) as r eqn:E. vm_compute in E.
  match type of E with r = Ok ?x => exists x end. do 8 eexists. split; [exact E|]. split; [vm_compute; reflexivity|].
  split; [left; reflexivity|]. split; [eapply within_kid; [apply within_self|left; reflexivity|exact I]|].
  split.
  { eexists _, _. split; [reflexivity|]. split; [left; reflexivity|]. split; [repeat constructor; intros []|].
    split; [|reflexivity]. apply decimal_val. split; [discriminate|reflexivity]. }
  split; vm_compute; reflexivity.
Qed.
(** of four cells in two columns the last two are lost; with one column the first row has two *)
Theorem C34_refuted : exists src a d m k loc v dl t, parsed src = Ok a /\ render_docx (fun _ => Ok tt) a = Ok d
  /\ a_blocks a = [Blk (HParent PTable v dl t) m k loc] /\ columns m 2 /\ List.length k = 4
  /\ map (map (@List.length para)) (tables d) = [[2]].
Proof.
  exists (lines [bs "[cols=""2""]"; bs "|==="; bs "|a |b"; bs "|c |d"; bs "|==="]). do 8 eexists.
  split; [vm_compute; reflexivity|]. split; [vm_compute; reflexivity|]. split; [reflexivity|].
  split.
  { eexists _, _. split; [reflexivity|]. split; [left; reflexivity|]. split; [repeat constructor; intros []|].
    split; [|reflexivity]. apply decimal_val. split; [discriminate|reflexivity]. }
  split; vm_compute; reflexivity.
Qed.
Print Assumptions C34_refuted.
Theorem C34_one_column_refuted : exists src a d m k loc v dl t, parsed src = Ok a /\ render_docx (fun _ => Ok tt) a = Ok d
  /\ a_blocks a = [Blk (HParent PTable v dl t) m k loc] /\ columns m 1 /\ List.length k = 4
  /\ map (map (@List.length para)) (tables d) = [[2; 1]].
Proof.
  exists (lines [bs "[cols=""1""]"; bs "|==="; bs "|a"; bs "|b"; bs "|c"; bs "|d"; bs "|==="]). do 8 eexists.
  split; [vm_compute; reflexivity|]. split; [vm_compute; reflexivity|]. split; [reflexivity|].
  split.
  { eexists _, _. split; [reflexivity|]. split; [left; reflexivity|]. split; [repeat constructor; intros []|].
    split; [|reflexivity]. apply decimal_val. split; [discriminate|reflexivity]. }
  split; vm_compute; reflexivity.
Qed.
Print Assumptions C34_one_column_refuted.

(** ** C35: for inlines in which nothing follows an inner span inside the span around it,
    sub- and superscript are outermost and no text is both marked and a footnote.  Missing: text after an inner span, which keeps its
    format, and sub- and superscript inside another span, which drop the format around
    (both refuted). *)
Theorem C35_partial : forall l, Forall (nested []) l -> forall lb lb' rs, runs_from_inlines lb l = (lb', rs) ->
  Forall2 run_of (List.concat (map (leaves []) l)) rs.
Proof. exact runs_exact. Qed.
Print Assumptions C35_partial.
Definition first_inlines (src : bytes) : list inline :=
  match parsed src with
  | Ok a => match a_blocks a with Blk (HLeaf _ _ _ l) _ _ _ :: _ => l | _ => [] end
  | _ => []
  end.
Example C35_example : Forall (nested []) (first_inlines (bs "a *b _c_* d `e` #f#"))
  /\ snd (runs_from_inlines false (first_inlines (bs "a *b _c_* d `e` #f#")))
     = [RText (bs "a ") no_props; RText (bs "b ") (mkProps true false false None None);
        RText (bs "c") (mkProps true true false None None); RText (bs " d ") no_props;
        RText (bs "e") (mkProps false false true None None); RText (bs " ") no_props;
        RText (bs "f") (mkProps false false false (Some (bs "yellow")) None)].
Proof.
  split; [|vm_compute; reflexivity].
  remember (first_inlines (bs "a *b _c_* d `e` #f#")) as l eqn:E. vm_compute in E. subst l.
  assert (forall vs v f l m loc o, ~ raised v -> v <> SMark -> v <> SFootnote -> nested_list (v :: vs) l -> nested vs (ISpan v f l m loc o)) as S.
  { intros. constructor; tauto. }
  repeat (apply Forall_cons; [solve [apply nested_lit|apply nested_span; [intros [K|K]; discriminate K|intros _ []|intros _ []|repeat constructor]
    |apply S; [intros [K|K]; discriminate K|discriminate|discriminate|
       apply nested_cons; [exact I|apply nested_lit|apply nested_one, S; [intros [K|K]; discriminate K|discriminate|discriminate|repeat constructor]]]]|]).
  apply Forall_nil.
Qed.
(** the text after the inner span is italic too *)
Theorem C35_refuted : exists lb l rs, snd (runs_from_inlines lb l) = rs /\ l = first_inlines (bs "*a _b_ c*")
  /\ map snd (List.concat (map (leaves []) l)) = [[SStrong]; [SEmphasis; SStrong]; [SStrong]]
  /\ nth_error rs 2 = Some (RText (bs " c") (mkProps true true false None None)).
Proof. exists false. do 2 eexists. split; [reflexivity|]. split; [reflexivity|]. split; vm_compute; reflexivity. Qed.
Print Assumptions C35_refuted.
(** the superscript is not bold *)
Theorem C35_superscript_refuted : exists lb l rs, snd (runs_from_inlines lb l) = rs /\ l = first_inlines (bs "*a ^b^*")
  /\ map snd (List.concat (map (leaves []) l)) = [[SStrong]; [SSuperscript; SStrong]]
  /\ nth_error rs 1 = Some (RText (bs "b") (mkProps false false false None (Some VSuper))).
Proof. exists false. do 2 eexists. split; [reflexivity|]. split; [reflexivity|]. split; vm_compute; reflexivity. Qed.
Print Assumptions C35_superscript_refuted.

(** the texts and line breaks of the runs, for all inlines *)
Theorem C35_text : forall l lb lb' rs, runs_from_inlines lb l = (lb', rs) ->
  written lb (List.concat (map (stretches false) l)) rs.
Proof. exact runs_written. Qed.
Print Assumptions C35_text.
Example C35_text_example :
  let l := first_inlines (lines [bs "a & b &copy; *c"; bs "d* +"; bs "  e  "; bs "f"]) in
  List.concat (map (stretches false) l)
  = [(Some (LText, bs "a & b "), false); (Some (LCharref, bs "&copy;"), false); (Some (LText, bs " "), false);
     (Some (LText, bs "c" ++ NL :: bs "d"), true); (Some (LText, bs " "), false); (None, false);
     (Some (LText, NL :: bs "  e  " ++ NL :: bs "f"), false)]
  /\ snd (runs_from_inlines false l)
     = [RText (bs "a & b ") no_props; RText (bs "©") no_props; RText (bs " ") no_props;
        RText (bs "c d") (mkProps true false false None None); RText (bs " ") no_props; RBreak; RText (bs "e f") no_props].
Proof. split; vm_compute; reflexivity. Qed.

(** ** C36: for every graph without thematic break; also the styles others are based on are
    defined.  Missing: thematic breaks (refuted). *)
Theorem C36_partial : forall img a d, Forall no_thematic_break (a_blocks a) -> render_docx img a = Ok d ->
  NoDup (map fst (d_styles d)) /\ Forall (fun s => In s (map fst (d_styles d))) (styles_used d)
  /\ Forall (fun e => match snd e with Some b => In b (map fst (d_styles d)) | None => True end) (d_styles d).
Proof. exact docx_styles. Qed.
Print Assumptions C36_partial.
Example C36_example : exists a d, parsed (lines [bs "== A"; []; bs "x"; []; bs "* y"; []; bs "----"; bs "z"; bs "----"; []; bs "NOTE: n"; []; bs "t:: d"]) = Ok a
  /\ Forall no_thematic_break (a_blocks a) /\ render_docx (fun _ => Ok tt) a = Ok d
  /\ styles_used d = map bs ["Heading 1"; "Normal"; "ListParagraph"; "Monospace"; "Admonition Title"; "Admonition Text"; "Definition Term"; "Definition"]%string.
Proof.
  do 2 eexists. split; [vm_compute; reflexivity|]. split; [repeat constructor|]. split; vm_compute; reflexivity.
Qed.
Theorem C36_refuted : exists src a d, src = lines [bs "'''"] /\ parsed src = Ok a /\ render_docx (fun _ => Ok tt) a = Ok d
  /\ styles_used d = [bs "ThematicBreak"] /\ memb (bs "ThematicBreak") (map fst (d_styles d)) = false.
Proof. do 3 eexists. split; [reflexivity|]. do 3 (split; [vm_compute; reflexivity|]). vm_compute. reflexivity. Qed.
Print Assumptions C36_refuted.

(** ** C57: character references become their characters.  Missing: references by number in
    the source, which are no references to the scanner, names outside the table, which stay as
    they are, the no-break space, which becomes a space, and the en dash, which becomes an em
    dash (all refuted). *)
Theorem C57_partial : forall v n k loc, In v (map fst replaced) -> stands v n -> n <> 160%N -> n <> 8211%N ->
  runs_from_inlines false [ILit LCharref k v loc] = (false, [RText (code_char n) no_props]).
Proof. exact charref_char. Qed.
Print Assumptions C57_partial.
(** no other reference becomes the character it stands for *)
Theorem C57_exact_partial : forall v n k loc, stands v n ->
  (runs_from_inlines false [ILit LCharref k v loc] = (false, [RText (code_char n) no_props])
   <-> In v (map fst replaced) /\ n <> 160%N /\ n <> 8211%N).
Proof. exact charref_exact. Qed.
Print Assumptions C57_exact_partial.
Example C57_example : first_inlines (bs "(C) &euro;") =
    [ILit LCharref false (bs "&#169;") [mkLoc 1 1 []; mkLoc 1 3 []]; ILit LText false (bs " ") [mkLoc 1 4 []; mkLoc 1 4 []];
     ILit LCharref false (bs "&euro;") [mkLoc 1 5 []; mkLoc 1 10 []]]
  /\ stands (bs "&euro;") 8364 /\ code_char 8364 = bs "€" /\ stands (bs "&#169;") 169 /\ code_char 169 = bs "©".
Proof.
  split; [vm_compute; reflexivity|]. split; [apply stands_name; vm_compute; tauto|]. split; [reflexivity|]. split; [|reflexivity].
  apply (stands_number (bs "169")). apply decimal_val. split; [discriminate|reflexivity].
Qed.
Definition docx_text (src : bytes) : list run := snd (runs_from_inlines false (first_inlines src)).
Theorem C57_refuted : exists src n, stands src n /\ docx_text src <> [RText (code_char n) no_props]
  /\ src = bs "&#8364;" /\ docx_text src = [RText (bs "&#8364;") no_props].
Proof.
  exists (bs "&#8364;"), 8364%N. split; [apply (stands_number (bs "8364")); apply decimal_val; split; [discriminate|reflexivity]|].
  split; [intros X; vm_compute in X; discriminate X|]. split; vm_compute; reflexivity.
Qed.
Print Assumptions C57_refuted.
Theorem C57_name_refuted : exists src n, stands src n /\ docx_text src <> [RText (code_char n) no_props]
  /\ src = bs "&hellip;" /\ docx_text src = [RText (bs "&hellip;") no_props].
Proof.
  exists (bs "&hellip;"), 8230%N. split; [apply stands_name; vm_compute; tauto|].
  split; [intros X; vm_compute in X; discriminate X|]. split; vm_compute; reflexivity.
Qed.
Print Assumptions C57_name_refuted.
Theorem C57_ndash_refuted : exists src n, stands src n /\ docx_text src <> [RText (code_char n) no_props]
  /\ src = bs "&ndash;" /\ docx_text src = [RText (code_char 8212) no_props].
Proof.
  exists (bs "&ndash;"), 8211%N. split; [apply stands_name; vm_compute; tauto|].
  split; [intros X; vm_compute in X; discriminate X|]. split; vm_compute; reflexivity.
Qed.
Print Assumptions C57_ndash_refuted.
Theorem C57_nbsp_refuted : exists src n, stands src n /\ docx_text src <> [RText (code_char n) no_props]
  /\ src = bs "&nbsp;" /\ docx_text src = [RText (bs " ") no_props].
Proof.
  exists (bs "&nbsp;"), 160%N. split; [apply stands_name; vm_compute; tauto|].
  split; [intros X; vm_compute in X; discriminate X|]. split; vm_compute; reflexivity.
Qed.
Print Assumptions C57_nbsp_refuted.
