(** * What block.html.tera gives for a block of each kind *)
From Verif Require SpecMeta SpecPage PageProofs ScriptHtml HtmlPage.
From Verif Require Import Base World Location Token Meta Inline Block Asg Json Html SpecJson TreeInd
  SpecScan SpecDoc SpecArticle SpecArticleHtml SpecScript SpecScriptHtml SpecHtmlPage SpecTemplates Tera Templates TeraProofs TemplateProofs LaidProofs.
Local Open Scope char_scope.
Local Open Scope nat_scope.

(** the template in parts *)
Definition parts : list node := Eval vm_compute in match block_nodes with [_; NIf _ [NIf _ l]] => l | _ => [] end.
Definition n_kind : node := Eval vm_compute in nth 0 parts (NText []).
Definition n_open : node := Eval vm_compute in nth 1 parts (NText []).
Definition n_title : node := Eval vm_compute in nth 2 parts (NText []).
Definition n_image : node := Eval vm_compute in nth 3 parts (NText []).
Definition n_content : node := Eval vm_compute in nth 4 parts (NText []).
Definition n_kids : node := Eval vm_compute in nth 5 parts (NText []).
Definition n_attribution : node := Eval vm_compute in nth 6 parts (NText []).
Definition n_close : node := Eval vm_compute in nth 7 parts (NText []).
Definition n_section : node := Eval vm_compute in nth 8 parts (NText []).
Definition block_shape : list node := Eval cbv [block_nodes] in
  match block_nodes with
  | [a; NIf l [NIf b _]] => [a; NIf l [NIf b [n_kind; n_open; n_title; n_image; n_content; n_kids; n_attribution; n_close; n_section]]]
  | l => l
  end.
Lemma in_parts : block_nodes = block_shape.
Proof. reflexivity. Qed.

Section Blocks.
Variable w : world.
Variable call : bytes -> bytes -> list (bytes * value) -> result bytes.
Notation nodes := (render_nodes w call).
Notation block_call := (block_call w call).
Definition head_inlines (h : head) : list (list inline) :=
  match h with
  | HSection _ t _ => [t]
  | HListItem _ p => [p]
  | HDListItem t p => [t; p]
  | HMacro _ c => [c]
  | HParent _ _ _ t => [t]
  | HCell l => [l]
  | _ => []
  end.
Definition leaf_call (b : block) : Prop :=
  match b with
  | Blk (HLeaf n _ _ l) m _ _ => call (bs "leaf_block_macros") (bs "process_leaf_block") [(bs "block", VJ (json_of_block b))] = Ok (leaf_shown n m l)
  | Blk (HParent PTable _ _ _) m k _ => call (bs "table_macros") (bs "process_table") [(bs "block", VJ (json_of_block b))]
      = if table_can w m (List.length k) then Ok (table_laid w m (map cell_of k)) else Panic
  | _ => True
  end.
Lemma text_none x e : bound (bs x) e = None -> text_in x e [].
Proof. intros H. exact H. Qed.
Lemma text_some x e c v : bound (bs x) e = Some (VJ (JStr (c :: v))) -> text_in x e (c :: v).
Proof. intros H. exact H. Qed.
Lemma s_call pre e sp f l vs r R : args_of w e l = Ok vs -> call sp f vs = R ->
  out pre (nodes e (NShow (ECall sp f l) :: r)) = let* s := R in out (pre ++ s) (nodes e r).
Proof. intros A C. rewrite (out_call _ _ _ _ _ _ _ _ _ A). now rewrite C. Qed.
Definition block_right (b : block) (s : bool) : Prop :=
  Forall (Forall (inline_call call "inline_macros")) match b with Blk h _ _ _ => head_inlines h end ->
  Forall block_call match b with Blk _ _ k _ => k end -> leaf_call b ->
  out [] (nodes [(bs "block", VJ (json_of_block b)); (bs "skip_tag", VB s)] block_nodes) = if shown w b then Ok (block_laid w s b) else Panic.
End Blocks.
Ltac text := first [apply text_none; reflexivity | eapply text_some; reflexivity].
Ltac open_tag := etransitivity; [eapply s_open; [reflexivity|eassumption|reflexivity|reflexivity|eassumption|reflexivity|text|text|text]|].
Ltac known :=
  match goal with
  | |- out _ (render_nodes _ _ _ (?n :: _)) = _ => is_const n; unfold n
  end.
Ltac bstep := first [known|
  lazymatch goal with
  | |- out _ (render_nodes _ _ _ (NFor _ _ [NShow (ECall _ _ [_])] :: _)) = _ =>
      etransitivity; [eapply s_inlines; [reflexivity|eassumption|eassumption]|]
  | |- out _ (render_nodes _ _ _ (NFor _ _ _ :: _)) = _ =>
      etransitivity; [eapply s_blocks; [reflexivity|eassumption|reflexivity|reflexivity|eassumption]|]
  | |- out _ (render_nodes _ _ _ (NIf [(EPath _ [_; _; _], [NText _; NShow _; NIf _ _; NText _])] [] :: _)) = _ =>
      etransitivity; [eapply s_attribution; [reflexivity|eassumption]|]
  | |- out _ (render_nodes _ _ _ (NIf [(EOp _ (EPath _ []) _, [NText _; NShow _; NText _])] [] :: _)) = _ =>
      first [etransitivity; [eapply s_close; reflexivity|] | etransitivity; [eapply s_untagged; reflexivity|]]
  | |- out _ (render_nodes _ _ _ (NIf [(EOp _ (EPath _ []) _, _)] [] :: _)) = _ =>
      first [open_tag | etransitivity; [eapply s_untagged; reflexivity|]]
  | |- out _ (render_nodes _ _ _ _) = _ => step
  | |- (if ?b then out _ _ else Panic) = _ => let E := fresh "Sh" in destruct b eqn:E; [|reflexivity]
  end].
Ltac fin := repeat match goal with H : forallb _ _ = true |- _ => rewrite H; clear H end; cbn [forallb]; apply (f_equal Ok); unfold around_html, apart, within, tagged, line; cbn [repeat];
  change (signed_dec (Z.of_N 1)) with (bs "1"); change (signed_dec (Z.of_N 5)) with (bs "5");
  cbn [map List.concat filled bs list_ascii_of_string]; repeat (progress (rewrite <- ?app_assoc; rewrite ?app_nil_r; cbn [app])); reflexivity.
Ltac start := intros CI CB CL; rewrite in_parts; unfold block_shape; cbn [head_inlines leaf_call] in CI, CL; cbn [shown block_laid].
Section Kinds.
Variable w : world.
Variable call : bytes -> bytes -> list (bytes * value) -> result bytes.
Notation block_right := (block_right w call).
Lemma section_runs id t n m k loc s : block_right (Blk (HSection id t n) m k loc) s.
Proof.
  start. pose proof (metas_block (HSection id t n) m k loc Logic.I) as M. set (j := json_of_block _) in *.
    assert (reach j [bs "name"] = Some (jstr "section")) as F1 by reflexivity.
    assert (reach j [bs "level"] = Some (JNum n)) as F2 by (unfold j; cbn [json_of_block]; destruct id, m; reflexivity).
    assert (reach j [bs "title"] = Some (JArr (map json_of_inline t))) as F3 by (unfold j; cbn [json_of_block]; destruct id, m; reflexivity).
    assert (reach j [bs "blocks"] = Some (JArr (map json_of_block k))) as F4 by (unfold j; cbn [json_of_block]; destruct id, m; reflexivity).
    assert (reach j [bs "principal"] = None) as F5 by (unfold j; cbn [json_of_block]; destruct id, m; reflexivity).
    assert (reach j [bs "inlines"] = None) as F6 by (unfold j; cbn [json_of_block]; destruct id, m; reflexivity).
    clearbody j. inversion CI as [|? ? C1 _]; subst.
    destruct (noted "id" m) as [|a u] eqn:N; destruct t as [|x t]; destruct k as [|y k]; repeat bstep; rewrite ?PageProofs.dec_numeral; fin.
Qed.
Lemma list_runs v m k loc s : block_right (Blk (HList v) m k loc) s.
Proof.
  start. pose proof (metas_block (HList v) m k loc Logic.I) as M. set (j := json_of_block _) in *.
    assert (reach j [bs "name"] = Some (jstr "list")) as F1 by (unfold j; cbn [json_of_block]; destruct v, m; reflexivity).
    assert (reach j [bs "variant"] = Some (JStr match v with LOrdered => bs "ordered" | LUnordered => bs "unordered" end)) as F2 by (unfold j; cbn [json_of_block]; destruct v, m; reflexivity).
    assert (reach j [bs "title"] = None) as F3 by (unfold j; cbn [json_of_block]; destruct v, m; reflexivity).
    assert (reach j [bs "items"] = Some (JArr (map json_of_block k))) as F4 by (unfold j; cbn [json_of_block]; destruct v, m; reflexivity).
    assert (reach j [bs "blocks"] = None) as F5 by (unfold j; cbn [json_of_block]; destruct v, m; reflexivity).
    clearbody j. destruct v; repeat bstep; destruct s; fin.
Qed.
Lemma item_runs mk p m k loc s : block_right (Blk (HListItem mk p) m k loc) s.
Proof.
  start. pose proof (metas_block (HListItem mk p) m k loc Logic.I) as M. set (j := json_of_block _) in *.
    assert (reach j [bs "name"] = Some (jstr "listItem")) as F1 by reflexivity.
    assert (reach j [bs "principal"] = Some (JArr (map json_of_inline p))) as F2 by (unfold j; cbn [json_of_block]; destruct k, m; reflexivity).
    assert (reach j [bs "title"] = None) as F3 by (unfold j; cbn [json_of_block]; destruct k, m; reflexivity).
    assert (reach j [bs "inlines"] = None) as F4 by (unfold j; cbn [json_of_block]; destruct k, m; reflexivity).
    assert (reach j [bs "blocks"] = match k with [] => None | _ => Some (JArr (map json_of_block k)) end) as F5 by (unfold j; cbn [json_of_block]; destruct k, m; reflexivity).
    clearbody j. inversion CI as [|? ? C1 _]; subst. destruct p as [|x p]; destruct k as [|y k]; repeat bstep; destruct s; fin.
Qed.
Lemma dlist_runs  m k loc s : block_right (Blk (HDList) m k loc) s.
Proof.
  start. pose proof (metas_block HDList m k loc Logic.I) as M. set (j := json_of_block _) in *.
    assert (reach j [bs "name"] = Some (jstr "dlist")) as F1 by reflexivity.
    assert (reach j [bs "title"] = None) as F3 by (unfold j; cbn [json_of_block]; destruct m; reflexivity).
    assert (reach j [bs "items"] = Some (JArr (map json_of_block k))) as F4 by reflexivity.
    assert (reach j [bs "blocks"] = None) as F5 by (unfold j; cbn [json_of_block]; destruct m; reflexivity).
    clearbody j. repeat bstep; destruct s; fin.
Qed.
End Kinds.
