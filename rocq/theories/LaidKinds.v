(** * What block.html.tera gives for a block of each kind, continued *)
From Verif Require SpecMeta SpecPage PageProofs ScriptHtml HtmlPage.
From Verif Require Import Base World Location Token Meta Inline Block Asg Json Html SpecJson TreeInd
  SpecScan SpecDoc SpecArticle SpecArticleHtml SpecScript SpecScriptHtml SpecHtmlPage SpecTemplates Tera Templates TeraProofs TemplateProofs LaidProofs LaidBlocks.
Local Open Scope char_scope.
Local Open Scope nat_scope.

Section Kinds.
Variable w : world.
Variable call : bytes -> bytes -> list (bytes * value) -> result bytes.
Notation block_right := (block_right w call).
Lemma ditem_runs ts p m k loc s : block_right (Blk (HDListItem ts p) m k loc) s.
Proof.
  start. pose proof (metas_block (HDListItem ts p) m k loc Logic.I) as M. set (j := json_of_block _) in *.
    assert (reach j [bs "name"] = Some (jstr "dlistItem")) as F1 by reflexivity.
    assert (reach j [bs "terms"] = Some (JArr (map json_of_inline ts))) as F2 by reflexivity.
    assert (reach j [bs "principal"] = match p with [] => None | _ => Some (JArr (map json_of_inline p)) end) as F3 by (unfold j; cbn [json_of_block]; destruct p, k, m; reflexivity).
    assert (reach j [bs "title"] = None) as F4 by (unfold j; cbn [json_of_block]; destruct p, k, m; reflexivity).
    assert (reach j [bs "inlines"] = None) as F5 by (unfold j; cbn [json_of_block]; destruct p, k, m; reflexivity).
    assert (reach j [bs "blocks"] = match k with [] => None | _ => Some (JArr (map json_of_block k)) end) as F6 by (unfold j; cbn [json_of_block]; destruct p, k, m; reflexivity).
    clearbody j. inversion CI as [|? ? C1 C']; subst. inversion C' as [|? ? C2 _]; subst.
    destruct ts as [|z ts]; destruct p as [|x p]; destruct k as [|y k]; repeat bstep; destruct s; fin.
Qed.
Lemma break_runs v m k loc s : block_right (Blk (HBreak v) m k loc) s.
Proof.
  start. set (j := json_of_block _) in *.
    assert (reach j [bs "name"] = Some (jstr "break")) as F1 by reflexivity.
    assert (reach j [bs "variant"] = Some (jstr match v with BPage => "page" | BThematic => "thematic" end)) as F2 by reflexivity.
    clearbody j. destruct v; repeat bstep; fin.
Qed.
Lemma image_runs tg c m k loc s : block_right (Blk (HMacro tg c) m k loc) s.
Proof.
  start. pose proof (metas_block (HMacro tg c) m k loc Logic.I) as M. set (j := json_of_block _) in *.
    assert (reach j [bs "name"] = Some (jstr "image")) as F1 by reflexivity.
    assert (reach j [bs "target"] = Some (JStr tg)) as F2 by reflexivity.
    assert (reach j [bs "title"] = None) as F3 by (unfold j; cbn [json_of_block]; destruct c, m; reflexivity).
    assert (reach j [bs "caption"] = match c with [] => None | _ => Some (JArr (map json_of_inline c)) end) as F4 by (unfold j; cbn [json_of_block]; destruct c, m; reflexivity).
    assert (reach j [bs "principal"] = None) as F5 by (unfold j; cbn [json_of_block]; destruct c, m; reflexivity).
    assert (reach j [bs "inlines"] = None) as F6 by (unfold j; cbn [json_of_block]; destruct c, m; reflexivity).
    assert (reach j [bs "blocks"] = None) as F7 by (unfold j; cbn [json_of_block]; destruct c, m; reflexivity).
    clearbody j. inversion CI as [|? ? C1 _]; subst.
    destruct (noted "id" m) as [|a u] eqn:N; destruct (noted "positional_1" m) as [|a' u'] eqn:N'; destruct c as [|x c]; repeat bstep; destruct s; fin.
Qed.
Lemma leaf_block_runs n f d l m k loc s : block_right (Blk (HLeaf n f d l) m k loc) s.
Proof.
  start. set (j := json_of_block _) in *.
    assert (reach j [bs "name"] = Some (JStr (leaf_name_name n))) as F1 by reflexivity.
    clearbody j. destruct n; cbn [leaf_name_name] in F1; bstep; bstep; bstep; (etransitivity; [eapply s_call; [reflexivity|exact CL]|]; cbn [bind]; rewrite out_nil; reflexivity).
Qed.
Lemma parent_runs n v d t m k loc s : block_right (Blk (HParent n v d t) m k loc) s.
Proof.
  start. pose proof (metas_block (HParent n v d t) m k loc Logic.I) as M. set (j := json_of_block _) in *.
    assert (reach j [bs "name"] = Some (JStr (parent_name_name n))) as F1 by reflexivity.
    assert (reach j [bs "variant"] = option_map (fun x => JStr (parent_variant_name x)) v) as F2 by (unfold j; cbn [json_of_block]; destruct v, d, t, m; reflexivity).
    assert (reach j [bs "title"] = match t with [] => None | _ => Some (JArr (map json_of_inline t)) end) as F3 by (unfold j; cbn [json_of_block]; destruct v, d, t, m; reflexivity).
    assert (reach j [bs "principal"] = None) as F5 by (unfold j; cbn [json_of_block]; destruct v, d, t, m; reflexivity).
    assert (reach j [bs "inlines"] = None) as F6 by (unfold j; cbn [json_of_block]; destruct v, d, t, m; reflexivity).
    assert (reach j [bs "blocks"] = Some (JArr (map json_of_block k))) as F7 by (unfold j; cbn [json_of_block]; destruct v, d, t, m; reflexivity).
    clearbody j. inversion CI as [|? ? C1 _]; subst.
    destruct n; cbn [parent_name_name] in F1.
    { destruct v as [v|]; cbn [option_map] in F2.
      - assert (exists a u, admonition_name v = a :: u /\ parent_variant_name v = a :: u) as (a & u & Ev & Ev') by (destruct v; eexists; eexists; split; reflexivity).
        rewrite Ev' in F2. rewrite Ev.
        destruct t as [|x t]; destruct k as [|y k]; repeat bstep; destruct s; fin.
      - repeat bstep. rewrite out_set_panic; [reflexivity|]. eapply v_path_panic; [reflexivity|eassumption]. }
    5:{ bstep. bstep. bstep. etransitivity; [eapply s_call; [reflexivity|exact CL]|]. destruct (table_can w m (List.length k)); [|reflexivity].
        cbn [bind]. now rewrite out_nil. }
    all: destruct t as [|x t]; destruct k as [|y k]; repeat bstep; destruct s; fin.
Qed.
Lemma cell_block_runs l m k loc s : block_right (Blk (HCell l) m k loc) s.
Proof.
  start. pose proof (metas_block (HCell l) m k loc Logic.I) as M. set (j := json_of_block _) in *.
    assert (reach j [bs "name"] = Some (jstr "tableCell")) as F1 by reflexivity.
    assert (reach j [bs "title"] = None) as F3 by (unfold j; cbn [json_of_block]; destruct m; reflexivity).
    assert (reach j [bs "principal"] = None) as F5 by (unfold j; cbn [json_of_block]; destruct m; reflexivity).
    assert (reach j [bs "inlines"] = Some (JArr (map json_of_inline l))) as F6 by (unfold j; cbn [json_of_block]; destruct m; reflexivity).
    assert (reach j [bs "blocks"] = None) as F7 by (unfold j; cbn [json_of_block]; destruct m; reflexivity).
    clearbody j. inversion CI as [|? ? C1 _]; subst. destruct l as [|x l]; repeat bstep; destruct s; fin.
Qed.
Lemma block_runs b s : block_right b s.
Proof.
  destruct b as [h m k loc]. destruct h.
  - apply section_runs.
  - apply list_runs.
  - apply item_runs.
  - apply dlist_runs.
  - apply ditem_runs.
  - apply break_runs.
  - apply image_runs.
  - apply leaf_block_runs.
  - apply parent_runs.
  - apply cell_block_runs.
Qed.
End Kinds.
