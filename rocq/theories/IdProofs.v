(** * Identifiers in the HTML *)
From Verif Require ArticleHtml.
From Verif Require Import Base World Location Token Meta Inline Block Asg Html ScanLemmas TreeInd SpecIds.
Local Open Scope char_scope.
Local Open Scope nat_scope.
Local Arguments bs : simpl never.
Notation skipped := ArticleHtml.skipped.

Lemma ok_inj (a b : list piece) : (Ok a : result (list piece)) = Ok b -> a = b.
Proof. now intros [= ->]. Qed.
Lemma ids_app a b : tag_ids (a ++ b) = tag_ids a ++ tag_ids b.
Proof. unfold tag_ids. now rewrite map_app, concat_app. Qed.
Definition attr_ids (l : list (bytes * bytes)) : list bytes := map snd (filter (fun kv => beqb (fst kv) (bs "id")) l).
Lemma attr_ids_app a b : attr_ids (a ++ b) = attr_ids a ++ attr_ids b.
Proof. unfold attr_ids. now rewrite filter_app, map_app. Qed.
Lemma ids_tag t a l : tag_ids (html_tag t a l) = attr_ids a ++ tag_ids l.
Proof. unfold html_tag. rewrite !ids_app. unfold tag_ids. cbn. now rewrite !app_nil_r. Qed.
Lemma ids_class m : attr_ids (class_attr m) = [].
Proof. destruct m as [m|]; [|reflexivity]. cbn [class_attr]. destruct (m_roles m); reflexivity. Qed.
Lemma ids_opt k v : beqb (bs k) (bs "id") = false -> attr_ids (opt_attr k v) = [].
Proof. intros E. destruct v; [|reflexivity]. unfold attr_ids. cbn [opt_attr filter fst]. now rewrite E. Qed.
Lemma ids_inline i : tag_ids (html_inline i) = [].
Proof.
  induction i using inline_ind'; cbn [html_inline]; try reflexivity.
  - assert (tag_ids (List.concat (map html_inline l)) = []) as E.
    { induction H; [reflexivity|]. cbn [map List.concat]. now rewrite ids_app, H, IHForall. }
    rewrite !ids_app, E. unfold tag_ids at 1. cbn [map List.concat piece_ids]. fold (attr_ids (class_attr m ++ match v with SFootnote => [(bs "data-type", bs "footnote")] | _ => [] end)).
    rewrite attr_ids_app, ids_class. destruct v; reflexivity.
  - assert (tag_ids (List.concat (map html_inline l)) = []) as E.
    { induction H; [reflexivity|]. cbn [map List.concat]. now rewrite ids_app, H, IHForall. }
    destruct v; [| |unfold tag_ids; cbn [map List.concat piece_ids]; fold (attr_ids (class_attr m ++ [(bs "src", t)])); rewrite attr_ids_app, ids_class; reflexivity].
    all: rewrite !ids_app; unfold tag_ids at 1; cbn [map List.concat piece_ids];
      match goal with |- context [map snd (filter ?f ?a)] => change (map snd (filter f a)) with (attr_ids a) end; rewrite attr_ids_app, ids_class;
      destruct l; [reflexivity|]; rewrite E; reflexivity.
Qed.
Lemma ids_inlines l : tag_ids (html_inlines l) = [].
Proof. unfold html_inlines. induction l; [reflexivity|]. cbn [map List.concat]. now rewrite ids_app, ids_inline, IHl. Qed.
Lemma ids_attribution m : tag_ids (html_attribution m) = [].
Proof.
  unfold html_attribution. destruct (meta_attr "attribution" m); [|reflexivity]. rewrite ids_tag, ids_app.
  destruct (meta_attr "citation" m); reflexivity.
Qed.
Lemma ids_title h : tag_ids (html_title h) = [].
Proof. destruct h; try reflexivity; cbn [html_title]; destruct title; try reflexivity; [|destruct n]; rewrite ids_tag, ids_inlines; reflexivity. Qed.
Lemma ids_image h m : tag_ids (html_image h m) = [].
Proof.
  destruct h; try reflexivity. cbn [html_image]. rewrite ids_app.
  assert (tag_ids (match caption with [] => [] | _ => html_tag "figcaption" [] (html_inlines caption) end) = []) as ->
    by (destruct caption; [reflexivity|]; rewrite ids_tag, ids_inlines; reflexivity).
  unfold tag_ids. cbn [map List.concat piece_ids]. fold (attr_ids ([(bs "src", target)] ++ opt_attr "alt" (meta_attr "positional_1" m))).
  rewrite attr_ids_app, ids_opt by reflexivity. reflexivity.
Qed.
Lemma ids_principal h : tag_ids (html_principal h) = [].
Proof. destruct h; try reflexivity; cbn [html_principal]; try (destruct principal; [reflexivity|]; rewrite ids_tag, ids_inlines; reflexivity). apply ids_inlines. Qed.
Lemma ids_terms h : tag_ids (html_terms h) = [].
Proof. destruct h; try reflexivity; cbn [html_terms]. destruct terms; [reflexivity|]; rewrite ids_tag, ids_inlines; reflexivity. Qed.
Lemma ids_leaf n l m : tag_ids (html_leaf n l m) = [].
Proof.
  destruct n; cbn [html_leaf]; rewrite ?ids_tag, ?attr_ids_app, ids_inlines, ?ids_class, ?ids_opt; try reflexivity.
Qed.
Lemma ids_cells t k l : tag_ids (List.concat (map (html_cell t k) l)) = [].
Proof. induction l; [reflexivity|]. cbn [map List.concat]. unfold html_cell at 1. now rewrite ids_app, ids_tag, ids_inlines, IHl. Qed.
Lemma ids_body cols k num l : forall p, html_body_cells cols k num l = Ok p -> tag_ids p = [].
Proof.
  induction l; cbn [html_body_cells]; intros p E; [apply ok_inj in E as <-; reflexivity|].
  destruct (row_break cols a num) as [brk|e| | |]; try discriminate E. cbn [bind] in E.
  destruct (html_body_cells cols k num l) as [rest|e| | |]; try discriminate E. cbn [bind] in E. apply ok_inj in E as <-.
  unfold html_cell. rewrite !ids_app, ids_tag, ids_inlines, (IHl _ eq_refl). destruct brk; reflexivity.
Qed.
Lemma ids_table w m k p : html_table w m k = Ok p -> tag_ids p = [].
Proof.
  unfold html_table. destruct m as [m|]; [|discriminate]. destruct (mget _ _) as [cv|]; [|discriminate]. cbv zeta.
  destruct ((_ <? 0)%Z || _)%bool; [discriminate|].
  set (st := Z.to_nat _). destruct (html_body_cells _ _ _ _) as [body|e| | |] eqn:E; try discriminate. cbn [bind]. intros <-%ok_inj.
  rewrite !ids_app, (ids_body _ _ _ _ _ E). destruct (memb (bs "header") (m_options m)); [|reflexivity].
  rewrite ids_app, ids_tag, ids_cells. reflexivity.
Qed.

Lemma mget_find k (l : list (bytes * bytes)) v : mget k l = Some v <-> find (fun p => beqb (fst p) k) l = Some (k, v).
Proof.
  induction l as [|(k', v') r IH]; [split; discriminate|]. cbn [mget find fst].
  assert (beqb k' k = beqb k k') as -> by (destruct (beqb k k') eqn:E, (beqb k' k) eqn:F; try reflexivity; exfalso;
    [apply ScanLemmas.beqb_eq in E|apply ScanLemmas.beqb_eq in F]; subst; rewrite ScanLemmas.beqb_refl in *; discriminate).
  destruct (beqb k k') eqn:E; [|exact IH]. apply ScanLemmas.beqb_eq in E. subst. split; [intros [= ->]|intros [= ->]]; reflexivity.
Qed.
Lemma id_attr m i : In i (attr_ids (opt_attr "id" (meta_attr "id" m))) <-> block_id m i.
Proof.
  unfold block_id. destruct m as [m|]; cbn [meta_attr].
  2:{ split; [intros []|intros (x & [=] & _)]. }
  destruct (mget (bs "id") (m_attrs m)) as [v|] eqn:E.
  - pose proof (proj1 (mget_find _ _ _) E) as F. destruct v as [|c v].
    + split; [intros []|intros (x & [= <-] & G & N)]. congruence.
    + unfold attr_ids. cbn [opt_attr filter fst]. rewrite ScanLemmas.beqb_refl. cbn [map snd In]. split.
      * intros [<-|[]]. exists m. split; [reflexivity|]. split; [exact F|discriminate].
      * intros (x & [= <-] & G & N). left. congruence.
  - split; [intros []|]. intros (x & [= <-] & G & N). apply mget_find in G. congruence.
Qed.

Lemma kids_ids w s k : Forall (fun b => forall s p, html_block w s b = Ok p -> forall i, In i (tag_ids p) <-> shows_id s b i) k ->
  forall p, skipped w s k = Ok p -> forall i, In i (tag_ids p) <-> exists b, In b k /\ shows_id s b i.
Proof.
  induction 1 as [|x r Hx F IH]; cbn [ArticleHtml.skipped]; intros p E i.
  - apply ok_inj in E as <-. split; [intros []|intros (b & [] & _)].
  - destruct (html_block w s x) as [q|e| | |] eqn:EX; try discriminate E. cbn [bind] in E.
    destruct (skipped w s r) as [q'|e| | |]; try discriminate E. cbn [bind] in E. apply ok_inj in E as <-.
    rewrite ids_app, in_app_iff, (Hx _ _ EX), (IH _ eq_refl). split.
    + intros [H|(b & H & K)]; [exists x; split; [now left|exact H]|exists b; split; [now right|exact K]].
    + intros (b & [<-|H] & K); [now left|right; now exists b].
Qed.
Lemma block_ids w b : forall s p, html_block w s b = Ok p -> forall i, In i (tag_ids p) <-> shows_id s b i.
Proof.
  induction b as [h m k loc IH] using block_ind'. intros s p. rewrite ArticleHtml.html_block_eq. intros E i.
  (* blocks with blocks inside *)
  assert (forall f, (forall n d t l, h <> HLeaf n d t l) -> (forall v, h <> HBreak v) -> (forall v d t, h <> HParent PTable v d t) -> (forall a b c, h <> HSection a b c) ->
    (forall t c, h <> HMacro t c) -> (forall l, h <> HCell l) ->
    (let* q := skipped w (is_admonition h) k in Ok (f q)) = Ok p -> (forall q, tag_ids (f q) = tag_ids q) ->
    In i (tag_ids p) <-> shows_id s (Blk h m k loc) i) as G.
  { intros f N1 N2 N3 N4 N5 N6 E' TI. destruct (skipped w (is_admonition h) k) as [q|e| | |] eqn:EK; try discriminate E'. cbn [bind] in E'. apply ok_inj in E' as <-.
    rewrite TI, (kids_ids w _ k IH _ EK).
    assert (is_admonition h = match h with HParent PAdmonition _ _ _ => true | _ => false end) as AD by (destruct h as [| | | | | | | |n| ]; try reflexivity; destruct n; reflexivity).
    split.
    - intros (b & Hb & Kb).
      eapply shows_inside; [exact Hb| |rewrite <- AD; exact Kb]. destruct h; try exact I; try (exfalso; first [eapply N1; reflexivity|eapply N2; reflexivity|eapply N5; reflexivity|eapply N6; reflexivity]).
      destruct n; try exact I. eapply N3; reflexivity.
    - intros H. inversion H; subst.
      + exfalso. eapply N4. reflexivity.
      + exfalso. eapply N5. reflexivity.
      + exists b. split; [assumption|]. rewrite AD. assumption. }
  assert (forall (tag : string) a x y z q, attr_ids a = [] ->
    tag_ids (html_terms h ++ if s then x ++ y ++ z ++ q ++ html_attribution m else html_tag tag (class_attr m ++ opt_attr "id" (block_id_attr h m) ++ a) (x ++ y ++ z ++ q ++ html_attribution m))
    = (if s then [] else attr_ids (opt_attr "id" (block_id_attr h m))) ++ tag_ids x ++ tag_ids y ++ tag_ids z ++ tag_ids q) as T.
  { intros tag a x y z q A. rewrite ids_app, ids_terms. destruct s; rewrite ?ids_tag, ?attr_ids_app, ?A, ?ids_class, !ids_app, ids_attribution, ?app_nil_r; reflexivity. }
  assert (forall v, attr_ids (opt_attr "data-type" v) = []) as DT by (intros; now apply ids_opt).
  destruct h.
  - (* section *)
    destruct (skipped w false k) as [q|e| | |] eqn:EK; try discriminate E. cbn [bind] in E. apply ok_inj in E as <-.
    rewrite ids_tag, !ids_app, ids_title, ids_attribution, !attr_ids_app, ids_class. cbn [app].
    change (attr_ids [(bs "data-type", bs "sect" ++ dec level)]) with (@nil bytes). cbn [app]. rewrite in_app_iff, id_attr, (kids_ids w _ k IH _ EK). split.
    + intros [H|(b & Hb & Kb)]; [now apply shows_section|]. eapply shows_inside; [exact Hb|exact I|exact Kb].
    + intros H. inversion H; subst; [now left|right]. exists b. split; assumption.
  - eapply G; try discriminate; [exact E|]. intros q. cbv beta zeta; rewrite T by apply DT. rewrite ids_title, ids_image, ids_principal. destruct s; reflexivity.
  - eapply G; try discriminate; [exact E|]. intros q. cbv beta zeta; rewrite T by apply DT. rewrite ids_title, ids_image, ids_principal. destruct s; reflexivity.
  - eapply G; try discriminate; [exact E|]. intros q. cbv beta zeta; rewrite T by apply DT. rewrite ids_title, ids_image, ids_principal. destruct s; reflexivity.
  - eapply G; try discriminate; [exact E|]. intros q. cbv beta zeta; rewrite T by apply DT. rewrite ids_title, ids_image, ids_principal. destruct s; reflexivity.
  - assert (tag_ids p = []) as -> by (destruct v; apply ok_inj in E as <-; reflexivity). split; [intros []|intros H; inversion H; subst; contradiction].
  - cbn [bind] in E. apply ok_inj in E as <-. cbv zeta. rewrite T by apply DT. rewrite ids_title, ids_image, ids_principal. cbn [app tag_ids map List.concat]. rewrite ?app_nil_r. split.
    + destruct s; [intros []|]. intros H. apply shows_image. now apply id_attr.
    + intros H. inversion H; subst; [now apply id_attr|contradiction].
  - apply ok_inj in E as <-. rewrite ids_leaf. split; [intros []|intros H; inversion H; subst; contradiction].
  - destruct n.
    1: destruct v as [v|]; [|discriminate E].
    all: try (eapply G; try discriminate; [exact E|]; intros q; cbv beta zeta; rewrite T by apply DT; rewrite ids_title, ids_image, ids_principal; destruct s; reflexivity).
    rewrite (ids_table _ _ _ _ E). split; [intros []|intros H; inversion H; subst; contradiction].
  - cbn [bind] in E. apply ok_inj in E as <-. cbv zeta. rewrite T by apply DT. rewrite ids_title, ids_image, ids_principal. cbn [app tag_ids map List.concat block_id_attr opt_attr attr_ids]. split.
    + destruct s; intros [].
    + intros H. inversion H; subst; contradiction.
Qed.
Lemma document_ids w g p : html_document w g = Ok p -> forall i, In i (tag_ids p) <-> exists b, In b (a_blocks g) /\ shows_id false b i.
Proof.
  unfold html_document. rewrite <- ArticleHtml.skipped_blocks. destruct (skipped w false (a_blocks g)) as [q|e| | |] eqn:E; try discriminate. cbn [bind]. intros <-%ok_inj i.
  assert (Forall (fun b => forall s p, html_block w s b = Ok p -> forall i, In i (tag_ids p) <-> shows_id s b i) (a_blocks g)) as F
    by (apply Forall_forall; intros; eapply block_ids; eassumption).
  rewrite <- (kids_ids w false _ F _ E). rewrite !ids_app, !ids_tag, !ids_app, ids_tag.
  assert (tag_ids (match a_header g with Some h => html_inlines (hd_title h) | None => [] end) = []) as -> by (destruct (a_header g); [apply ids_inlines|reflexivity]).
  cbn. rewrite !app_nil_r. reflexivity.
Qed.
