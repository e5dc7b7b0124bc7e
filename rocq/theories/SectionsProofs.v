(** * Lemmas on what sections hold and on the text of articles *)
From Verif Require Import Base World Location Token Meta Inline Block Asg Parser SpecScan SpecDoc SpecArticle SpecHtmlText
  TreeInd ArticleGraph ArticleWhole SpecSections.
Local Open Scope char_scope.
Local Open Scope nat_scope.

(** ** Sections *)
Lemma section_is b : is_section b = true <-> section b.
Proof.
  destruct b as [h m k loc]. unfold is_section. cbn [b_head]. split.
  - destruct h; try discriminate. intros _. do 6 eexists. reflexivity.
  - intros (? & ? & ? & ? & ? & ? & [= -> -> -> ->]). reflexivity.
Qed.
Lemma not_section b : is_section b = false -> ~ section b.
Proof. intros E S. apply section_is in S. congruence. Qed.
Lemma settled_bare b : settled (map bare (b_kids b)) -> settled (b_kids b).
Proof.
  induction b as [h m k loc IH] using block_ind'. cbn [b_kids]. intros S.
  assert (forall b, section (bare b) <-> section b) as B.
  { intros b. now rewrite <- !section_is, is_section_bare. }
  inversion S as [l L F E]. subst l. clear S. constructor.
  - inversion L as [l N E|l l' N Y E]; subst.
    + apply sections_last_none. rewrite Forall_map in N. eapply Forall_impl; [|exact N]. intros b. cbv beta. now rewrite B.
    + symmetry in E. apply map_eq_app in E as (k1 & k2 & -> & <- & <-). apply sections_last_some.
      * rewrite Forall_map in N. eapply Forall_impl; [|exact N]. intros b. cbv beta. now rewrite B.
      * rewrite Forall_map in Y. eapply Forall_impl; [|exact Y]. intros b. cbv beta. now rewrite B.
  - rewrite Forall_map in F. clear L. induction IH as [|x k Hx _ IHk]; [constructor|]. inversion F. subst. constructor; [|now apply IHk].
    apply Hx. destruct x as [h' m' k' loc']. exact H1.
Qed.
Lemma settled_bare_list l : settled (map bare l) -> settled l.
Proof. exact (settled_bare (Blk HDList None l [])). Qed.
Lemma nest_settled l : Forall (fun b => settled (b_kids b)) (nest l) -> settled (nest l).
Proof.
  intros F. constructor; [|exact F]. destruct (nest_shape l) as (a & b & -> & A & B). apply sections_last_some.
  - eapply Forall_impl; [|exact A]. intros x. apply not_section.
  - unfold sections in B. eapply Forall_impl; [|exact B]. intros x. now rewrite section_is.
Qed.
Fixpoint sectionless (b : block) : Prop :=
  match b with Blk h m k loc => is_section (Blk h m k loc) = false /\ fold_right and True (map sectionless k) end.
Lemma sectionless_settled k : fold_right and True (map sectionless k) -> settled k.
Proof.
  assert (forall b, sectionless b -> settled (b_kids b)) as G.
  { induction b as [h m k' loc IH] using block_ind'. intros [_ K]. cbn [b_kids]. constructor.
    - apply sections_last_none. clear IH. induction k' as [|x k' IHk]; [constructor|]. destruct K as [K1 K2]. constructor; [|now apply IHk].
      apply not_section. destruct x. apply K1.
    - induction IH as [|x k' Hx _ IHk]; [constructor|]. destruct K as [K1 K2]. constructor; [now apply Hx|now apply IHk]. }
  intros K. apply (G (Blk HDList None k [])). now split.
Qed.
Lemma last_prefix x y : sections_last (x ++ y) -> sections_last x.
Proof.
  intros S. inversion S as [l N E|l l' N Y E]; subst.
  - apply sections_last_none. now apply Forall_app in N.
  - apply app_eq_app in E as (z & [[-> ->]|[-> ->]]).
    + apply sections_last_none. now apply Forall_app in N.
    + apply sections_last_some; [exact N|]. now apply Forall_app in Y.
Qed.
Lemma nest_kids l : Forall (fun b => settled (b_kids b) /\ (is_section b = true -> b_kids b = [])) l ->
  Forall (fun b => settled (b_kids b)) (nest l).
Proof.
  induction 1 as [|b l [B1 B2] _ IH]; [constructor|]. destruct b as [h m k loc].
  destruct h as [i t lv|v|mk p| |t p|v|t c|n f d i|n v d t|i]; try (cbn [nest]; now constructor).
  cbn [nest]. pose proof (split_app (under lv) (nest l)) as E. destruct (split_while (under lv) (nest l)) as [mine rest]. cbn [fst snd] in E.
  specialize (B2 eq_refl). cbn [b_kids] in B2. subst k. rewrite E in IH. apply Forall_app in IH as [I1 I2]. constructor; [|exact I2].
  cbn [b_kids app]. constructor; [|exact I1]. assert (settled (nest l)) as S by (apply nest_settled; rewrite E; now apply Forall_app).
  inversion S. subst. rewrite E in H. now apply last_prefix in H.
Qed.
Lemma leaf_sectionless e x : Forall sectionless (leaf_blocks e x).
Proof.
  destruct x as [l|o l|v body|s|body|n v|]; cbn [leaf_blocks]; constructor; try constructor; try reflexivity; try exact I.
  induction l as [|y l IH]; [exact I|]. split; [|exact IH]. split; [reflexivity|exact I].
Qed.
Lemma leaves_sectionless l : forall e, Forall sectionless (fst (leaves_blocks e l)).
Proof.
  induction l as [|x l IH]; intros e; [constructor|]. cbn [leaves_blocks]. specialize (IH (leaf_env e x)).
  destruct (leaves_blocks (leaf_env e x) l) as [bl e']. cbn [fst] in *. apply Forall_app. split; [apply leaf_sectionless|exact IH].
Qed.
Lemma all_sectionless l : Forall sectionless l -> fold_right and True (map sectionless l).
Proof. induction 1; [exact I|]. now split. Qed.
Lemma sectionless_flat b : sectionless b -> settled (b_kids b) /\ (is_section b = true -> b_kids b = []).
Proof. destruct b as [h m k loc]. intros [S K]. split; [now apply sectionless_settled|congruence]. Qed.
Lemma piece_settled e p : Forall (fun b => settled (b_kids b) /\ (is_section b = true -> b_kids b = [])) (fst (piece_blocks e p)).
Proof.
  destruct p as [x|n t|v l|v|b l last]; cbn [piece_blocks].
  - eapply Forall_impl; [|apply leaf_sectionless]. exact sectionless_flat.
  - repeat constructor.
  - constructor; [|constructor]. apply sectionless_flat. repeat split.
  - repeat constructor.
  - pose proof (leaves_sectionless l e) as L. destruct (leaves_blocks e l) as [kids e']. cbn [fst] in *. constructor; [|constructor].
    apply sectionless_flat. split; [reflexivity|]. apply all_sectionless. apply Forall_app. split; [exact L|].
    destruct last; [constructor|]. constructor; [|constructor]. now split.
Qed.
Lemma pieces_settled l : forall e, Forall (fun b => settled (b_kids b) /\ (is_section b = true -> b_kids b = [])) (pieces_blocks e l).
Proof.
  induction l as [|p l IH]; intros e; [constructor|]. cbn [pieces_blocks]. pose proof (piece_settled e p) as P. destruct (piece_blocks e p) as [bl e'].
  apply Forall_app. split; [exact P|apply IH].
Qed.
Lemma article_settled w fuel origin resolve a : article_ok a ->
  exists g, parse w fuel origin resolve (article_source a) = Ok g /\ settled (a_blocks g).
Proof.
  intros A. destruct (article_graph w fuel origin resolve a A) as (g & E & B & _). exists g. split; [exact E|].
  apply settled_bare_list. rewrite B. apply nest_settled, nest_kids, pieces_settled.
Qed.

(** ** Text *)
Lemma bare_text_inlines l : inlines_text (map bare_inline l) = inlines_text l.
Proof.
  unfold inlines_text. rewrite map_map. f_equal. apply map_ext. intros i.
  induction i as [v f l' m loc o IH|v t l' m loc IH|n k s loc|loc] using inline_ind'; cbn [bare_inline inline_text]; try reflexivity.
  - f_equal. rewrite map_map. now apply map_ext_Forall.
  - assert (List.concat (map inline_text (map bare_inline l')) = List.concat (map inline_text l')) as E
      by (f_equal; rewrite map_map; now apply map_ext_Forall).
    destruct v; try reflexivity; destruct l'; try reflexivity; exact E.
Qed.
Lemma bare_text b : block_text (bare b) = block_text b.
Proof.
  induction b as [h m k loc IH] using block_ind'. cbn [bare block_text].
  assert (List.concat (map block_text (map bare k)) = List.concat (map block_text k)) as E
      by (f_equal; rewrite map_map; now apply map_ext_Forall).
  rewrite E. destruct h; cbn [bare_head head_text]; rewrite ?bare_text_inlines; reflexivity.
Qed.
Lemma nest_text l : Forall (fun b => is_section b = true -> b_kids b = [] /\ b_meta b = None) l ->
  List.concat (map block_text (nest l)) = List.concat (map block_text l).
Proof.
  induction 1 as [|b l B _ IH]; [reflexivity|]. destruct b as [h m k loc].
  destruct h as [i t lv|v|mk p| |t p|v|t c|n f d i|n v d t|i]; try (cbn [nest map List.concat]; now rewrite IH).
  cbn [nest]. pose proof (split_app (under lv) (nest l)) as E. destruct (split_while (under lv) (nest l)) as [mine rest]. cbn [fst snd] in E.
  destruct (B eq_refl) as [K M]. cbn [b_kids b_meta] in K, M. subst k m. rewrite E in IH. cbn [map List.concat block_text credit app].
  rewrite <- IH, map_app, concat_app, app_nil_r, <- app_assoc. reflexivity.
Qed.
Definition part_text (p : part) : bytes := match p with PText s => s | PMarked _ s => s end.
Lemma part_inline_text p : inline_text (part_inline p) = part_text p.
Proof. destruct p; cbn; [reflexivity|apply app_nil_r]. Qed.
Lemma merge_text l : List.concat (map part_text (merge l)) = List.concat (map part_text l).
Proof.
  induction l as [|p l IH]; [reflexivity|]. destruct p as [s|k s]; cbn [merge map List.concat part_text]; [|now rewrite <- IH].
  rewrite <- IH. destruct (merge l) as [|[s'|k' s'] r]; cbn [map List.concat part_text]; rewrite ?app_assoc; reflexivity.
Qed.
Lemma chunk_part_text e c : List.concat (map part_text (chunk_part e c)) = chunk_text e c.
Proof.
  unfold chunk_part. destruct c as [s l]. destruct (spell_chunk (s, l)) as [|a r] eqn:E; [|cbn; apply app_nil_r].
  unfold spell_chunk in E. cbn [fst snd spell] in E. apply app_eq_nil in E as [-> E]. destruct l as [|[n s'] l]; [reflexivity|discriminate E].
Qed.
Lemma rich_parts_text e r : List.concat (map part_text (rich_parts e r)) = rich_text e r.
Proof.
  unfold rich_parts, rich_text. rewrite map_app, concat_app, chunk_part_text. f_equal.
  induction (snd r) as [|[[k inside] aft] l IH]; [reflexivity|]. cbn [map List.concat]. rewrite map_app, concat_app, IH.
  cbn [map List.concat part_text]. now rewrite chunk_part_text, <- app_assoc.
Qed.
Lemma lines_parts_text e l : List.concat (map part_text (lines_parts e l)) = lines_text e l.
Proof.
  induction l as [|a l IH]; [reflexivity|]. cbn [lines_parts]. rewrite map_app, concat_app, rich_parts_text. destruct l as [|b l].
  - apply app_nil_r.
  - cbn [map List.concat part_text]. rewrite IH. reflexivity.
Qed.
Lemma text_text e l : inlines_text (text_inlines e l) = lines_text e l.
Proof.
  unfold inlines_text, text_inlines. rewrite map_map, (map_ext _ _ part_inline_text), merge_text. apply lines_parts_text.
Qed.
Lemma leaf_blocks_text e x : List.concat (map block_text (leaf_blocks e x)) = leaf_text e x.
Proof.
  destruct x as [l|o l|v body|s|body|n v|]; cbn [leaf_blocks map List.concat block_text head_text leaf_text para_block app credit]; rewrite ?app_nil_r; try reflexivity.
  - apply text_text.
  - f_equal. rewrite map_map. apply map_ext. intros i. cbn [block_text head_text map List.concat credit]. rewrite !app_nil_r. apply text_text.
  - unfold inlines_text. cbn [map List.concat inline_text]. now rewrite app_nil_r.
Qed.
Lemma leaves_blocks_text l : forall e, List.concat (map block_text (fst (leaves_blocks e l))) = fst (leaves_text e l)
  /\ snd (leaves_blocks e l) = snd (leaves_text e l).
Proof.
  induction l as [|x l IH]; intros e; [split; reflexivity|]. cbn [leaves_blocks leaves_text]. specialize (IH (leaf_env e x)).
  destruct (leaves_blocks (leaf_env e x) l) as [bl e']. destruct (leaves_text (leaf_env e x) l) as [s e'']. cbn [fst snd] in *. destruct IH as [I1 I2].
  split; [|exact I2]. now rewrite map_app, concat_app, leaf_blocks_text, I1.
Qed.
Lemma piece_blocks_text e p : List.concat (map block_text (fst (piece_blocks e p))) = fst (piece_text e p)
  /\ snd (piece_blocks e p) = snd (piece_text e p).
Proof.
  destruct p as [x|n t|v l|v|b l last]; cbn [piece_blocks piece_text fst snd].
  - split; [apply leaf_blocks_text|reflexivity].
  - split; [|reflexivity]. cbn [map List.concat block_text head_text credit app]. rewrite !app_nil_r. apply (text_text e [t]).
  - split; [|reflexivity]. cbn [map List.concat block_text head_text credit app para_block inlines_text]. rewrite !app_nil_r. apply text_text.
  - split; reflexivity.
  - pose proof (leaves_blocks_text l e) as L. destruct (leaves_blocks e l) as [kids e']. destruct (leaves_text e l) as [s e'']. cbn [fst snd] in *.
    destruct L as [L1 L2]. subst e''. split; [|reflexivity]. cbn [map List.concat block_text head_text credit app inlines_text]. rewrite !app_nil_r.
    rewrite map_app, concat_app, L1. f_equal. destruct last as [|x last]; [reflexivity|].
    cbn [map List.concat block_text head_text credit app para_block]. rewrite !app_nil_r. apply text_text.
Qed.
Lemma pieces_blocks_text l : forall e, List.concat (map block_text (pieces_blocks e l)) = pieces_text e l.
Proof.
  induction l as [|p l IH]; intros e; [reflexivity|]. cbn [pieces_blocks pieces_text]. pose proof (piece_blocks_text e p) as P.
  destruct (piece_blocks e p) as [bl e']. destruct (piece_text e p) as [s e'']. cbn [fst snd] in P. destruct P as [P1 P2]. subst e''.
  rewrite map_app, concat_app, P1. f_equal. apply IH.
Qed.
Lemma flat_sections l : forall e, Forall (fun b => is_section b = true -> b_kids b = [] /\ b_meta b = None) (pieces_blocks e l).
Proof.
  induction l as [|p l IH]; intros e; [constructor|]. cbn [pieces_blocks].
  assert (Forall (fun b => is_section b = true -> b_kids b = [] /\ b_meta b = None) (fst (piece_blocks e p))) as P.
  { destruct p as [x|n t|v l'|v|b l' last]; cbn [piece_blocks]; try (constructor; [intros _; now split|constructor]); try (constructor; [discriminate|constructor]).
    - eapply Forall_impl; [|apply leaf_sectionless]. intros b S. destruct b as [h m k loc]. destruct S as [S _]. congruence.
    - destruct (leaves_blocks e l') as [kids e']. constructor; [discriminate|constructor]. }
  destruct (piece_blocks e p) as [bl e']. apply Forall_app. split; [exact P|apply IH].
Qed.
Lemma article_text_kept w fuel origin resolve a : article_ok a ->
  exists g, parse w fuel origin resolve (article_source a) = Ok g /\ graph_text g = article_text a.
Proof.
  intros A. destruct (article_graph w fuel origin resolve a A) as (g & E & B & H). exists g. split; [exact E|].
  unfold graph_text, article_text. f_equal.
  - unfold ArticleProofs.title_of, article_title in H. destruct (a_header g) as [h|], (ar_title a) as [[t l]|]; cbn [option_map fst] in H; try discriminate H; [|reflexivity].
    injection H as H. rewrite <- bare_text_inlines, H. apply (text_text no_env [t]).
  - rewrite <- (map_ext _ _ bare_text), <- map_map, B. unfold article_flat. rewrite nest_text by apply flat_sections. apply pieces_blocks_text.
Qed.
