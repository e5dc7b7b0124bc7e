(** * The templates: the same as the page without white space; scripts *)
From Verif Require SpecPage PageProofs HtmlProofs HtmlPage LaidPage.
From Verif Require Import Base World Location Token Scanner Meta Inline Block Asg Json Html Parser TreeInd SpecScan SpecDoc SpecArticle
  SpecArticleHtml ScriptBlocks ScriptWhole ScriptHtml SpecScript SpecScriptHtml SpecScriptJson SpecHtmlPage SpecTemplates Tera Templates LaidSpread.
Local Open Scope char_scope.
Local Open Scope nat_scope.

Lemma templates_same w a : exists n, forall fuel, n <= fuel ->
  match render_htmlbook w a with
  | Ok s => exists t, render_templates w fuel a = Ok t /\ squeezed t = squeezed s /\ (forallb tags_all (a_blocks a) = true -> spread s t)
  | _ => render_htmlbook w a = Panic /\ render_templates w fuel a = Panic
  end.
Proof.
  destruct (LaidPage.laid_exact w a) as (n & H). exists n. intros f L. rewrite (H f L), HtmlPage.graph_known. destruct (forallb (shown w) (a_blocks a)); [|now split].
  exists (graph_laid w a). split; [reflexivity|]. split; [exact (sq_page w (option_map hd_title (a_header a)) (a_blocks a))|exact (sp_page w (option_map hd_title (a_header a)) (a_blocks a))].
Qed.

(** ** Locations are not shown *)
Lemma inlines_laid l : inlines_html (map unplaced_inline l) = inlines_html l.
Proof. now rewrite <- !inlines_shown, html_unplaced_inlines. Qed.
Lemma within_laid n l : within n (map unplaced_inline l) = within n l.
Proof. pose proof (inlines_laid l) as E. destruct l as [|x l]; [reflexivity|]. unfold within. cbn [map] in *. now rewrite E. Qed.
Lemma apart_laid n l : apart n (map unplaced_inline l) = apart n l.
Proof. unfold apart. rewrite within_laid. now destruct l. Qed.
Lemma noted_laid n m : noted n (option_map unplaced_meta m) = noted n m.
Proof. now destruct m. Qed.
Lemma class_laid m : class_html (option_map unplaced_meta m) = class_html m.
Proof. now destruct m. Qed.
Lemma attribution_laid m : attribution (option_map unplaced_meta m) = attribution m.
Proof. now destruct m. Qed.
Lemma around_laid s m n a x : around_html s (option_map unplaced_meta m) n a x = around_html s m n a x.
Proof. now destruct m. Qed.
Lemma rows_map {A B} (f : A -> B) c l : forall n, in_rows c n (map f l) = map (map f) (in_rows c n l).
Proof.
  induction l as [|x l IH]; intros n; [reflexivity|]. cbn [map]. destruct l as [|y l]; [reflexivity|].
  rewrite (in_rows_more c n x y l). cbn [map] in *. rewrite (in_rows_more c n (f x) (f y) (map f l)). destruct (n <=? 1); cbn [map].
  - f_equal. apply IH.
  - rewrite IH. destruct (in_rows c (n - 1) (y :: l)); reflexivity.
Qed.
Lemma cells_laid {A} (f : list inline -> A) l : (forall x, f (map unplaced_inline x) = f x) -> map f (map (map unplaced_inline) l) = map f l.
Proof. intros H. rewrite map_map. now apply map_ext. Qed.
Lemma row_unplaced r : row_laid (map (map unplaced_inline) r) = row_laid r.
Proof. unfold row_laid. rewrite cells_laid; [reflexivity|]. intros x. now rewrite inlines_laid. Qed.
Lemma rows_unplaced l : rows_laid (map (map (map unplaced_inline)) l) = rows_laid l.
Proof.
  induction l as [|r l IH]; [reflexivity|]. cbn [map]. destruct l as [|r' l]; [apply row_unplaced|]. cbn [map] in *.
  change (row_laid (map (map unplaced_inline) r) ++ line 8 ++ rows_laid (map (map unplaced_inline) r' :: map (map (map unplaced_inline)) l) = row_laid r ++ line 8 ++ rows_laid (r' :: l)).
  now rewrite IH, row_unplaced.
Qed.
Lemma table_unplaced w m l : table_laid w (option_map unplaced_meta m) (map (map unplaced_inline) l) = table_laid w m l.
Proof.
  unfold table_laid. replace (columns_read w (option_map unplaced_meta m)) with (columns_read w m) by now destruct m.
  replace (headed (option_map unplaced_meta m)) with (headed m) by now destruct m.
  cbv zeta. rewrite firstn_map, skipn_map, !rows_map, !rows_unplaced, cells_laid; [reflexivity|]. intros x. now rewrite inlines_laid.
Qed.
Lemma cell_unplaced b : cell_of (unplaced b) = map unplaced_inline (cell_of b).
Proof. destruct b as [[] m k loc]; reflexivity. Qed.
Lemma block_unplaced w b : forall s, block_laid w s (unplaced b) = block_laid w s b.
Proof.
  induction b as [h m k loc F] using block_ind'. intros s.
  assert (forall s, List.concat (map (block_laid w s) (map unplaced k)) = List.concat (map (block_laid w s) k)) as K.
  { intros s'. rewrite map_map. f_equal. apply map_ext_in. rewrite Forall_forall in F. intros b B. now apply F. }
  assert (map cell_of (map unplaced k) = map (map unplaced_inline) (map cell_of k)) as C.
  { rewrite !map_map. apply map_ext. apply cell_unplaced. }
  destruct h as [id t n|[]|mk p| |ts p|[]|tg c|[] f d l|[] [v|] d t|l]; cbn [unplaced unplaced_head block_laid leaf_shown];
    rewrite ?around_laid, ?attribution_laid, ?class_laid, ?noted_laid, ?K, ?C, ?table_unplaced, ?apart_laid, ?within_laid, ?inlines_laid; try reflexivity.
  now destruct c.
Qed.
Lemma tags_unplaced b : tags_all (unplaced b) = tags_all b.
Proof.
  induction b as [h m k loc F] using block_ind'.
  assert (forallb tags_all (map unplaced k) = forallb tags_all k) as K.
  { induction F as [|x l E F IH]; [reflexivity|]. cbn [map forallb]. now rewrite E, IH. }
  destruct h as [id t n|[]|mk p| |ts p|[]|tg c|[] f d l|[] [v|] d t|l]; cbn [unplaced unplaced_head tags_all]; try exact K; reflexivity.
Qed.
Lemma blocks_unplaced w l : List.concat (map (fun b => line 4 ++ block_laid w false b) (map unplaced l)) = List.concat (map (fun b => line 4 ++ block_laid w false b) l).
Proof. rewrite map_map. f_equal. apply map_ext. intros b. now rewrite block_unplaced. Qed.

(** ** Scripts *)
Lemma script_laid w fuel origin resolve src d : utf8 src -> script_ok d ->
  (resolve = true -> Forall (fun t => w_canon w (path_join origin t) <> None) (pictures d)) ->
  (cells d = [] \/ 0 < fuel) -> written src d ->
  exists g n, parse w fuel origin resolve src = Ok g
  /\ forall depth, n <= depth ->
     render_templates w depth g = if forallb (shown w) (script_blocks d) then Ok (blocks_laid w (script_title d) (script_blocks d)) else Panic.
Proof.
  intros U K R T N. destruct (script_graph w fuel origin resolve src d U K R T N) as (g & P & B & H).
  destruct (HtmlPage.script_known w fuel origin resolve src d U K R T N) as (g' & P' & S). rewrite P in P'. injection P' as <-.
  destruct (LaidPage.laid_exact w g) as (n & L). exists g, n. split; [exact P|]. intros f Lf. rewrite (L f Lf).
  rewrite HtmlPage.graph_known in S.
  replace (forallb (shown w) (script_blocks d)) with (forallb (shown w) (a_blocks g))
    by (destruct (forallb (shown w) (a_blocks g)), (forallb (shown w) (script_blocks d)); try reflexivity; discriminate S).
  destruct (forallb (shown w) (a_blocks g)); [|reflexivity]. f_equal. unfold graph_laid, blocks_laid. f_equal.
  - unfold heading_of in H. rewrite <- H. destruct (a_header g); [|reflexivity]. cbn [option_map]. now rewrite inlines_laid.
  - now rewrite <- B, blocks_unplaced.
Qed.
