(** * The page of the templates and the page without white space *)
From Verif Require SpecPage.
From Verif Require Import Base World Location Token Meta Inline Block Asg TreeInd
  SpecScan SpecDoc SpecArticle SpecArticleHtml SpecScript SpecScriptHtml SpecHtmlPage SpecTemplates.
Local Open Scope char_scope.
Local Open Scope nat_scope.

(** ** The same but for white space *)
Lemma sq_app a b : squeezed (a ++ b) = squeezed a ++ squeezed b.
Proof. apply filter_app. Qed.
Lemma sq_line n : squeezed (line n) = [].
Proof. unfold line, squeezed. cbn [filter]. induction n as [|n IH]; [reflexivity|]. exact IH. Qed.
Ltac sq := unfold tagged; rewrite ?sq_app, ?sq_line; cbn [app]; rewrite ?app_nil_r.
Lemma sq_tagged n a s t : squeezed s = squeezed t -> squeezed (tagged n a s) = squeezed (tagged n a t).
Proof. intros H. unfold tagged. rewrite !sq_app. now rewrite H. Qed.
Lemma sq_concat {A} (f g : A -> bytes) l : Forall (fun x => squeezed (f x) = squeezed (g x)) l ->
  squeezed (List.concat (map f l)) = squeezed (List.concat (map g l)).
Proof. induction 1 as [|x l H F IH]; [reflexivity|]. cbn [map List.concat]. now rewrite !sq_app, H, IH. Qed.
Lemma sq_apart n l : squeezed (apart n l) = squeezed (within n l).
Proof. destruct l; [reflexivity|]. unfold apart. sq. reflexivity. Qed.
Lemma sq_around s m n a x y : squeezed x = squeezed y -> squeezed (around_html s m n a x) = squeezed (around_html s m n a y).
Proof. intros H. unfold around_html. destruct s; [|apply sq_tagged]; now rewrite !sq_app, H. Qed.
Lemma sq_cells n k l : squeezed (List.concat (map (fun c => tagged n [] (inlines_html c) ++ line k) l)) = squeezed (cells_html n l).
Proof. apply sq_concat. apply Forall_forall. intros c _. rewrite sq_app, sq_line, app_nil_r. reflexivity. Qed.
Lemma sq_row r : squeezed (row_laid r) = squeezed (tagged "tr" [] (cells_html "td" r)).
Proof. apply sq_tagged. rewrite sq_app, sq_line. apply sq_cells. Qed.
Lemma sq_rows l : squeezed (rows_laid l) = squeezed (rows_html l).
Proof.
  induction l as [|r l IH]; [reflexivity|]. unfold rows_html in *. cbn [map List.concat]. destruct l as [|r' l].
  - cbn [rows_laid map List.concat]. rewrite app_nil_r. apply sq_row.
  - change (rows_laid (r :: r' :: l)) with (row_laid r ++ line 8 ++ rows_laid (r' :: l)). rewrite !sq_app, sq_line, IH, sq_row. reflexivity.
Qed.
Lemma sq_table w m k : squeezed (table_laid w m k) = squeezed (table_page w m k).
Proof.
  unfold table_laid, table_page. apply sq_tagged. destruct (headed m).
  - rewrite !sq_app, !sq_line. cbn [app]. rewrite app_nil_r. f_equal.
    + apply sq_tagged. rewrite sq_app, sq_line. apply sq_cells.
    + apply sq_tagged. rewrite !sq_app, !sq_line, app_nil_r. apply sq_rows.
  - rewrite sq_app, sq_line, app_nil_r. apply sq_rows.
Qed.
Lemma sq_block w b : forall s, squeezed (block_laid w s b) = squeezed (block_page w s b).
Proof.
  induction b as [h m k loc F] using block_ind'. intros s.
  assert (forall s, squeezed (List.concat (map (block_laid w s) k)) = squeezed (List.concat (map (block_page w s) k))) as K.
  { intros s'. apply sq_concat. eapply Forall_impl; [|exact F]. intros b H. apply H. }
  cbn [block_laid block_page]. destruct h as [id t n|v|mk p| |ts p|v|tg c|n f d l|n v d t|l].
  - apply sq_tagged. now rewrite !sq_app, sq_line, sq_apart, K.
  - destruct v; now apply sq_around.
  - apply sq_around. now rewrite !sq_app, K.
  - now apply sq_around.
  - rewrite !sq_app, sq_apart. f_equal. apply sq_around. now rewrite !sq_app, K.
  - destruct v; rewrite ?sq_app, ?sq_line, ?app_nil_r; reflexivity.
  - apply sq_around. destruct c; rewrite !sq_app, !sq_line; cbn [within app]; rewrite ?sq_app, ?sq_line, ?app_nil_r; reflexivity.
  - rewrite sq_app, sq_line. reflexivity.
  - destruct n; try (destruct v as [v|]); try apply sq_table; try (apply sq_around; now rewrite !sq_app, sq_apart, K). reflexivity.
  - now apply sq_around.
Qed.
Lemma sq_page w t l : squeezed (blocks_laid w t l) = squeezed (blocks_page w t l).
Proof.
  unfold blocks_laid, page_laid, blocks_page, page_around, wrap. rewrite !sq_app.
  assert (squeezed (List.concat (map (fun b => line 4 ++ block_laid w false b) l)) = squeezed (List.concat (map (block_page w false) l))) as ->.
  { apply sq_concat. apply Forall_forall. intros b _. rewrite sq_app, sq_line. apply sq_block. }
  rewrite <- !app_assoc. generalize (squeezed match t with Some t => inlines_html t | None => [] end).
  generalize (squeezed (List.concat (map (block_page w false) l))). intros x y. vm_compute. reflexivity.
Qed.

(** ** White space only next to tags *)
Lemma white_line n : forallb white (line n) = true.
Proof. unfold line. cbn [forallb]. induction n as [|n IH]; [reflexivity|]. exact IH. Qed.
Definition starts (s : bytes) : Prop := exists r, s = "<" :: r.
Definition ends (s : bytes) : Prop := exists q, s = q ++ [">"].
Lemma sp_nil s t : spread s t -> s = [] -> t = [].
Proof.
  induction 1 as [s|g r W|g l W|s t s' t' H IH H' IH']; intros E; subst; try discriminate; [reflexivity| |].
  - destruct l; discriminate.
  - apply app_eq_nil in E as (-> & ->). now rewrite IH, IH'.
Qed.
Lemma white_app a b : forallb white a = true -> forallb white b = true -> forallb white (a ++ b) = true.
Proof. intros A B. now rewrite forallb_app, A, B. Qed.
Lemma ends_split a b : ends (a ++ b) -> (b = [] /\ ends a) \/ ends b.
Proof.
  intros (q & E). destruct b as [|c b]; [left; split; [reflexivity|]; exists q; now rewrite app_nil_r in E|right].
  assert (c :: b <> []) as N by discriminate. destruct (exists_last N) as (u & d & Ed). rewrite Ed in *. rewrite app_assoc in E. apply app_inj_tail in E as (_ & ->). now exists u.
Qed.
Lemma sp_after s t g : spread s t -> ends s -> forallb white g = true -> spread s (t ++ g).
Proof.
  intros H. revert g. induction H as [s|g r W|g l W|s t s' t' H IH H' IH']; intros g' E W'.
  - destruct E as (q & ->). rewrite <- app_assoc. now apply spread_after.
  - destruct E as (q & E). destruct q as [|c q]; [discriminate|]. injection E as <- ->. change (spread (("<" :: q) ++ [">"]) ((g ++ ("<" :: q) ++ [">"]) ++ g')).
    rewrite <- !app_assoc, app_assoc. apply spread_app; [now apply spread_before|]. exact (spread_after g' [] W').
  - rewrite <- app_assoc. cbn [app]. apply spread_after. now apply white_app.
  - apply ends_split in E as [(-> & E)|E].
    + rewrite (sp_nil _ _ H' eq_refl), !app_nil_r. now apply IH.
    + rewrite <- app_assoc. apply spread_app; [exact H|]. now apply IH'.
Qed.
Lemma sp_before s t g : spread s t -> starts s -> forallb white g = true -> spread s (g ++ t).
Proof.
  intros H. revert g. induction H as [s|g r W|g l W|s t s' t' H IH H' IH']; intros g' (q & E) W'.
  - subst. now apply spread_before.
  - rewrite app_assoc. apply spread_before. now apply white_app.
  - destruct l as [|c l]; [discriminate|]. injection E as -> _. cbn [app].
    change (spread (("<" :: l) ++ [">"]) (g' ++ ("<" :: l) ++ ">" :: g)). rewrite app_assoc. apply spread_app; [now apply spread_before|].
    exact (spread_after g [] W).
  - destruct s as [|c s].
    + rewrite (sp_nil _ _ H eq_refl). cbn [app]. apply IH'; [now exists q|exact W'].
    + injection E as -> _. rewrite app_assoc. apply spread_app; [|exact H']. apply IH; [now exists s|exact W'].
Qed.
Lemma sp_concat {A} (f g : A -> bytes) l : Forall (fun x => spread (f x) (g x)) l -> spread (List.concat (map f l)) (List.concat (map g l)).
Proof. induction 1 as [|x l H F IH]; [apply spread_same|]. cbn [map List.concat]. now apply spread_app. Qed.
Definition opening (n : string) (a : bytes) : bytes := bs "<" ++ bs n ++ a ++ bs ">".
Definition closing (n : string) : bytes := bs "</" ++ bs n ++ bs ">".
Lemma tagged_parts n a s : tagged n a s = opening n a ++ s ++ closing n.
Proof. unfold tagged, opening, closing. now rewrite <- !app_assoc. Qed.
Lemma opening_starts n a : starts (opening n a).
Proof. eexists. reflexivity. Qed.
Lemma opening_ends n a : ends (opening n a).
Proof. exists (bs "<" ++ bs n ++ a). unfold opening. rewrite <- !app_assoc. reflexivity. Qed.
Lemma closing_starts n : starts (closing n).
Proof. eexists. reflexivity. Qed.
Lemma closing_ends n : ends (closing n).
Proof. exists (bs "</" ++ bs n). unfold closing. rewrite <- !app_assoc. reflexivity. Qed.
Lemma ends_app a b : ends b -> ends (a ++ b).
Proof. intros (q & ->). exists (a ++ q). now rewrite app_assoc. Qed.
Lemma ends_opt a b : ends a -> b = [] \/ ends b -> ends (a ++ b).
Proof. intros A [->|B]; [now rewrite app_nil_r|now apply ends_app]. Qed.
Lemma starts_app a b : starts a -> starts (a ++ b).
Proof. intros (r & ->). now exists (r ++ b). Qed.
Lemma tagged_starts n a s : starts (tagged n a s).
Proof. rewrite tagged_parts. apply starts_app, opening_starts. Qed.
Lemma tagged_ends n a s : ends (tagged n a s).
Proof. rewrite tagged_parts. apply ends_app, ends_app, closing_ends. Qed.
Lemma within_ends n l : within n l = [] \/ ends (within n l).
Proof. destruct l; [now left|right]. apply tagged_ends. Qed.
Lemma attribution_ends m : attribution m = [] \/ ends (attribution m).
Proof. unfold attribution. destruct (noted "attribution" m); [now left|right]. apply tagged_ends. Qed.
Lemma sp_tagged n a s t : spread s t -> spread (tagged n a s) (tagged n a t).
Proof. intros H. rewrite !tagged_parts. repeat apply spread_app; try apply spread_same. exact H. Qed.
(** white space after the opening tag, before the closing tag *)
Lemma sp_inside n a s t i : spread s t -> spread (tagged n a s) (tagged n a (line i ++ t)).
Proof.
  intros H. rewrite !tagged_parts. replace (opening n a ++ (line i ++ t) ++ closing n) with ((opening n a ++ line i) ++ t ++ closing n) by now rewrite <- !app_assoc.
  apply spread_app; [apply sp_after; [apply spread_same|apply opening_ends|apply white_line]|].
  apply spread_app; [exact H|apply spread_same].
Qed.
Lemma sp_inside_end n a s t i : spread s t -> spread (tagged n a s) (tagged n a (t ++ line i)).
Proof.
  intros H. rewrite !tagged_parts. replace (opening n a ++ (t ++ line i) ++ closing n) with (opening n a ++ t ++ line i ++ closing n) by now rewrite <- !app_assoc.
  apply spread_app; [apply spread_same|].
  apply spread_app; [exact H|]. apply sp_before; [apply spread_same|apply closing_starts|apply white_line].
Qed.
Lemma sp_inside_both n a s t i k : spread s t -> spread (tagged n a s) (tagged n a (line i ++ t ++ line k)).
Proof.
  intros H. rewrite !tagged_parts. replace (opening n a ++ (line i ++ t ++ line k) ++ closing n) with ((opening n a ++ line i) ++ t ++ line k ++ closing n) by now rewrite <- !app_assoc.
  apply spread_app; [apply sp_after; [apply spread_same|apply opening_ends|apply white_line]|].
  apply spread_app; [exact H|]. apply sp_before; [apply spread_same|apply closing_starts|apply white_line].
Qed.
Lemma sp_apart n l : spread (within n l) (apart n l).
Proof.
  destruct l as [|x l]; [apply spread_same|]. unfold apart. apply sp_before; [|apply tagged_starts|apply white_line].
  apply sp_after; [apply spread_same|apply tagged_ends|apply white_line].
Qed.
Lemma sp_around s m n a x y : spread x y -> spread (around_html s m n a x) (around_html s m n a y).
Proof. intros H. unfold around_html. destruct s; [|apply sp_tagged]; (apply spread_app; [exact H|apply spread_same]). Qed.
Lemma sp_cells n k l : spread (cells_html n l) (List.concat (map (fun c => tagged n [] (inlines_html c) ++ line k) l)).
Proof. apply sp_concat. apply Forall_forall. intros c _. apply sp_after; [apply spread_same|apply tagged_ends|apply white_line]. Qed.
Lemma sp_row r : spread (tagged "tr" [] (cells_html "td" r)) (row_laid r).
Proof. apply sp_inside, sp_cells. Qed.
Lemma sp_rows l : spread (rows_html l) (rows_laid l).
Proof.
  induction l as [|r l IH]; [apply spread_same|]. unfold rows_html in *. cbn [map List.concat]. destruct l as [|r' l].
  - cbn [rows_laid map List.concat]. rewrite app_nil_r. apply sp_row.
  - change (rows_laid (r :: r' :: l)) with (row_laid r ++ line 8 ++ rows_laid (r' :: l)). rewrite app_assoc. apply spread_app; [|exact IH].
    apply sp_after; [apply sp_row|apply tagged_ends|apply white_line].
Qed.
Lemma sp_table w m k : spread (table_page w m k) (table_laid w m k).
Proof.
  unfold table_laid, table_page. set (cols := match columns_read w m with Some c => Z.abs_nat c | None => 0 end). destruct (headed m).
  - rewrite (app_assoc (tagged "thead" _ _)), (app_assoc (_ ++ line 4)). apply sp_inside_both.
    apply spread_app; [apply sp_after; [|apply tagged_ends|apply white_line]|].
    + apply sp_inside, sp_cells.
    + apply sp_inside_both, sp_rows.
  - pose proof (sp_rows (in_rows cols (Nat.max 2 cols) k)) as H. now apply sp_inside_end.
Qed.
Lemma sp_block w b : tags_all b = true -> forall s, spread (block_page w s b) (block_laid w s b).
Proof.
  induction b as [h m k loc F] using block_ind'. intros T s.
  assert (match h with HLeaf NPass _ _ _ => False | _ => forallb tags_all k = true end) as K'.
  { destruct h as [id t n|v|mk p| |ts p|v|tg c|[] f d l|n v d t|l]; try exact T. discriminate T. }
  assert (match h with HLeaf _ _ _ _ => True | _ => forall s, spread (List.concat (map (block_page w s) k)) (List.concat (map (block_laid w s) k)) end) as K.
  { assert (forallb tags_all k = true -> forall s, spread (List.concat (map (block_page w s) k)) (List.concat (map (block_laid w s) k))) as G.
    { intros G s'. apply sp_concat. rewrite Forall_forall in *. rewrite forallb_forall in G. intros b B. apply F; [exact B|now apply G]. }
    destruct h; try exact Logic.I; now apply G. }
  clear F T. cbn [block_laid block_page]. destruct h as [id t n|v|mk p| |ts p|v|tg c|n f d l|n v d t|l].
  - rewrite !tagged_parts. set (o := opening _ _). rewrite <- !app_assoc.
    replace (o ++ within "h1" t ++ attribution m ++ List.concat (map (block_page w false) k) ++ closing "section")
      with ((o ++ within "h1" t ++ attribution m) ++ List.concat (map (block_page w false) k) ++ closing "section") by now rewrite <- !app_assoc.
    replace (o ++ apart "h1" t ++ attribution m ++ line 4 ++ List.concat (map (block_laid w false) k) ++ closing "section")
      with (((o ++ apart "h1" t ++ attribution m) ++ line 4) ++ List.concat (map (block_laid w false) k) ++ closing "section") by now rewrite <- !app_assoc.
    apply spread_app; [|apply spread_app; [apply K|apply spread_same]]. apply sp_after; [|rewrite app_assoc; apply ends_opt; [|apply attribution_ends]|apply white_line].
    + apply spread_app; [apply spread_same|]. apply spread_app; [apply sp_apart|apply spread_same].
    + apply ends_opt; [apply opening_ends|apply within_ends].
  - destruct v; now apply sp_around.
  - apply sp_around. apply spread_app; [apply spread_same|apply K].
  - now apply sp_around.
  - apply spread_app; [apply sp_apart|]. apply sp_around. apply spread_app; [apply spread_same|apply K].
  - destruct v.
    + apply sp_before; [|eexists; reflexivity|apply white_line]. apply sp_after; [apply spread_same| |apply white_line].
      exists (bs "<div style=""page-break-after: always;""></div"). reflexivity.
    + apply sp_before; [apply spread_same|eexists; reflexivity|apply white_line].
  - apply sp_around.
    replace (bs "<img src=""" ++ tg ++ bs """" ++ filled "alt" (noted "positional_1" m) ++ bs "/>" ++ within "figcaption" c)
      with ((bs "<img src=""" ++ tg ++ bs """" ++ filled "alt" (noted "positional_1" m) ++ bs "/>") ++ within "figcaption" c) by now rewrite <- !app_assoc.
    set (img := bs "<img src=""" ++ tg ++ bs """" ++ filled "alt" (noted "positional_1" m) ++ bs "/>").
    assert (ends img) as Ei by (exists (bs "<img src=""" ++ tg ++ bs """" ++ filled "alt" (noted "positional_1" m) ++ bs "/"); unfold img; rewrite <- !app_assoc; reflexivity).
    assert (starts img) as Si by (eexists; reflexivity).
    match goal with |- spread _ ?r => replace r with (line 8 ++ (img ++ match c with [] => [] | _ => line 8 ++ within "figcaption" c end) ++ line 4) end.
    2:{ unfold img. rewrite <- !app_assoc. reflexivity. }
    apply sp_before; [|now apply starts_app|apply white_line]. apply sp_after; [|apply ends_opt; [exact Ei|apply within_ends]|apply white_line].
    apply spread_app; [apply spread_same|]. destruct c as [|x c]; [apply spread_same|]. apply sp_before; [apply spread_same|apply tagged_starts|apply white_line].
  - apply sp_before; [apply spread_same| |apply white_line]. destruct n; try contradiction; apply tagged_starts.
  - destruct n; try (destruct v as [v|]); try apply sp_table; try (apply sp_around; apply spread_app; [apply sp_apart|apply K]). apply spread_same.
  - apply spread_same.
Qed.
Lemma page_ends w b : tags_all b = true -> block_page w false b = [] \/ ends (block_page w false b).
Proof.
  destruct b as [h m k loc]. intros T. cbn [block_page].
  destruct h as [id t n|[]|mk p| |ts p|[]|tg c|[] f d l|[] [v|] d t|l];
    try discriminate T; try (now left); right; unfold table_page, leaf_shown, around_html; try apply tagged_ends.
  - apply ends_app, tagged_ends.
  - exists (bs "<div style=""page-break-after: always;""></div"). reflexivity.
  - exists (bs "<hr /"). reflexivity.
Qed.
Lemma sp_tops w l : forallb tags_all l = true -> forall p q, spread p q -> ends p ->
  spread (p ++ List.concat (map (block_page w false) l)) (q ++ List.concat (map (fun b => line 4 ++ block_laid w false b) l)) /\
  ends (p ++ List.concat (map (block_page w false) l)).
Proof.
  induction l as [|b l IH]; intros T p q H E; [cbn [map List.concat]; now rewrite !app_nil_r|].
  cbn [forallb] in T. apply andb_true_iff in T as (Tb & Tl). cbn [map List.concat].
  rewrite (app_assoc p), (app_assoc q). apply IH; [exact Tl| |].
  - rewrite app_assoc. apply spread_app; [apply sp_after; [exact H|exact E|apply white_line]|now apply sp_block].
  - apply ends_opt; [exact E|now apply page_ends].
Qed.
(** fixed text: tags with white space after them *)
Fixpoint closed (l : list (bytes * bytes)) : bytes := match l with [] => [] | (t, _) :: l => t ++ closed l end.
Fixpoint gapped (l : list (bytes * bytes)) : bytes := match l with [] => [] | (t, g) :: l => t ++ g ++ gapped l end.
Lemma sp_gapped l : Forall (fun x => ends (fst x) /\ forallb white (snd x) = true) l -> spread (closed l) (gapped l).
Proof.
  induction 1 as [|(t & g) l (E & W) F IH]; [apply spread_same|]. cbn [closed gapped fst snd] in *. rewrite app_assoc. apply spread_app; [|exact IH].
  apply sp_after; [apply spread_same|exact E|exact W].
Qed.
Lemma ends_last s : last s SP = ">" -> ends s.
Proof.
  intros L. destruct s as [|c s]; [discriminate L|]. assert (c :: s <> []) as N by discriminate. destruct (exists_last N) as (u & d & E).
  rewrite E in *. rewrite last_last in L. subst. now exists u.
Qed.
Lemma sp_page w t l : forallb tags_all l = true -> spread (blocks_page w t l) (blocks_laid w t l).
Proof.
  intros T. unfold blocks_laid, page_laid, blocks_page, page_around, wrap.
  set (t1 := match t with Some t => inlines_html t | None => [] end).
  set (h := [(bs "<!DOCTYPE html>", bs "
"); (bs "<html lang=""en"">", bs "

"); (bs "<head>", bs "
    "); (bs "<meta charset=""UTF-8"">", bs "
    "); (bs "<meta name=""viewport"" content=""width=device-width, initial-scale=1"">", bs "
    "); (bs "<title>", [])]).
  set (m := [(bs "</title>", bs "
"); (bs "</head>", bs "

"); (bs "<body>", [])]).
  set (e := [(bs "</body>", bs "

"); (bs "</html>", bs "
")]).
  set (B := List.concat (map (block_page w false) l)).
  set (L := List.concat (map (fun b => line 4 ++ block_laid w false b) l)).
  match goal with |- spread ?x _ => replace x with (closed h ++ t1 ++ (closed m ++ B) ++ closed e) end.
  2:{ repeat (progress (rewrite <- ?app_assoc; rewrite ?app_nil_r; cbn [app])). reflexivity. }
  match goal with |- spread _ ?x => replace x with ((bs "

" ++ gapped h) ++ t1 ++ (gapped m ++ L) ++ (bs "
" ++ gapped e)) end.
  2:{ repeat (progress (rewrite <- ?app_assoc; rewrite ?app_nil_r; cbn [app])). reflexivity. }
  assert (forall l, forallb (fun x => Ascii.eqb (last (fst x) SP) ">" && forallb white (snd x)) l = true -> spread (closed l) (gapped l)) as G.
  { intros x H. apply sp_gapped. rewrite forallb_forall in H. apply Forall_forall. intros y X. apply H, andb_true_iff in X as (X & Y).
    split; [apply ends_last; now apply Ascii.eqb_eq|exact Y]. }
  apply spread_app; [apply sp_before; [now apply G|eexists; reflexivity|reflexivity]|].
  apply spread_app; [apply spread_same|]. apply spread_app; [|apply sp_before; [now apply G|eexists; reflexivity|reflexivity]].
  apply sp_tops; [exact T|now apply G|]. apply ends_last. reflexivity.
Qed.
