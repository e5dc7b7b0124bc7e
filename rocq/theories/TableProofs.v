(** * Tables as they are written *)
From Verif Require ArticleHtml.
From Verif Require Import Base World Location Token Scanner Meta Inline Block Asg Json Html Parser SpecScan SpecLex SpecDoc SpecArticle
  SpecArticleHtml TreeInd ScriptText ScriptBlocks ScriptCells ScriptWhole ScriptHtml ScriptTables SpecScript SpecScriptHtml SpecTable.
Local Open Scope char_scope.
Local Open Scope nat_scope.
Local Arguments bs : simpl never.
Local Arguments dec : simpl never.

Lemma refer_nothing b : refer_block [] b = b.
Proof.
  assert (forall i, refer [] i = i) as I by (intros [| |v| ]; try reflexivity; now destruct v).
  assert (forall l, map (refer []) l = l) as L by (intros l; rewrite <- map_id; apply map_ext, I).
  induction b as [h m k loc IH] using block_ind'. cbn [refer_block]. f_equal; [destruct h; cbn [refer_head]; now rewrite ?L|].
  induction IH as [|x l H F IHl]; [reflexivity|]. cbn [map]. now rewrite H, IHl.
Qed.
Lemma grid_meta_plain gap r rows : 2 <= List.length (row_cells r) ->
  grid_meta gap (r :: rows) None = Some (mkMeta [(bs "cols", dec (List.length (row_cells r)))] (if gap then [] else [bs "header"]) [] false None []).
Proof.
  intros A. unfold grid_meta. cbn [map]. unfold grid_cells. cbn [map List.concat].
  destruct (row_cells r) as [|r1 [|r2 rs]] eqn:Er; [cbn in A; lia|cbn in A; lia|]. cbn [app]. cbv zeta. rewrite <- Er.
  assert (cols_given (if gap then blank else mkMeta (m_attrs blank) (m_options blank ++ [bs "header"]) (m_roles blank) (m_inline blank) (m_type blank) []) = false) as -> by (destruct gap; reflexivity).
  f_equal. unfold counted. cbn [with_attr m_attrs]. rewrite lookup_enter, columns_digits by apply dec_decimal.
  destruct gap; reflexivity.
Qed.
Lemma table_flow title gap r rows : 2 <= List.length (row_cells r) ->
  script_blocks (table_script title gap (r :: rows)) = [table_made title gap r rows].
Proof.
  intros A. assert (g_flow (script_page (table_script title gap (r :: rows))) = [(false, table_made title gap r rows)]) as E.
  { unfold script_page. cbn [table_script sc_pieces sc_last pieces_page fold_left piece_page fst snd]. unfold land.
    cbn [flag_page first_page g_open g_flag dress table_script sc_title]. rewrite andb_false_r. cbn [place g_flow app g_open].
    assert (title_rest (first_page (table_script title gap (r :: rows))) (dress []) title = None) as Et by (destruct title; [apply rest_none|reflexivity]).
    unfold grid_block, table_made. cbn [dress] in Et. rewrite Et. cbn [worn]. rewrite grid_meta_plain by exact A.
    do 3 f_equal. f_equal. destruct title; reflexivity. }
  unfold script_blocks. rewrite E. change (outline [(false, table_made title gap r rows)]) with [table_made title gap r rows]. unfold referred.
  assert (names [table_made title gap r rows] = []) as ->.
  { unfold names, table_made. cbn [map List.concat SpecXref.in_order]. rewrite app_nil_r. cbn [map List.concat id_of b_meta m_attrs].
    assert (lookup (bs "id") [(bs "cols", dec (List.length (row_cells r)))] = None) as -> by reflexivity. cbn [app].
    induction (row_cells r ++ List.concat (map row_cells rows)) as [|c l IH]; [reflexivity|]. cbn [map List.concat SpecXref.in_order app id_of b_meta]. exact IH. }
  cbn [map]. now rewrite refer_nothing.
Qed.
Lemma table_parse w fuel origin resolve src title gap r rows : utf8 src -> 2 <= List.length (row_cells r) ->
  script_ok (table_script title gap (r :: rows)) -> written src (table_script title gap (r :: rows)) -> 0 < fuel ->
  exists g, parse w fuel origin resolve src = Ok g /\ map unplaced (a_blocks g) = [table_made title gap r rows].
Proof.
  intros U A K W F. destruct (script_graph w fuel origin resolve src _ U K) as (g & E & B & _); [|now right|exact W|].
  { intros _. constructor. }
  exists g. split; [exact E|]. rewrite B. now apply table_flow.
Qed.

(** ** Rectangles *)
Lemma in_rows_rect {A} n (rows : list (list A)) : 1 <= n -> Forall (fun r => List.length r = n) rows -> forall x, x <> [] ->
  in_rows n (List.length x) (x ++ List.concat rows) = x :: rows.
Proof.
  intros P F. induction F as [|r rows H F IH]; intros x N.
  - cbn [List.concat]. rewrite app_nil_r. induction x as [|a [|b x] IHx]; [congruence|reflexivity|]. rewrite in_rows_more.
    cbn [List.length Nat.leb Nat.sub] in *. rewrite (IHx ltac:(discriminate)). reflexivity.
  - destruct r as [|c r]; [cbn in H; lia|]. cbn [List.concat]. induction x as [|a [|b x] IHx]; [congruence| |].
    + cbn [app List.length]. rewrite in_rows_more. cbn [Nat.leb]. f_equal. rewrite <- H at 2. apply (IH (c :: r)). discriminate.
    + cbn [app] in *. rewrite in_rows_more. cbn [List.length Nat.leb Nat.sub] in *. rewrite (IHx ltac:(discriminate)). reflexivity.
Qed.

Lemma chopped n first rows : 2 <= n -> Forall (fun r => List.length (row_cells r) = n) (first :: rows) ->
  forall f : bytes * list element -> list inline,
  in_rows n n (map f (List.concat (map row_cells (first :: rows)))) = map (fun r => map f (row_cells r)) (first :: rows).
Proof.
  intros P F f. rewrite concat_map, map_map. cbn [map List.concat]. inversion_clear F as [|? ? H F'].
  rewrite <- H at 2. rewrite <- (map_length f (row_cells first)). apply in_rows_rect; [lia| |].
  - clear -F'. induction F' as [|r l E _ IH]; [constructor|]. cbn [map]. constructor; [now rewrite map_length|exact IH].
  - destruct (row_cells first); [cbn in H; lia|discriminate].
Qed.
Lemma rows_shown rows : rows_html (map (fun r => map (fun c => plain_text (snd c)) (row_cells r)) rows)
  = List.concat (map (fun r => tagged "tr" [] (row_html "td" r)) rows).
Proof.
  unfold rows_html. rewrite map_map. f_equal. apply map_ext. intros r. f_equal. unfold cells_html, row_html. now rewrite map_map.
Qed.
Lemma rectangle_shown title gap n first rows : 2 <= n -> (N.of_nat n < 2 ^ 63)%N -> Forall (fun r => List.length (row_cells r) = n) (first :: rows) ->
  block_html false (table_made title gap first rows) = rectangle_html gap first rows.
Proof.
  intros P L F. unfold table_made, rectangle_html. cbn [block_html]. rewrite map_map. unfold table_html.
  pose proof (Forall_inv F) as H. cbn beta in H. rewrite H.
  assert (columns_told (Some (mkMeta [(bs "cols", dec n)] (if gap then [] else [bs "header"]) [] false None [])) = Some (N.of_nat n)) as ->.
  { unfold columns_told. cbn [m_attrs]. change (lookup (bs "cols") [(bs "cols", dec n)]) with (Some (dec n)). destruct (dec_decimal n) as (D & V & N).
    destruct (dec n) as [|c r]; [congruence|]. rewrite D, V. apply N.ltb_lt in L. now rewrite L. }
  rewrite Nat2N.id. f_equal. destruct gap; cbn [headed m_options existsb].
  - rewrite Nat.max_r by lia. cbn [cell_of]. rewrite (chopped n first rows P F (fun c => plain_text (snd c))). apply rows_shown.
  - change (beqb (bs "header") (bs "header") || false) with true. cbn [cell_of map List.concat]. rewrite map_app.
    assert (n = List.length (map (fun c : bytes * list element => plain_text (snd c)) (row_cells first))) as E by (rewrite map_length; congruence).
    replace (firstn n) with (@firstn (list inline) (List.length (map (fun c : bytes * list element => plain_text (snd c)) (row_cells first)) + 0)) by (f_equal; lia).
    rewrite firstn_app_2, app_nil_r.
    replace (skipn n) with (@skipn (list inline) (List.length (map (fun c : bytes * list element => plain_text (snd c)) (row_cells first)) + 0)) by (f_equal; lia).
    rewrite skipn_app, skipn_all2, app_nil_l by lia. replace (_ + 0 - _) with 0 by lia. cbn [skipn]. f_equal; [f_equal; unfold cells_html, row_html; now rewrite map_map|]. f_equal.
    destruct rows as [|second rows]; [reflexivity|]. rewrite (chopped n second rows P (Forall_inv_tail F) (fun c => plain_text (snd c))). apply rows_shown.
Qed.
Lemma rectangle_page w fuel origin resolve src title gap n first rows : utf8 src -> 2 <= n -> (N.of_nat n < 2 ^ 63)%N ->
  Forall (fun r => List.length (row_cells r) = n) (first :: rows) ->
  script_ok (table_script title gap (first :: rows)) -> written src (table_script title gap (first :: rows)) -> 0 < fuel ->
  exists g, parse w fuel origin resolve src = Ok g /\ render_htmlbook w g = Ok (page_around [] (rectangle_html gap first rows)).
Proof.
  intros U P L F K W Fu. pose proof (Forall_inv F) as H. cbn beta in H.
  destruct (script_html_ok w fuel origin resolve src (table_script title gap (first :: rows)) U K) as (g & E & R); [| |now right|exact W|].
  - apply fit_blocks; [|exact K]. constructor; [|constructor]. split; [reflexivity|]. rewrite H. split; [lia|exact L].
  - intros _. constructor.
  - exists g. split; [exact E|]. rewrite R. unfold script_html, page_html. rewrite table_flow by lia. cbn [map List.concat script_title table_script sc_title option_map].
    rewrite (rectangle_shown title gap n) by assumption. now rewrite app_nil_r.
Qed.
Lemma table_block_shown w bare v delim title me k loc : table_fits me (List.length k) = true ->
  exists p, html_block w bare (Blk (HParent PTable v delim title) me k loc) = Ok p /\ pieces_text p = table_html me (map cell_of k).
Proof. intros F. rewrite ArticleHtml.html_block_eq. now apply table_shown. Qed.
