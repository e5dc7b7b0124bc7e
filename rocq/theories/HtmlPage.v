(** * The HTML of any graph *)
From Verif Require SpecPage PageProofs ArticleHtml.
From Verif Require Import Base World Location Token Scanner Meta Inline Block Asg Json Html Parser SpecScan SpecLex SpecDoc SpecArticle
  SpecArticleHtml Docx Cli SpecCli ScanLemmas CliProofs TreeInd HtmlProofs ScriptBlocks ScriptWhole ScriptHtml ReadScript SpecScript SpecScriptHtml SpecScriptJson SpecHtmlPage.
Local Open Scope char_scope.
Local Open Scope nat_scope.
Local Arguments bs : simpl never.
Local Arguments dec : simpl never.

(** ** Numbers *)
Lemma natural_digits s : s <> [] -> digits_val 0 s = natural s.
Proof.
  intros N. unfold natural. destruct s as [|c r]; [easy|]. destruct (forallb is_digit (c :: r)) eqn:F.
  - now rewrite digits_decimal by exact F.
  - clear N. revert F. generalize 0%N. generalize (c :: r). clear. induction l as [|c l IH]; intros n F; [discriminate|].
    cbn [forallb digits_val] in *. destruct (is_digit c); [|reflexivity]. now apply IH.
Qed.
Lemma integer_ok s : parse_i64 s = integer s.
Proof.
  destruct s as [|c r]; [reflexivity|]. unfold parse_i64, integer.
  destruct (Ascii.eqb c "-") eqn:E1.
  { apply Ascii.eqb_eq in E1. subst. cbn [orb]. destruct r as [|d r]; [reflexivity|]. rewrite natural_digits by discriminate. reflexivity. }
  destruct (Ascii.eqb c "+") eqn:E2.
  { apply Ascii.eqb_eq in E2. subst. cbn [orb]. destruct r as [|d r]; [reflexivity|]. rewrite natural_digits by discriminate. reflexivity. }
  cbn [orb]. rewrite natural_digits by discriminate.
  destruct c as [[] [] [] [] [] [] [] []]; try discriminate E1; try discriminate E2; reflexivity.
Qed.
Lemma number_ok w s : tera_int w s = number_read w s.
Proof. unfold tera_int, number_read. now rewrite integer_ok. Qed.

(** ** Tables *)
Lemma body_abs c k num l : html_body_cells c k num l = html_body_cells (Z.of_nat (Z.abs_nat c)) k num l.
Proof.
  induction l as [|i l IH]; [reflexivity|]. cbn [html_body_cells]. rewrite IH. f_equal.
  unfold row_break. destruct (i =? 0); [reflexivity|]. rewrite Nat2Z.inj_abs_nat.
  destruct (Z.eqb_spec c 0) as [->|N]; [reflexivity|]. assert ((Z.abs c =? 0)%Z = false) as -> by (apply Z.eqb_neq; lia).
  do 3 f_equal. destruct (Z.abs_eq_or_opp c) as [-> | ->]; [reflexivity|]. now rewrite Z.rem_opp_r'.
Qed.
Lemma body_zero k num l : existsb (fun i => negb (i =? 0)) l = true -> html_body_cells 0 k num l = Panic.
Proof.
  induction l as [|i l IH]; [discriminate|]. cbn [existsb html_body_cells]. unfold row_break. destruct (i =? 0); [|reflexivity].
  intros H. cbn [negb orb] in H. cbn [bind]. now rewrite IH.
Qed.
(** rows from a given cell on *)
Lemma body_all cols k idx left : full cols idx left \/ (cols = 0 /\ idx = 0 /\ List.length k <= 1) -> (cols = 0 -> List.length k <= 1 /\ idx = 0) ->
  exists p, html_body_cells (Z.of_nat cols) k (List.length k) (seq idx (List.length k - idx)) = Ok p
  /\ bs "<tr>" ++ pt p ++ bs "</tr>" = rows_html (in_rows cols left (skipn idx (map cell_of k))).
Proof.
  intros F Z0. destruct (Nat.eq_dec cols 0) as [->|N].
  - destruct (Z0 eq_refl) as (L & ->). destruct k as [|x [|y k]]; [| |cbn in L; lia].
    + exists []. split; reflexivity.
    + cbn [List.length Nat.sub seq html_body_cells row_break Nat.eqb bind]. eexists. split; [reflexivity|]. cbn [app]. rewrite !app_nil_r.
      rewrite (cell_shown "td" [x] 0 (cell_of x) eq_refl). cbn [skipn map in_rows]. unfold rows_html, cells_html. cbn [map List.concat].
      rewrite !app_nil_r. unfold tagged. change (bs "<tr>") with (bs "<" ++ bs "tr" ++ bs ">"). change (bs "</tr>") with (bs "</" ++ bs "tr" ++ bs ">").
      rewrite <- !app_assoc. reflexivity.
  - destruct F as [F|(E & _)]; [|congruence].
    destruct (body_rows cols k ltac:(lia) (skipn idx (map cell_of k)) idx left eq_refl F) as (p & E & P).
    rewrite skipn_length, map_length in E. now exists p.
Qed.
Lemma table_known w me k : if table_can w me (List.length k)
  then exists p, html_table w me k = Ok p /\ pt p = table_page w me (map cell_of k) else html_table w me k = Panic.
Proof.
  unfold table_can, table_page, columns_read, html_table. destruct me as [m|]; [|reflexivity]. rewrite lookup_mget.
  destruct (mget (bs "cols") (m_attrs m)) as [cv|]; [|reflexivity]. cbn [option_map]. rewrite number_ok. cbv zeta. rewrite headed_memb.
  set (c := number_read w cv). clearbody c. destruct (memb (bs "header") (m_options m)); cbn [negb orb].
  - rewrite (body_abs c). destruct (Z.leb_spec 0 c) as [C|C].
    2:{ assert ((c <? 0)%Z = true) as -> by (apply Z.ltb_lt; lia). reflexivity. }
    assert ((c <? 0)%Z = false) as -> by (apply Z.ltb_ge; lia). cbn [orb andb].
    destruct (Z.leb_spec c (Z.of_nat (List.length k))) as [D|D].
    2:{ assert ((Z.of_nat (List.length k) <? c)%Z = true) as -> by (apply Z.ltb_lt; lia). reflexivity. }
    assert ((Z.of_nat (List.length k) <? c)%Z = false) as -> by (apply Z.ltb_ge; lia). cbn [andb].
    assert (Z.to_nat c = Z.abs_nat c) as -> by (symmetry; now apply Zabs2Nat.abs_nat_nonneg).
    assert (Z.of_nat (Z.abs_nat c) = c) as Ec by (rewrite Nat2Z.inj_abs_nat; lia).
    destruct ((negb (c =? 0)%Z || (List.length k <=? 1))) eqn:O.
    + destruct (body_all (Z.abs_nat c) k (Z.abs_nat c) (Z.abs_nat c)) as (p & E & P).
      { destruct (Z.eqb_spec c 0) as [->|N]; [right|left].
        - cbn [negb orb] in O. apply Nat.leb_le in O. now repeat split.
        - split; [lia|]. intros _. rewrite Nat.mod_same by lia. lia. }
      { intros H. assert (c = 0)%Z by lia. subst c. cbn [negb orb Z.eqb] in O. apply Nat.leb_le in O. now split. }
      rewrite E. cbn [bind]. eexists. split; [reflexivity|].
      rewrite !pt_app, pt_tagged. rewrite (first_cells "th" k _ 0) by (cbn; rewrite map_length; lia). cbn [skipn].
      rewrite <- P. unfold tagged. change (attrs_text []) with (@nil ascii). cbn [app].
      change (pt [TOpen (bs "table") []]) with (bs "<table>"). change (pt [TOpen (bs "tbody") []]) with (bs "<tbody>").
      change (pt [TOpen (bs "tr") []]) with (bs "<tr>"). change (pt [TClose (bs "tr")]) with (bs "</tr>").
      change (pt [TClose (bs "tbody")]) with (bs "</tbody>"). change (pt [TClose (bs "table")]) with (bs "</table>").
      rewrite <- !app_assoc. reflexivity.
    + apply orb_false_iff in O as (O1 & O2). apply negb_false_iff, Z.eqb_eq in O1. subst c. apply Nat.leb_gt in O2.
      change (Z.of_nat (Z.abs_nat 0)) with 0%Z. change (Z.abs_nat 0) with 0. rewrite body_zero; [reflexivity|].
      destruct k as [|x [|y k]]; [cbn in O2; lia..|]. reflexivity.
  - assert (((0 <? 0) || (Z.of_nat (List.length k) <? 0))%Z = false) as ->.
    { cbn [orb Z.ltb Z.compare]. apply Z.ltb_ge. lia. }
    cbn [andb]. change (Z.to_nat 0) with 0. rewrite (body_abs c).
    destruct ((negb (c =? 0)%Z || (List.length k <=? 1))) eqn:O.
    + destruct (body_all (Z.abs_nat c) k 0 (Nat.max 2 (Z.abs_nat c))) as (p & E & P).
      { left. split; [reflexivity|lia]. }
      { intros H. assert (c = 0)%Z by lia. subst c. cbn [negb orb Z.eqb] in O. apply Nat.leb_le in O. now split. }
      rewrite E. cbn [bind]. eexists. split; [reflexivity|]. cbn [skipn] in P. rewrite <- P. rewrite !pt_app.
      change (pt [TOpen (bs "table") []]) with (bs "<table>"). change (pt (@nil Html.piece)) with (@nil ascii).
      change (pt [TOpen (bs "tr") []]) with (bs "<tr>"). change (pt [TClose (bs "tr")]) with (bs "</tr>").
      change (pt [TClose (bs "table")]) with (bs "</table>"). unfold tagged. rewrite <- !app_assoc. reflexivity.
    + apply orb_false_iff in O as (O1 & O2). apply negb_false_iff, Z.eqb_eq in O1. subst c. apply Nat.leb_gt in O2.
      change (Z.of_nat (Z.abs_nat 0)) with 0%Z. rewrite body_zero; [reflexivity|].
      destruct k as [|x [|y k]]; [cbn in O2; lia..|]. reflexivity.
Qed.

(** ** Blocks *)
Section Known.
Variable w : world.
Definition known (s : bool) (b : block) : Prop :=
  if shown w b then exists p, html_block w s b = Ok p /\ pt p = block_page w s b else html_block w s b = Panic.
Lemma kids_known s l : Forall (fun b => forall s, known s b) l ->
  if forallb (shown w) l then exists p, skipped w s l = Ok p /\ pt p = List.concat (map (block_page w s) l) else skipped w s l = Panic.
Proof.
  induction 1 as [|x r Hx F IH]; [exists []; split; reflexivity|]. specialize (Hx s). unfold known in Hx. cbn [forallb ArticleHtml.skipped map List.concat].
  destruct (shown w x); cbn [andb].
  - destruct Hx as (p & -> & P). cbn [bind]. destruct (forallb (shown w) r).
    + destruct IH as (q & -> & Q). cbn [bind]. eexists. split; [reflexivity|]. now rewrite pt_app, P, Q.
    + now rewrite IH.
  - now rewrite Hx.
Qed.
Lemma block_known b : forall s, known s b.
Proof.
  induction b as [h m k loc IH] using block_ind'. intros s. unfold known. rewrite ArticleHtml.html_block_eq. cbn [shown].
  assert (forall (tag : string) (i d : list (bytes * bytes)) (x y z kids : list Html.piece),
     pt (if s then x ++ y ++ z ++ kids ++ html_attribution m else html_tag tag (class_attr m ++ i ++ d) (x ++ y ++ z ++ kids ++ html_attribution m))
     = around_html s m tag (attrs_text i ++ attrs_text d) (pt x ++ pt y ++ pt z ++ pt kids)) as AR.
  { intros tag i d x y z kids. unfold around_html. destruct s; rewrite ?pt_tagged, ?attrs_app, ?class_text, !pt_app, attribution_shown, <- !app_assoc; reflexivity. }
  assert (forall n l, pt (match l with [] => [] | _ :: _ => html_tag n [] (html_inlines l) end) = within n l) as WI by (intros; apply within_shown).
  assert (forall s' f (t : bytes), (forall p, pt p = List.concat (map (block_page w s') k) -> pt (f p) = t) ->
    if forallb (shown w) k then exists p, bind (skipped w s' k) (fun q => Ok (f q)) = Ok p /\ pt p = t
    else bind (skipped w s' k) (fun q => Ok (f q)) = Panic) as KD.
  { intros s' f t Hf. pose proof (kids_known s' k IH) as KK. destruct (forallb (shown w) k); [|now rewrite KK].
    destruct KK as (p & -> & P). cbn [bind]. eexists. split; [reflexivity|]. now apply Hf. }
  assert (forall p : list Html.piece, (match p with [] => [] | _ => p end) = p) as _ by (now destruct p).
  destruct h; cbn [block_page is_admonition].
  - apply KD. intros p P. rewrite pt_tagged, !attrs_app, class_text, opt_text, attrs_one, !pt_app, P, attribution_shown. cbn [html_title]. rewrite WI, PageProofs.dec_numeral.
    change (bs " data-type=""sect") with (" " :: bs "data-type" ++ bs "=""" ++ bs "sect").
    unfold tagged. cbn [app]. rewrite <- ?app_assoc. cbn [app]. rewrite <- ?app_assoc. reflexivity.
  - apply KD. intros p P. cbn [html_terms app]. rewrite AR, P. destruct v; reflexivity.
  - apply KD. intros p P. cbn [html_terms app]. rewrite AR, P. cbn [html_principal]. rewrite WI. reflexivity.
  - apply KD. intros p P. cbn [html_terms app]. rewrite AR, P. reflexivity.
  - apply KD. intros p P. rewrite pt_app, AR, P. cbn [html_terms html_principal]. rewrite !WI. reflexivity.
  - destruct v; eexists; (split; [reflexivity|reflexivity]).
  - cbn [bind]. eexists. split; [reflexivity|]. etransitivity; [refine (AR _ _ _ _ _ _ [])|].
    cbn [html_image block_id_attr block_data_type html_principal html_title]. rewrite opt_text, pt_app, WI.
    change (pt []) with (@nil ascii). change (attrs_text (opt_attr "data-type" None)) with (@nil ascii). rewrite app_nil_r. cbn [app]. f_equal.
    unfold pt at 1, pieces_text. cbn [map List.concat Html.piece_text app]. unfold attrs_text at 1. cbn [map List.concat].
    fold (attrs_text (opt_attr "alt" (meta_attr "positional_1" m))). rewrite opt_text.
    unfold attr_text. cbn [fst snd]. rewrite app_nil_r.
    change (bs "<img src=""") with (bs "<" ++ bs "img" ++ [SP] ++ bs "src" ++ ["="; DQ]). change [DQ] with (bs """"). rewrite <- !app_assoc. reflexivity.
  - eexists. split; [reflexivity|]. destruct n; cbn [html_leaf leaf_shown]; rewrite ?pt_tagged, ?attrs_app, ?class_text, ?opt_text, ?inlines_shown; try reflexivity.
  - destruct n; try apply table_known; try (destruct v as [v|]); try reflexivity.
    all: apply KD; intros p P; cbn [html_terms app]; rewrite AR, P; cbn [html_title html_image html_principal block_id_attr block_data_type]; rewrite ?WI;
      try reflexivity.
    cbn [opt_attr]. rewrite attrs_one. cbn [attrs_text map List.concat app]. f_equal.
  - cbn [bind]. eexists. split; [reflexivity|]. etransitivity; [refine (AR _ _ _ _ _ _ [])|].
    cbn [html_title html_image html_principal]. rewrite inlines_shown. change (pt []) with (@nil ascii). cbn [app]. rewrite (app_nil_r (inlines_html _)). reflexivity.
Qed.
Lemma blocks_known l : if forallb (shown w) l then exists p, html_blocks w l = Ok p /\ pt p = List.concat (map (block_page w false) l)
  else html_blocks w l = Panic.
Proof. rewrite <- ArticleHtml.skipped_blocks. apply kids_known. apply Forall_forall. intros b _. apply block_known. Qed.
Lemma page_known a title l : html_blocks w (a_blocks a) = html_blocks w l ->
  match a_header a with Some h => html_inlines (hd_title h) | None => [] end = match title with Some t => html_inlines t | None => [] end ->
  render_htmlbook w a = if forallb (shown w) l then Ok (blocks_page w title l) else Panic.
Proof.
  intros L T. unfold render_htmlbook, html_document. rewrite L. pose proof (blocks_known l) as K. destruct (forallb (shown w) l); [|now rewrite K].
  destruct K as (p & -> & P). cbn [bind]. rewrite T. f_equal. fold pt. rewrite !pt_app, !pt_tagged, !pt_app, !pt_tagged, P.
  assert (pt (match title with Some t => html_inlines t | None => [] end) = match title with Some t => inlines_html t | None => [] end) as ->
    by (destruct title; [apply inlines_shown|reflexivity]).
  unfold blocks_page, page_around, wrap, tagged. rewrite <- ?app_assoc. reflexivity.
Qed.
End Known.
Lemma graph_known w a : render_htmlbook w a = if forallb (shown w) (a_blocks a) then Ok (graph_html w a) else Panic.
Proof. apply page_known; [reflexivity|]. now destruct (a_header a). Qed.

(** ** The command *)
Lemma html_run w fuel e c src g : c_backend c = BHtmlbook -> source_text w e c src ->
  parse w fuel (origin_directory e (c_file c)) (negb (c_unresolved c)) src = Ok g ->
  exists o, destination c o
  /\ let counted := if c_count c then [EvCount (word_count g) (c_file c)] else [] in
     run w fuel e c
     = if forallb (shown w) (a_blocks g) then
         match o with
         | None => (counted ++ [EvStdout (CHtml (graph_html w g))], Ok Datatypes.tt)
         | Some p => if e_writable e p then (counted ++ [EvWrite p (CHtml (graph_html w g))], Ok Datatypes.tt) else (counted, Panic)
         end
       else (counted, Panic).
Proof.
  intros B S P. exists (read_output c). split; [apply destination_ok|]. unfold run. 
  rewrite (input_read _ _ _ _ S). cbn [lift]. rewrite P. cbn [lift]. rewrite B. cbv zeta. rewrite graph_known.
  destruct (forallb (shown w) (a_blocks g)); cbn [lift]; [|now rewrite app_nil_r]. unfold render_string.
  destruct (read_output c) as [p|]; [destruct (e_writable e p)|]; rewrite ?app_nil_r; reflexivity.
Qed.

(** ** Scripts *)
Lemma script_known w fuel origin resolve src d : utf8 src -> script_ok d ->
  (resolve = true -> Forall (fun t => w_canon w (path_join origin t) <> None) (pictures d)) ->
  (cells d = [] \/ 0 < fuel) -> written src d ->
  exists g, parse w fuel origin resolve src = Ok g
  /\ render_htmlbook w g = if forallb (shown w) (script_blocks d) then Ok (blocks_page w (script_title d) (script_blocks d)) else Panic.
Proof.
  intros U K R T N. destruct (script_graph w fuel origin resolve src d U K R T N) as (g & P & B & H). exists g. split; [exact P|].
  apply page_known.
  - now rewrite <- B, html_unplaced_blocks.
  - unfold heading_of in H. rewrite <- H. destruct (a_header g); [|reflexivity]. cbn [option_map]. now rewrite html_unplaced_inlines.
Qed.
Lemma script_known_run w fuel e c src d : c_backend c = BHtmlbook -> source_text w e c src -> utf8 src -> script_ok d ->
  (c_unresolved c = false -> Forall (fun t => w_canon w (path_join (origin_directory e (c_file c)) t) <> None) (pictures d)) ->
  (cells d = [] \/ 0 < fuel) -> written src d ->
  exists o, destination c o
  /\ let counted := if c_count c then [EvCount (script_words d) (c_file c)] else [] in
     let text := CHtml (blocks_page w (script_title d) (script_blocks d)) in
     run w fuel e c
     = if forallb (shown w) (script_blocks d) then
         match o with
         | None => (counted ++ [EvStdout text], Ok Datatypes.tt)
         | Some p => if e_writable e p then (counted ++ [EvWrite p text], Ok Datatypes.tt) else (counted, Panic)
         end
       else (counted, Panic).
Proof.
  intros B S U H G T N. assert (negb (c_unresolved c) = true -> Forall (fun t => w_canon w (path_join (origin_directory e (c_file c)) t) <> None) (pictures d)) as G'.
  { intros C. apply G. now destruct (c_unresolved c). }
  destruct (script_known w fuel (origin_directory e (c_file c)) (negb (c_unresolved c)) src d U H G' T N) as (g & P & R).
  destruct (script_json w fuel (origin_directory e (c_file c)) (negb (c_unresolved c)) src d U H G' T N) as (g' & P' & K & _).
  rewrite P in P'. injection P' as <-.
  exists (read_output c). split; [apply destination_ok|]. unfold run. rewrite (input_read _ _ _ _ S).
  cbn [lift]. rewrite P. cbn [lift]. rewrite B, R, K. cbv zeta. destruct (forallb (shown w) (script_blocks d)); cbn [lift]; [|now rewrite app_nil_r]. unfold render_string.
  destruct (read_output c) as [p|]; [destruct (e_writable e p)|]; rewrite ?app_nil_r; reflexivity.
Qed.
