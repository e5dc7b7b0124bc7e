(** * The HTML of scripts *)
From Verif Require SpecMeta ArticleHtml.
From Verif Require Import Base World Location Token Scanner Meta Inline Block Asg Json Html Parser SpecScan SpecLex SpecDoc SpecArticle
  SpecArticleHtml Docx Cli SpecCli ScanLemmas CliProofs TreeInd HtmlProofs ScriptBlocks ScriptWhole SpecScript SpecScriptHtml.
Local Open Scope char_scope.
Local Open Scope nat_scope.
Local Arguments bs : simpl never.
Local Arguments dec : simpl never.
Notation skipped := ArticleHtml.skipped.
Notation pt := ArticleHtml.pt.

(** ** Locations do not matter *)
Lemma class_unplaced m : class_attr (option_map unplaced_meta m) = class_attr m.
Proof. destruct m as [[]|]; reflexivity. Qed.
Lemma attr_unplaced k m : meta_attr k (option_map unplaced_meta m) = meta_attr k m.
Proof. destruct m as [[]|]; reflexivity. Qed.
Lemma html_unplaced_inline i : html_inline (unplaced_inline i) = html_inline i.
Proof.
  induction i using inline_ind'; cbn [unplaced_inline html_inline]; rewrite ?class_unplaced; try reflexivity.
  - do 2 f_equal. rewrite map_map. f_equal. apply map_ext_Forall. exact H.
  - assert (List.concat (map html_inline (map unplaced_inline l)) = List.concat (map html_inline l)) as E
      by (rewrite map_map; f_equal; apply map_ext_Forall; exact H).
    destruct v; try reflexivity; rewrite E; destruct l; reflexivity.
Qed.
Lemma html_unplaced_inlines l : html_inlines (map unplaced_inline l) = html_inlines l.
Proof. unfold html_inlines. rewrite map_map. f_equal. apply map_ext. apply html_unplaced_inline. Qed.
Lemma unplaced_cell t k idx : html_cell t (map unplaced k) idx = html_cell t k idx.
Proof.
  unfold html_cell, cell_inlines. rewrite nth_error_map. destruct (nth_error k idx) as [[h m kk loc]|]; [|reflexivity].
  cbn [option_map unplaced]. destruct h; cbn [unplaced_head]; try reflexivity; now rewrite html_unplaced_inlines.
Qed.
Lemma unplaced_body cols k num idxs : html_body_cells cols (map unplaced k) num idxs = html_body_cells cols k num idxs.
Proof. induction idxs; cbn [html_body_cells]; [reflexivity|]. rewrite IHidxs, unplaced_cell. reflexivity. Qed.
Lemma unplaced_table w m k : html_table w (option_map unplaced_meta m) (map unplaced k) = html_table w m k.
Proof.
  unfold html_table. destruct m as [[a o r i t l]|]; [|reflexivity]. cbn [option_map unplaced_meta m_attrs m_options].
  destruct (mget _ _); [|reflexivity]. rewrite map_length. cbv zeta.
  rewrite unplaced_body. rewrite (map_ext (html_cell "th" (map unplaced k)) (html_cell "th" k)) by (intro; apply unplaced_cell). reflexivity.
Qed.
Lemma attribution_unplaced m : html_attribution (option_map unplaced_meta m) = html_attribution m.
Proof. unfold html_attribution. now rewrite !attr_unplaced. Qed.
Lemma html_unplaced w b : forall skip, html_block w skip (unplaced b) = html_block w skip b.
Proof.
  induction b as [h m k loc IH] using block_ind'. intros skip. cbn [unplaced]. rewrite !ArticleHtml.html_block_eq.
  assert (forall s, skipped w s (map unplaced k) = skipped w s k) as E.
  { intros s. induction IH as [|x l Hx HF IHl]; cbn [map ArticleHtml.skipped]; [reflexivity|]. rewrite Hx, IHl. reflexivity. }
  assert (html_title (unplaced_head h) = html_title h) as H1.
  { destruct h; try reflexivity; cbn [unplaced_head html_title]; rewrite <- (html_unplaced_inlines title); destruct title; reflexivity. }
  assert (html_image (unplaced_head h) (option_map unplaced_meta m) = html_image h m) as H2.
  { destruct h; try reflexivity. cbn [unplaced_head html_image]. rewrite attr_unplaced, <- (html_unplaced_inlines caption). now destruct caption. }
  assert (html_principal (unplaced_head h) = html_principal h) as H3.
  { destruct h; try reflexivity; cbn [unplaced_head html_principal]; try (rewrite <- (html_unplaced_inlines principal); now destruct principal).
    apply html_unplaced_inlines. }
  assert (html_terms (unplaced_head h) = html_terms h) as H4.
  { destruct h; try reflexivity. cbn [unplaced_head html_terms]. rewrite <- (html_unplaced_inlines terms). now destruct terms. }
  destruct h; cbn [unplaced_head block_id_attr] in *; rewrite ?E, ?H1, ?H2, ?H3, ?H4, ?unplaced_table, ?class_unplaced, ?attr_unplaced, ?attribution_unplaced; try reflexivity.
  unfold html_leaf. now rewrite !html_unplaced_inlines, !class_unplaced, !attr_unplaced.
Qed.
Lemma html_unplaced_blocks w l : html_blocks w (map unplaced l) = html_blocks w l.
Proof. induction l; cbn [map html_blocks]; [reflexivity|]. now rewrite html_unplaced, IHl. Qed.

(** ** Text *)
Lemma pt_app a b : pt (a ++ b) = pt a ++ pt b.
Proof. apply text_app. Qed.
Lemma pt_tagged t a l : pt (html_tag t a l) = tagged t (attrs_text a) (pt l).
Proof. unfold html_tag, tagged. rewrite !pt_app. unfold pt, pieces_text. cbn. rewrite !app_nil_r, <- !app_assoc. reflexivity. Qed.
Lemma pt_span t a l : pt ([TOpen (bs t) a] ++ l ++ [TClose (bs t)]) = tagged t (attrs_text a) (pt l).
Proof. apply pt_tagged. Qed.
Lemma pt_text s : pt [TText s] = s.
Proof. unfold pt, pieces_text. cbn. apply app_nil_r. Qed.
Lemma attrs_app a b : attrs_text (a ++ b) = attrs_text a ++ attrs_text b.
Proof. unfold attrs_text. now rewrite map_app, concat_app. Qed.
Lemma attrs_one k v : attrs_text [(bs k, v)] = " " :: bs k ++ bs "=""" ++ v ++ bs """".
Proof. unfold attrs_text, attr_text. cbn [map List.concat fst snd]. now rewrite app_nil_r. Qed.
Lemma joined_spaced l : join (bs " ") l = SpecMeta.spaced l.
Proof. induction l as [|x [|y r] IH]; [reflexivity|reflexivity|]. cbn [join SpecMeta.spaced] in *. now rewrite <- IH. Qed.
Lemma class_text m : attrs_text (class_attr m) = class_html m.
Proof.
  destruct m as [[a o r i t l]|]; [|reflexivity]. cbn [class_attr class_html m_roles]. destruct r as [|x r]; [reflexivity|].
  rewrite attrs_one, joined_spaced. reflexivity.
Qed.
Lemma lookup_mget {A} k (l : list (bytes * A)) : lookup k l = mget k l.
Proof.
  unfold lookup. induction l as [|(k', v) r IH]; [reflexivity|]. cbn [find mget fst].
  destruct (beqb k' k) eqn:E.
  - apply ScanLemmas.beqb_eq in E. subst. now rewrite ScanLemmas.beqb_refl.
  - rewrite IH. destruct (beqb k k') eqn:F; [|reflexivity]. apply ScanLemmas.beqb_eq in F. subst. rewrite ScanLemmas.beqb_refl in E. discriminate.
Qed.
Lemma meta_noted k m : meta_attr k m = match noted k m with [] => None | v => Some v end.
Proof.
  destruct m as [m|]; [|reflexivity]. cbn [meta_attr noted]. rewrite lookup_mget. destruct (mget (bs k) (m_attrs m)) as [[]|]; reflexivity.
Qed.
Lemma opt_text n k m : attrs_text (opt_attr n (meta_attr k m)) = filled n (noted k m).
Proof. rewrite meta_noted. destruct (noted k m); [reflexivity|]. cbn [opt_attr]. rewrite attrs_one. reflexivity. Qed.

Lemma inline_shown i : pt (html_inline i) = inline_html i.
Proof.
  induction i using inline_ind'; cbn [html_inline inline_html].
  - assert (forall l, Forall (fun i => pt (html_inline i) = inline_html i) l -> pt (List.concat (map html_inline l)) = List.concat (map inline_html l)) as E.
    { induction 1 as [|x r Hx F IH]; [reflexivity|]. cbn [map List.concat]. now rewrite pt_app, Hx, IH. }
    specialize (E _ H).
    assert (span_tag v = bs (span_name v)) as -> by (destruct v; reflexivity).
    rewrite pt_span, attrs_app, class_text, E. do 2 f_equal. destruct v; reflexivity.
  - assert (forall l, Forall (fun i => pt (html_inline i) = inline_html i) l -> pt (List.concat (map html_inline l)) = List.concat (map inline_html l)) as E.
    { induction 1 as [|x r Hx F IH]; [reflexivity|]. cbn [map List.concat]. now rewrite pt_app, Hx, IH. }
    specialize (E _ H).
    destruct v.
    1,2: rewrite pt_span, attrs_app, class_text, attrs_one; cbn [ref_text]; destruct l; [rewrite pt_text|rewrite E]; reflexivity.
    unfold pt, pieces_text. cbn [map List.concat Html.piece_text]. rewrite attrs_app, class_text, attrs_one, app_nil_r.
    change (bs "<img") with (bs "<" ++ bs "img"). change (bs " src=""") with (" " :: bs "src" ++ bs "=""").
    change (bs """ />") with (bs """" ++ bs " />"). cbn [app]. rewrite <- !app_assoc. cbn [app]. rewrite <- !app_assoc. reflexivity.
  - apply pt_text.
  - reflexivity.
Qed.
Lemma inlines_shown l : pt (html_inlines l) = inlines_html l.
Proof.
  unfold html_inlines, inlines_html. induction l as [|x r IH]; [reflexivity|]. cbn [map List.concat]. now rewrite pt_app, inline_shown, IH.
Qed.
Lemma within_shown n l : pt (match l with [] => [] | _ => html_tag n [] (html_inlines l) end) = within n l.
Proof. destruct l; [reflexivity|]. now rewrite pt_tagged, inlines_shown. Qed.
Lemma attribution_shown m : pt (html_attribution m) = attribution m.
Proof.
  unfold html_attribution, attribution. rewrite !meta_noted. destruct (noted "attribution" m) as [|a r]; [reflexivity|].
  rewrite pt_tagged, pt_app, pt_text, attrs_one. unfold tagged. do 6 f_equal.
  destruct (noted "citation" m); [reflexivity|]. unfold pt, pieces_text. cbn [map List.concat Html.piece_text]. now rewrite app_nil_r.
Qed.

(** ** Tables *)
Lemma digit_name c : is_digit c = true -> name_char c.
Proof. intros H. left. unfold is_ascii_alnum. now rewrite H. Qed.
Lemma digits_trim v : forallb is_digit v = true -> trim v = v.
Proof.
  intros F. apply DocGraph.trim_name. rewrite forallb_forall in F. apply Forall_forall. intros c I. now apply digit_name, F.
Qed.
Lemma digits_decimal v : forallb is_digit v = true -> forall n,
  digits_val n v = Some (fold_left (fun n c => (10 * n + (N_of_ascii c - 48))%N) v n).
Proof.
  induction v as [|c v IH]; intros F n; [reflexivity|]. cbn [forallb] in F. apply andb_prop in F as [F1 F2].
  cbn [digits_val fold_left]. rewrite F1, (N.mul_comm n 10). now apply IH.
Qed.
Lemma told_int w cv m : mget (bs "cols") (m_attrs m) = Some cv -> forall n, columns_told (Some m) = Some n ->
  tera_int w cv = Z.of_N n /\ (Z.of_N n < 2 ^ 63)%Z.
Proof.
  intros G n T. unfold columns_told in T. rewrite lookup_mget, G in T. destruct cv as [|c r]; [discriminate|].
  destruct (forallb is_digit (c :: r)) eqn:F; [|discriminate]. cbn [andb] in T.
  destruct (decimal (c :: r) <? 2 ^ 63)%N eqn:L; [|discriminate]. injection T as <-. apply N.ltb_lt in L.
  assert (Z.of_N (decimal (c :: r)) < 2 ^ 63)%Z as L' by (change (2 ^ 63)%Z with (Z.of_N (2 ^ 63)); lia).
  split; [|exact L']. unfold tera_int. rewrite digits_trim by exact F. unfold parse_i64.
  assert (is_digit c = true) as Dc by (cbn [forallb] in F; now apply andb_prop in F as [F _]).
  destruct (Ascii.eqb c "-") eqn:E1; [apply Ascii.eqb_eq in E1; subst; discriminate|].
  destruct (Ascii.eqb c "+") eqn:E2; [apply Ascii.eqb_eq in E2; subst; discriminate|]. cbn [orb].
  rewrite digits_decimal by exact F. fold (decimal (c :: r)).
  assert ((- 2 ^ 63 <=? Z.of_N (decimal (c :: r)))%Z = true) as -> by (apply Z.leb_le; lia).
  assert ((Z.of_N (decimal (c :: r)) <? 2 ^ 63)%Z = true) as -> by (now apply Z.ltb_lt). reflexivity.
Qed.
Lemma headed_memb m : headed (Some m) = memb (bs "header") (m_options m).
Proof. reflexivity. Qed.
Lemma cell_shown name k i c : nth_error (map cell_of k) i = Some c -> pt (html_cell name k i) = tagged name [] (inlines_html c).
Proof.
  intros E. rewrite nth_error_map in E. unfold html_cell, cell_inlines. destruct (nth_error k i) as [[h m kk l]|]; [|discriminate].
  injection E as <-. rewrite pt_tagged, inlines_shown. destruct h; reflexivity.
Qed.
Lemma skipn_nth {A} i (l : list A) c r : skipn i l = c :: r -> nth_error l i = Some c /\ skipn (S i) l = r.
Proof.
  revert i. induction l as [|x l IH]; intros [|i] E; try discriminate.
  - injection E as -> ->. split; reflexivity.
  - now apply IH.
Qed.
Lemma first_cells name k n : forall s, n <= List.length (skipn s (map cell_of k)) ->
  pt (List.concat (map (html_cell name k) (seq s n))) = cells_html name (firstn n (skipn s (map cell_of k))).
Proof.
  induction n as [|n IH]; intros s L; [reflexivity|]. cbn [seq map List.concat].
  destruct (skipn s (map cell_of k)) as [|c r] eqn:E; [cbn in L; lia|]. cbn [List.length] in L. destruct (skipn_nth _ _ _ _ E) as (N & R).
  rewrite pt_app, (cell_shown name k s c N), IH by (rewrite R; lia). rewrite R. reflexivity.
Qed.
Lemma tr_break : pt [TClose (bs "tr"); TOpen (bs "tr") []] = bs "</tr><tr>".
Proof. reflexivity. Qed.
Lemma in_rows_more {A} cols left (c d : A) r : in_rows cols left (c :: d :: r)
  = if left <=? 1 then [c] :: in_rows cols cols (d :: r)
    else match in_rows cols (left - 1) (d :: r) with [] => [[c]] | x :: y => (c :: x) :: y end.
Proof. reflexivity. Qed.
Lemma in_rows_some {A} cols left (l : list A) : exists x y, in_rows cols left l = x :: y.
Proof.
  destruct l as [|c [|d r]]; [do 2 eexists; reflexivity|do 2 eexists; reflexivity|]. rewrite in_rows_more.
  destruct (left <=? 1); [do 2 eexists; reflexivity|]. destruct (in_rows _ _ _); do 2 eexists; reflexivity.
Qed.
Definition full (cols idx left : nat) : Prop := (idx = 0 -> left = Nat.max 2 cols) /\ (idx <> 0 -> left = cols - idx mod cols).
Lemma full_next cols idx left : 1 <= cols -> full cols idx left ->
  (idx <> 0 /\ (S idx mod cols =? 0) = true /\ left <= 1 /\ full cols (S idx) cols)
  \/ ((idx = 0 \/ (S idx mod cols =? 0) = false) /\ 1 < left /\ full cols (S idx) (left - 1)).
Proof.
  intros C (F0 & F1). destruct (Nat.eq_dec idx 0) as [->|N].
  { right. specialize (F0 eq_refl). split; [now left|]. split; [lia|]. split; [discriminate|]. intros _.
    destruct (Nat.eq_dec cols 1) as [->|H1]; [subst left; reflexivity|]. rewrite Nat.mod_small by lia. lia. }
  specialize (F1 N). pose proof (Nat.mod_upper_bound idx cols ltac:(lia)) as B.
  assert (S idx mod cols = S (idx mod cols) mod cols) as Em.
  { rewrite <- (Nat.add_1_r idx), Nat.add_mod by lia. rewrite <- (Nat.add_1_r (idx mod cols)). rewrite (Nat.add_mod (idx mod cols) 1) by lia. now rewrite Nat.mod_mod by lia. }
  destruct (Nat.eq_dec (S (idx mod cols)) cols) as [E|E].
  - left. rewrite Em, E, Nat.mod_same by lia. split; [exact N|]. split; [reflexivity|]. split; [lia|]. split; [discriminate|]. intros _. rewrite Em, E, Nat.mod_same by lia. lia.
  - right. rewrite Em, Nat.mod_small by lia. split; [now right|]. split; [lia|]. split; [discriminate|]. intros _. rewrite Em, Nat.mod_small by lia. lia.
Qed.
Lemma body_rows cols k : 1 <= cols -> forall l idx left, skipn idx (map cell_of k) = l -> full cols idx left ->
  exists p, html_body_cells (Z.of_nat cols) k (List.length k) (seq idx (List.length l)) = Ok p
  /\ bs "<tr>" ++ pt p ++ bs "</tr>" = rows_html (in_rows cols left l).
Proof.
  intros C. induction l as [|c r IH]; intros idx left E F.
  { exists []. split; [reflexivity|]. reflexivity. }
  destruct (skipn_nth _ _ _ _ E) as (N & R).
  assert (idx + S (List.length r) = List.length k) as L.
  { assert (idx < List.length (map cell_of k)) by (apply nth_error_Some; congruence).
    apply (f_equal (@List.length _)) in E. rewrite skipn_length, map_length in E. rewrite map_length in H. cbn [List.length] in E. lia. }
  cbn [List.length seq html_body_cells].
  assert (row_break (Z.of_nat cols) idx (List.length k)
    = Ok (negb (idx =? 0) && (S idx mod cols =? 0) && negb (match r with [] => true | _ => false end))) as ->.
  { unfold row_break. destruct (idx =? 0) eqn:Z0; [reflexivity|]. cbn [negb andb].
    assert ((Z.of_nat cols =? 0)%Z = false) as -> by (apply Z.eqb_neq; lia). f_equal. f_equal.
    - replace (Z.of_nat idx + 1)%Z with (Z.of_nat (S idx)) by lia. rewrite Z.rem_mod_nonneg by lia. rewrite <- Nat2Z.inj_mod by lia. destruct (S idx mod cols) eqn:M; [reflexivity|]. apply Z.eqb_neq. lia.
    - f_equal. destruct r; [apply Nat.eqb_eq; cbn in L; lia|apply Nat.eqb_neq; cbn in L; lia]. }
  cbn [bind].
  destruct (full_next _ _ _ C F) as [(N0 & M & Lf & F')|(NM & Lf & F')].
  - destruct (IH (S idx) cols R F') as (p & -> & P). cbn [bind]. eexists. split; [reflexivity|].
    apply Nat.eqb_neq in N0. rewrite N0, M, !pt_app, (cell_shown _ _ _ _ N). destruct r as [|d r].
    + cbn [List.length seq] in P |- *. cbn [in_rows negb andb]. unfold rows_html in P |- *. cbn [in_rows map List.concat] in P |- *. 
      rewrite app_nil_r in *. unfold cells_html in *. cbn [map List.concat] in *. unfold tagged at 1 in P. unfold tagged at 2.
      change (bs "<" ++ bs "tr" ++ [] ++ bs ">" ++ [] ++ bs "</" ++ bs "tr" ++ bs ">") with (bs "<tr>" ++ bs "</tr>") in P.
      apply app_inv_head in P. assert (pt p = []) as Pn.
      { apply (f_equal (@List.length _)) in P. rewrite app_length in P. destruct (pt p); [reflexivity|cbn in P; lia]. }
      rewrite Pn. change (pt []) with (@nil ascii). rewrite !app_nil_r. change (bs "<tr>") with (bs "<" ++ bs "tr" ++ bs ">").
      change (bs "</tr>") with (bs "</" ++ bs "tr" ++ bs ">"). rewrite <- !app_assoc. reflexivity.
    + cbn [negb andb]. rewrite tr_break. rewrite in_rows_more.
      assert (left <=? 1 = true) as -> by now apply Nat.leb_le.
      unfold rows_html. cbn [map List.concat]. fold (rows_html (in_rows cols cols (d :: r))). rewrite <- P.
      unfold cells_html. cbn [map List.concat]. unfold tagged at 2. rewrite app_nil_r.
      change (bs "</tr><tr>") with (bs "</" ++ bs "tr" ++ bs ">" ++ bs "<tr>").  change (bs "<tr>") with (bs "<" ++ bs "tr" ++ bs ">").
      rewrite <- !app_assoc. reflexivity.
  - destruct (IH (S idx) (left - 1) R F') as (p & -> & P). cbn [bind]. eexists. split; [reflexivity|].
    assert (negb (idx =? 0) && (S idx mod cols =? 0) = false) as -> by (destruct NM as [->| ->]; [reflexivity|apply andb_false_r]).
    cbn [andb]. cbn [app]. rewrite pt_app, (cell_shown _ _ _ _ N).
    assert (in_rows cols left (c :: r) = match in_rows cols (left - 1) r with [] => [[c]] | x :: y => (c :: x) :: y end) as ->.
    { destruct r as [|d r]; [reflexivity|]. rewrite in_rows_more. apply Nat.leb_gt in Lf. now rewrite Lf. }
    destruct (in_rows_some cols (left - 1) r) as (x & y & Er). rewrite Er in *.
    unfold rows_html in *. cbn [map List.concat] in *. unfold tagged at 1 in P. unfold tagged at 2.
    change (bs "<tr>") with (bs "<" ++ bs "tr" ++ bs ">") in *. rewrite <- !app_assoc in *.
    do 2 apply app_inv_head in P. change ([] ++ ?x) with x in P. apply app_inv_head in P. rewrite P. unfold cells_html. cbn [map List.concat]. rewrite <- !app_assoc. reflexivity.
Qed.
Lemma table_shown w me k : table_fits me (List.length k) = true ->
  exists p, html_table w me k = Ok p /\ pt p = table_html me (map cell_of k).
Proof.
  intros F. unfold table_fits in F. destruct (columns_told me) as [n|] eqn:T; [|discriminate]. apply andb_prop in F as [F1 F2]. apply N.leb_le in F1.
  destruct me as [m|]; [|discriminate]. unfold html_table, table_html. rewrite T. 
  destruct (mget (bs "cols") (m_attrs m)) as [cv|] eqn:G; [|unfold columns_told in T; rewrite lookup_mget, G in T; discriminate].
  destruct (told_int w cv m G n T) as (-> & L). cbv zeta. rewrite headed_memb in *.
  assert (Z.of_N n = Z.of_nat (N.to_nat n)) as En by lia. assert (1 <= N.to_nat n) as C by lia.
  destruct (memb (bs "header") (m_options m)); cbn [negb orb] in F2.
  - apply N.leb_le in F2. assert (N.to_nat n <= List.length k) as F3 by lia.
    rewrite En. generalize dependent (N.to_nat n). intros cols _ C F3. rewrite Nat2Z.id.
    assert ((Z.of_nat cols <? 0)%Z = false) as -> by (apply Z.ltb_ge; lia).
    assert ((Z.of_nat (List.length k) <? Z.of_nat cols)%Z = false) as -> by (apply Z.ltb_ge; lia). cbn [orb].
    destruct (body_rows cols k C (skipn cols (map cell_of k)) cols cols eq_refl) as (p & E & P).
    { split; [lia|]. intros _. rewrite Nat.mod_same by lia. lia. }
    rewrite skipn_length, map_length in E. rewrite E. cbn [bind]. eexists. split; [reflexivity|].
    rewrite !pt_app, pt_tagged. rewrite (first_cells "th" k cols 0) by (cbn; rewrite map_length; lia). cbn [skipn].
    rewrite <- P. unfold tagged. change (attrs_text []) with (@nil ascii). cbn [app].
    change (pt [TOpen (bs "table") []]) with (bs "<table>"). change (pt [TOpen (bs "tbody") []]) with (bs "<tbody>").
    change (pt [TOpen (bs "tr") []]) with (bs "<tr>"). change (pt [TClose (bs "tr")]) with (bs "</tr>").
    change (pt [TClose (bs "tbody")]) with (bs "</tbody>"). change (pt [TClose (bs "table")]) with (bs "</table>").
    rewrite <- !app_assoc. reflexivity.
  - assert (((0 <? 0) || (Z.of_nat (List.length k) <? 0))%Z = false) as ->.
    { cbn [orb Z.ltb Z.compare]. apply Z.ltb_ge. lia. }
    rewrite En. generalize dependent (N.to_nat n). intros cols _ C. change (Z.to_nat 0) with 0. rewrite Nat.sub_0_r.
    destruct (body_rows cols k C (map cell_of k) 0 (Nat.max 2 cols) eq_refl) as (p & E & P).
    { split; [reflexivity|lia]. }
    rewrite map_length in E. rewrite E. cbn [bind]. eexists. split; [reflexivity|]. rewrite <- P. rewrite !pt_app.
    change (pt [TOpen (bs "table") []]) with (bs "<table>"). change (pt (@nil Html.piece)) with (@nil ascii).
    change (pt [TOpen (bs "tr") []]) with (bs "<tr>"). change (pt [TClose (bs "tr")]) with (bs "</tr>").
    change (pt [TClose (bs "table")]) with (bs "</table>"). unfold tagged. rewrite <- !app_assoc. reflexivity.
Qed.

(** ** Blocks *)
Definition is_cell (b : block) : bool := match b with Blk (HCell _) _ [] _ => true | _ => false end.
Fixpoint drawn (b : block) : bool :=
  match b with
  | Blk h _ k _ =>
      match h with
      | HParent PTable _ _ _ => forallb is_cell k
      | HSection _ _ n => (1 <=? n) && (n <=? 4) && forallb drawn k
      | HCell _ => false
      | HParent PFootnotes _ _ _ | HParent PAdmonition None _ _ => false
      | _ => forallb drawn k
      end
  end.
Section Draw.
Variable w : world.
Lemma kids_shown s l : Forall (fun b => forall s, drawn b = true -> tables_fit b = true -> exists p, html_block w s b = Ok p /\ pt p = block_html s b) l ->
  forallb drawn l = true -> forallb tables_fit l = true -> exists p, skipped w s l = Ok p /\ pt p = List.concat (map (block_html s) l).
Proof.
  induction 1 as [|x r Hx F IH]; intros D V; [exists []; split; reflexivity|]. cbn [forallb] in D, V. apply andb_true_iff in D as (D1 & D2). apply andb_true_iff in V as (V1 & V2).
  destruct (Hx s D1 V1) as (p & E & P). destruct (IH D2 V2) as (q & E' & Q). cbn [ArticleHtml.skipped map List.concat]. rewrite E, E'. cbn [bind].
  eexists. split; [reflexivity|]. now rewrite pt_app, P, Q.
Qed.
Lemma block_shown b : forall s, drawn b = true -> tables_fit b = true -> exists p, html_block w s b = Ok p /\ pt p = block_html s b.
Proof.
  induction b as [h m k loc IH] using block_ind'. intros s D V. rewrite ArticleHtml.html_block_eq. cbn [drawn] in D. cbn [tables_fit] in V. apply andb_true_iff in V as (V1 & V2).
  cbn [block_html].
  assert (forall (tag : string) (i d : list (bytes * bytes)) (x y z kids : list Html.piece),
     pt (if s then x ++ y ++ z ++ kids ++ html_attribution m else html_tag tag (class_attr m ++ i ++ d) (x ++ y ++ z ++ kids ++ html_attribution m))
     = around_html s m tag (attrs_text i ++ attrs_text d) (pt x ++ pt y ++ pt z ++ pt kids)) as AR.
  { intros tag i d x y z kids. unfold around_html. destruct s; rewrite ?pt_tagged, ?attrs_app, ?class_text, !pt_app, attribution_shown, <- !app_assoc; reflexivity. }
  assert (forall n l, pt (match l with [] => [] | _ :: _ => html_tag n [] (html_inlines l) end) = within n l) as WI by (intros; apply within_shown).
  destruct h; try discriminate D.
  { apply andb_true_iff in D as (D1 & D2). destruct (kids_shown false k IH D2 V2) as (p & E & P). rewrite E. cbn [bind]. eexists. split; [reflexivity|].
    rewrite pt_tagged, !attrs_app, class_text, opt_text, attrs_one, !pt_app, P, attribution_shown. cbn [html_title]. rewrite WI.
    assert (dec level = level_digit level) as ->.
    { apply andb_true_iff in D1 as (A & B). apply Nat.leb_le in A, B. destruct level as [|[|[|[|[|]]]]]; try lia; reflexivity. }
    change (bs " data-type=""sect") with (" " :: bs "data-type" ++ bs "=""" ++ bs "sect").
    unfold tagged. cbn [app]. rewrite <- ?app_assoc. cbn [app]. rewrite <- ?app_assoc. reflexivity. }
  - destruct (kids_shown false k IH D V2) as (p & E & P). cbn [is_admonition]. rewrite E. cbn [bind]. eexists. split; [reflexivity|].
    cbn [html_terms app]. rewrite AR, P. destruct v; reflexivity.
  - destruct (kids_shown false k IH D V2) as (p & E & P). cbn [is_admonition]. rewrite E. cbn [bind]. eexists. split; [reflexivity|].
    cbn [html_terms app]. rewrite AR, P. cbn [html_principal]. rewrite WI. reflexivity.
  - destruct (kids_shown false k IH D V2) as (p & E & P). cbn [is_admonition]. rewrite E. cbn [bind]. eexists. split; [reflexivity|].
    cbn [html_terms app]. rewrite AR, P. reflexivity.
  - destruct (kids_shown false k IH D V2) as (p & E & P). cbn [is_admonition]. rewrite E. cbn [bind]. eexists. split; [reflexivity|].
    rewrite pt_app, AR, P. cbn [html_terms html_principal]. rewrite !WI. reflexivity.
  - destruct v; eexists; (split; [reflexivity|reflexivity]).
  - cbn [bind]. eexists. split; [reflexivity|]. etransitivity; [refine (AR _ _ _ _ _ _ [])|].
    cbn [html_image block_id_attr block_data_type html_principal html_title]. rewrite opt_text, pt_app, WI.
    change (pt []) with (@nil ascii). change (attrs_text (opt_attr "data-type" None)) with (@nil ascii). rewrite app_nil_r. cbn [app]. f_equal.
    unfold pt at 1, pieces_text. cbn [map List.concat Html.piece_text app]. unfold attrs_text at 1. cbn [map List.concat].
    fold (attrs_text (opt_attr "alt" (meta_attr "positional_1" m))). rewrite opt_text.
    unfold attr_text. cbn [fst snd]. rewrite app_nil_r.
    change (bs "<img src=""") with (bs "<" ++ bs "img" ++ [SP] ++ bs "src" ++ ["="; DQ]). change [DQ] with (bs """"). rewrite <- !app_assoc. reflexivity.
  - eexists. split; [reflexivity|]. destruct n; cbn [html_leaf leaf_shown]; rewrite ?pt_tagged, ?attrs_app, ?class_text, ?opt_text, ?inlines_shown; try reflexivity.
  - destruct n; try discriminate D; cbn [is_admonition]; try (now apply table_shown);
      try (destruct v as [v|]; [|discriminate D]).
    all: match goal with |- context [skipped _ ?b ?kids] => destruct (kids_shown b kids IH D V2) as (p & E & P) end; rewrite E; cbn [bind];
      eexists; split; [reflexivity|]; cbn [html_terms app]; rewrite AR, P; cbn [html_title html_image html_principal block_id_attr block_data_type]; rewrite ?WI;
      try reflexivity.
    cbn [opt_attr]. rewrite attrs_one. cbn [attrs_text map List.concat app]. f_equal.
Qed.
End Draw.

(** ** The blocks of scripts *)
Definition drawn_flow (l : list (bool * block)) : Prop := Forall (fun x => drawn (snd x) = true) l.
Lemma drawn_wrapped me p : drawn (wrapped me p) = true.
Proof. unfold wrapped. destruct (match me with Some m => _ | None => false end); reflexivity. Qed.
Lemma drawn_place b g : drawn b = true -> drawn_flow (g_flow g) -> drawn_flow (g_flow (place b g)).
Proof. intros B G. apply Forall_app. split; [exact G|]. repeat constructor. exact B. Qed.
Lemma drawn_land b g : drawn b = true -> drawn_flow (g_flow g) -> drawn_flow (g_flow (land b g)).
Proof.
  intros B G. unfold land. destruct (g_flag g && g_open g); [|now apply drawn_place].
  apply Forall_app. split; [exact G|]. repeat constructor. exact B.
Qed.
Lemma drawn_leaf c x g : drawn_flow (g_flow g) -> drawn_flow (g_flow (leaf_page c x g)).
Proof.
  intros G. destruct x as [|? l|[|[[] ?] l]| | | | | |]; cbn [leaf_page]; try exact G.
  - apply drawn_land; [apply drawn_wrapped|exact G].
  - apply drawn_land; [|exact G]. cbn [drawn]. induction l; [reflexivity|]. cbn [map forallb drawn]. exact IHl.
  - apply drawn_land; [|exact G]. cbn [drawn forallb term_block andb]. induction l; [reflexivity|]. cbn [map forallb drawn term_block andb]. exact IHl.
  - apply drawn_land; [reflexivity|exact G].
  - apply drawn_land; [reflexivity|exact G].
Qed.
Lemma drawn_leaves l : forall g, drawn_flow (g_flow g) -> drawn_flow (g_flow (fold_left (fun h x => leaf_page (fst x) (snd x) h) l g)).
Proof. induction l as [|(c, x) l IH]; intros g G; [exact G|]. apply IH. now apply drawn_leaf. Qed.
Lemma drawn_all l : drawn_flow l -> forallb drawn (map snd l) = true.
Proof. induction 1 as [|x l H F IH]; [reflexivity|]. cbn [map forallb]. now rewrite H, IH. Qed.
Lemma drawn_box l last h : drawn_flow (g_flow h) -> drawn_flow (g_flow (box_page l last h)).
Proof. intros H. unfold box_page. pose proof (drawn_leaves l h H) as H'. destruct last; [exact H'|]. now apply drawn_place. Qed.
Lemma drawn_bounds l : forall g, forallb drawn (bound_blocks l g) = true.
Proof.
  induction l as [|[title b x last] l IH]; intros g; [reflexivity|]. cbn [bound_blocks forallb]. rewrite IH, andb_true_r. unfold bound_block.
  set (h := box_page _ _ _). assert (drawn_flow (g_flow h)) as H by (apply drawn_box; constructor).
  cbn [drawn]. rewrite (drawn_all _ H). now destruct b.
Qed.
Lemma drawn_items l : forall g, forallb drawn (item_blocks l g) = true.
Proof. induction l as [|x l IH]; intros g; [reflexivity|]. cbn [item_blocks forallb]. rewrite IH, andb_true_r. unfold item_block. cbn [drawn andb]. apply drawn_bounds. Qed.
Lemma drawn_piece k c p g : piece_ok k c p -> drawn_flow (g_flow g) -> drawn_flow (g_flow (piece_page c p g)).
Proof.
  intros (_ & K) G. destruct p; cbn [piece_page].
  - now apply drawn_leaf.
  - apply drawn_land; [|now rewrite (proj2 (items_flow _ _))]. cbn [drawn andb]. apply drawn_items.
  - apply Forall_app. split; [exact G|]. destruct K as ((A & B) & _). repeat constructor. cbn.
    apply andb_true_iff. split; [|reflexivity]. destruct level as [|[|[|[|[|]]]]]; try lia; reflexivity.
  - apply Forall_app. split; [exact G|]. repeat constructor. cbn [snd]. change (true && (drawn (page_para g (dress c) (waits (g_keep g) c) l) && true) = true). unfold page_para. now rewrite drawn_wrapped.
  - apply drawn_place; [reflexivity|exact G].
  - apply drawn_place; [reflexivity|exact G].
  - set (h := box_page _ _ _). assert (drawn_flow (g_flow h)) as H by (apply drawn_box; constructor).
    apply drawn_land; [|exact G]. cbn [drawn]. rewrite (drawn_all _ H). now destruct b.
  - apply drawn_land; [|exact G]. cbn [drawn grid_block]. induction (grid_cells rows); [reflexivity|]. cbn [map forallb is_cell]. exact IHl.
Qed.
Lemma drawn_pieces l : forall g, pieces_ok g l -> drawn_flow (g_flow g) -> drawn_flow (g_flow (pieces_page l g)).
Proof. induction l as [|(c, p) l IH]; intros g F G; [exact G|]. destruct F as [H F']. apply IH; [exact F'|]. eapply drawn_piece; eassumption. Qed.
Lemma drawn_script d : script_ok d -> drawn_flow (g_flow (script_page d)).
Proof.
  intros (_ & F & _). unfold script_page. pose proof (drawn_pieces _ (first_page d) F (Forall_nil _)) as H.
  destruct (sc_last d) as [(c, (l, ended))|]; [|exact H]. apply drawn_place; [apply drawn_wrapped|exact H].
Qed.
Lemma drawn_split f l : drawn_flow l -> let (a, b) := split_while f l in drawn_flow a /\ drawn_flow b.
Proof.
  induction 1 as [|x l H F IH]; [split; constructor|]. cbn [split_while]. destruct (f x); [|split; constructor; auto; constructor; auto].
  destruct (split_while f l) as (a, b). destruct IH. split; [now constructor|assumption].
Qed.
Lemma drawn_shelve l : drawn_flow l -> drawn_flow (shelve l).
Proof.
  induction 1 as [|(o, [h m k loc]) l H F IH]; [constructor|]. destruct h; cbn [shelve]; try (constructor; assumption).
  pose proof (drawn_split (beneath level) _ IH) as S. destruct (split_while (beneath level) (shelve l)) as (mine, rest). destruct S as (A & B).
  constructor; [|exact B]. cbn [snd drawn] in *. apply andb_true_iff in H as (H1 & H2). rewrite H1, forallb_app, H2, drawn_all by exact A. reflexivity.
Qed.
Lemma drawn_refer ns b : drawn (refer_block ns b) = drawn b.
Proof.
  induction b as [h m k loc IH] using block_ind'. cbn [refer_block drawn].
  assert (forallb drawn (map (refer_block ns) k) = forallb drawn k) as E
    by (induction IH as [|x l H F IHl]; [reflexivity|]; cbn [map forallb]; now rewrite H, IHl).
  assert (forallb is_cell (map (refer_block ns) k) = forallb is_cell k) as E'.
  { clear. induction k as [|x l IHl]; [reflexivity|]. cbn [map forallb]. rewrite IHl. f_equal. destruct x as [[] ? [] ?]; reflexivity. }
  destruct h; cbn [refer_head]; rewrite ?E, ?E'; reflexivity.
Qed.
Lemma drawn_blocks d : script_ok d -> forallb drawn (script_blocks d) = true.
Proof.
  intros H. unfold script_blocks, referred. set (l := outline _). assert (forallb drawn l = true) as L.
  { apply drawn_all, drawn_shelve, drawn_script, H. }
  generalize (names l). intros ns. clear H. induction l as [|b l IH]; [reflexivity|]. cbn [map forallb] in *.
  rewrite drawn_refer. apply andb_true_iff in L as (-> & L). now apply IH.
Qed.

Lemma page_shown w g : forallb drawn (map unplaced (a_blocks g)) = true -> forallb tables_fit (map unplaced (a_blocks g)) = true ->
  render_htmlbook w g = Ok (page_html (option_map (fun h => map unplaced_inline (hd_title h)) (a_header g)) (map unplaced (a_blocks g))).
Proof.
  intros D V. unfold render_htmlbook, html_document. rewrite <- html_unplaced_blocks, <- ArticleHtml.skipped_blocks.
  destruct (kids_shown w false (map unplaced (a_blocks g))) as (p & E & P); [|exact D|exact V|].
  { apply Forall_forall. intros b _. apply block_shown. }
  rewrite E. cbn [bind]. f_equal. fold pt. rewrite !pt_app, !pt_tagged, !pt_app, !pt_tagged, P.
  assert (pt (match a_header g with Some h => html_inlines (hd_title h) | None => [] end)
    = match option_map (fun h => map unplaced_inline (hd_title h)) (a_header g) with Some t => inlines_html t | None => [] end) as ->.
  { destruct (a_header g); [|reflexivity]. cbn [option_map]. now rewrite <- inlines_shown, html_unplaced_inlines. }
  unfold page_html, page_around, wrap, tagged. rewrite <- ?app_assoc. reflexivity.
Qed.
Lemma script_html_ok w fuel origin resolve src d : utf8 src -> script_ok d -> forallb tables_fit (script_blocks d) = true ->
  (resolve = true -> Forall (fun t => w_canon w (path_join origin t) <> None) (pictures d)) ->
  (cells d = [] \/ 0 < fuel) -> written src d ->
  exists g, parse w fuel origin resolve src = Ok g /\ render_htmlbook w g = Ok (script_html d).
Proof.
  intros U K V R T N. destruct (script_graph w fuel origin resolve src d U K R T N) as (g & P & B & H). exists g. split; [exact P|].
  rewrite page_shown; rewrite B; [|now apply drawn_blocks|exact V]. unfold script_html. unfold heading_of in H. now rewrite <- H.
Qed.
