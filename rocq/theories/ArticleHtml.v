(** * The HTML of articles *)
From Verif Require Import Base World Location Token Scanner Meta Inline Block Asg Json Html Parser SpecScan SpecDoc SpecArticle
  SpecArticleHtml Docx Cli SpecCli ScanLemmas CliProofs TreeInd HtmlProofs ArticleProofs ArticleWhole.
Local Open Scope char_scope.
Local Open Scope nat_scope.
Local Arguments bs : simpl never.
Local Arguments dec : simpl never.

(** ** Locations do not matter *)
Lemma bare_html_inline i : html_inline (bare_inline i) = html_inline i.
Proof.
  induction i using inline_ind'; cbn [bare_inline html_inline]; try reflexivity.
  - do 2 f_equal. rewrite map_map. f_equal. apply map_ext_Forall. exact H.
  - assert (List.concat (map html_inline (map bare_inline l)) = List.concat (map html_inline l)) as E
      by (rewrite map_map; f_equal; apply map_ext_Forall; exact H).
    destruct v; try reflexivity; rewrite E; destruct l; reflexivity.
Qed.
Lemma bare_html_inlines l : html_inlines (map bare_inline l) = html_inlines l.
Proof. unfold html_inlines. rewrite map_map. f_equal. apply map_ext. apply bare_html_inline. Qed.

Fixpoint skipped (w : world) (skip : bool) (l : list block) : result (list Html.piece) :=
  match l with
  | [] => Ok []
  | x :: r => let* p := html_block w skip x in let* q := skipped w skip r in Ok (p ++ q)
  end.
Lemma html_block_eq w skip h m kids loc :
  html_block w skip (Blk h m kids loc) =
  match h with
  | HLeaf n _ _ l => Ok (html_leaf n l m)
  | HParent PTable _ _ _ => html_table w m kids
  | HParent PAdmonition None _ _ => Panic
  | HBreak BPage => Ok (html_tag "div" [(bs "style", bs "page-break-after: always;")] [])
  | HBreak BThematic => Ok [TEmpty true (bs "hr") []]
  | HSection _ _ lv =>
      let* k := skipped w false kids in
      Ok (html_tag "section"
            ([(bs "data-type", bs "sect" ++ dec lv)] ++ class_attr m ++ opt_attr "id" (meta_attr "id" m))
            (html_title h ++ html_attribution m ++ k))
  | _ =>
      let* k := match h with HMacro _ _ | HCell _ => Ok [] | _ => skipped w (is_admonition h) kids end in
      let body := html_title h ++ html_image h m ++ html_principal h ++ k ++ html_attribution m in
      let tag := block_tag h in
      let attrs := class_attr m ++ opt_attr "id" (block_id_attr h m) ++ opt_attr "data-type" (block_data_type h) in
      Ok (html_terms h ++ if skip then body else html_tag tag attrs body)
  end.
Proof.
  assert (forall s l, (fix go (skip : bool) (l : list block) : result (list Html.piece) :=
        match l with
        | [] => Ok []
        | x :: r =>
            let* p := html_block w skip x in
            let* q := go skip r in Ok (p ++ q)
        end) s l = skipped w s l) as E by (intros s l; induction l; cbn; [reflexivity|]; now rewrite IHl).
  destruct h; cbn [html_block]; rewrite ?E; reflexivity.
Qed.
Lemma skipped_blocks w l : skipped w false l = html_blocks w l.
Proof. induction l; cbn; [reflexivity|]. now rewrite IHl. Qed.

Lemma bare_cells k idx : html_inlines (cell_inlines (map bare k) idx) = html_inlines (cell_inlines k idx).
Proof.
  unfold cell_inlines. rewrite nth_error_map. destruct (nth_error k idx) as [[h m kk loc]|]; [|reflexivity]. cbn.
  destruct h; cbn; try reflexivity; apply bare_html_inlines.
Qed.
Lemma bare_cell t k idx : html_cell t (map bare k) idx = html_cell t k idx.
Proof. unfold html_cell. now rewrite bare_cells. Qed.
Lemma bare_body cols k num idxs : html_body_cells cols (map bare k) num idxs = html_body_cells cols k num idxs.
Proof. induction idxs; cbn [html_body_cells]; [reflexivity|]. rewrite IHidxs, bare_cell. reflexivity. Qed.
Lemma bare_table w m k : html_table w m (map bare k) = html_table w m k.
Proof.
  unfold html_table. destruct m; [|reflexivity]. destruct (mget _ _); [|reflexivity]. rewrite map_length. cbv zeta.
  rewrite bare_body. rewrite (map_ext (html_cell "th" (map bare k)) (html_cell "th" k)) by (intro; apply bare_cell). reflexivity.
Qed.
Lemma bare_html w b : forall skip, html_block w skip (bare b) = html_block w skip b.
Proof.
  induction b as [h m k loc IH] using block_ind'. intros skip. cbn [bare]. rewrite !html_block_eq.
  assert (forall s, skipped w s (map bare k) = skipped w s k) as E.
  { intros s. induction IH as [|x l Hx HF IHl]; cbn [map skipped]; [reflexivity|]. rewrite Hx, IHl. reflexivity. }
  assert (forall t : list inline, (match map bare_inline t with [] => [] | _ :: _ => html_tag "h1" [] (html_inlines (map bare_inline t)) end)
     = (match t with [] => [] | _ :: _ => html_tag "h1" [] (html_inlines t) end)) as T
    by (intros t; rewrite bare_html_inlines; now destruct t).
  assert (html_title (bare_head h) = html_title h) as H1.
  { destruct h; try reflexivity; cbn [bare_head html_title]; rewrite <- (bare_html_inlines title); destruct title; try reflexivity.
     }
  assert (html_image (bare_head h) m = html_image h m) as H2.
  { destruct h; try reflexivity. cbn [bare_head html_image]. rewrite <- (bare_html_inlines caption). now destruct caption. }
  assert (html_principal (bare_head h) = html_principal h) as H3.
  { destruct h; try reflexivity; cbn [bare_head html_principal]; try (rewrite <- (bare_html_inlines principal); now destruct principal).
    apply bare_html_inlines. }
  assert (html_terms (bare_head h) = html_terms h) as H4.
  { destruct h; try reflexivity. cbn [bare_head html_terms]. rewrite <- (bare_html_inlines terms). now destruct terms. }
  destruct h; cbn [bare_head] in *; rewrite ?E, ?H1, ?H2, ?H3, ?H4, ?bare_table; try reflexivity.
  - unfold html_leaf. now rewrite !bare_html_inlines.
Qed.
Lemma bare_html_blocks w l : html_blocks w (map bare l) = html_blocks w l.
Proof. induction l; cbn [map html_blocks]; [reflexivity|]. now rewrite bare_html, IHl. Qed.

(** ** Text *)
Definition pt := pieces_text.
Lemma pt_app a b : pt (a ++ b) = pt a ++ pt b.
Proof. apply text_app. Qed.
Lemma pt_tag t l : pt (html_tag t [] l) = bs "<" ++ bs t ++ bs ">" ++ pt l ++ bs "</" ++ bs t ++ bs ">".
Proof. unfold html_tag. rewrite !pt_app. unfold pt, pieces_text. cbn. rewrite !app_nil_r, <- !app_assoc. reflexivity. Qed.
Lemma pt_inlines_cons a l : pt (html_inlines (a :: l)) = pt (html_inline a) ++ pt (html_inlines l).
Proof. unfold html_inlines. cbn [map List.concat]. apply pt_app. Qed.
Lemma pt_inlines_app a b : pt (html_inlines (a ++ b)) = pt (html_inlines a) ++ pt (html_inlines b).
Proof. unfold html_inlines. rewrite map_app, concat_app. apply pt_app. Qed.
Definition part_html (p : part) : bytes := match p with PText s => s | PMarked k s => mark_html k s end.
Lemma part_html_ok p : pt (html_inline (part_inline p)) = part_html p.
Proof.
  destruct p as [s|k s]; [unfold pt, pieces_text; cbn; apply app_nil_r|].
  destruct k; unfold pt, pieces_text; cbn; rewrite app_nil_r; reflexivity.
Qed.
Lemma merged_html l : List.concat (map part_html (merge l)) = List.concat (map part_html l).
Proof.
  induction l as [|[s|k s] l IH]; cbn [merge map List.concat]; [reflexivity| |now rewrite IH].
  rewrite <- IH. destruct (merge l) as [|[b|k b] r]; cbn [map List.concat part_html]; rewrite ?app_assoc; reflexivity.
Qed.
Lemma pt_text e l : pt (html_inlines (text_inlines e l)) = List.concat (map part_html (lines_parts e l)).
Proof.
  unfold text_inlines. rewrite <- merged_html. induction (merge (lines_parts e l)) as [|p r IH]; [reflexivity|].
  cbn [map List.concat]. now rewrite pt_inlines_cons, IH, part_html_ok.
Qed.
Lemma chunk_part_html e c : List.concat (map part_html (chunk_part e c)) = chunk_text e c.
Proof.
  unfold chunk_part. destruct (spell_chunk c) eqn:E; [|cbn; apply app_nil_r].
  destruct c as [s [|(n, v) l]]; unfold spell_chunk in E; cbn in E.
  - rewrite app_nil_r in E. subst. reflexivity.
  - apply app_eq_nil in E as (_ & E). discriminate.
Qed.
Lemma rich_parts_html e r : List.concat (map part_html (rich_parts e r)) = rich_html e r.
Proof.
  unfold rich_parts, rich_html. rewrite map_app, concat_app, chunk_part_html. f_equal.
  induction (snd r) as [|((k, i), a) l IH]; [reflexivity|]. cbn [map List.concat].
  rewrite map_app, concat_app, IH. cbn [map List.concat part_html]. now rewrite chunk_part_html.
Qed.
Lemma text_html e l : pt (html_inlines (text_inlines e l)) = lines_html e l.
Proof.
  rewrite pt_text. induction l as [|a l IH]; [reflexivity|]. cbn [lines_parts lines_html].
  rewrite map_app, concat_app, rich_parts_html. f_equal. destruct l; [reflexivity|]. cbn [map List.concat part_html]. now rewrite IH.
Qed.

(** ** Blocks *)
Section Html.
Variable w : world.
Definition hb (b : block) : bytes := match html_block w false b with Ok l => pt l | _ => [] end.
Definition fine (b : block) : Prop := exists l, html_block w false b = Ok l.
Definition hbs (l : list block) : bytes := List.concat (map hb l).
Lemma hbs_app a b : hbs (a ++ b) = hbs a ++ hbs b.
Proof. unfold hbs. now rewrite map_app, concat_app. Qed.
Lemma fine_blocks l : Forall fine l -> exists p, html_blocks w l = Ok p /\ pt p = hbs l.
Proof.
  induction 1 as [|b l (p & E) F (q & Eq & Et)]; [exists []; split; reflexivity|].
  exists (p ++ q). cbn [html_blocks]. rewrite E, Eq. split; [reflexivity|]. rewrite pt_app, Et. unfold hbs, hb. cbn [map List.concat]. now rewrite E.
Qed.
Definition leaf_like (b : block) : Prop := exists n f d l m loc, b = Blk (HLeaf n f d l) m [] loc.

Lemma hb_para e l : fine (para_block e l) /\ hb (para_block e l) = paragraph_html e l.
Proof.
  unfold fine, hb, para_block. rewrite html_block_eq. split; [eexists; reflexivity|].
  unfold html_leaf. cbn [class_attr]. rewrite pt_tag, text_html. unfold paragraph_html, wrap. reflexivity.
Qed.
Lemma text_inlines_cons e l : l <> [] -> Forall rich_line l -> exists x r, text_inlines e l = x :: r.
Proof.
  intros N F. destruct l as [|a l]; [congruence|]. inversion F as [|? ? H ?]; subst. destruct H as (NE & _).
  unfold text_inlines. cbn [lines_parts].
  assert (rich_parts e a <> []) as P.
  { unfold rich_parts, chunk_part. unfold spell_rich in NE. destruct (spell_chunk (fst a)) eqn:E; [|discriminate].
    destruct (snd a) as [|((k, i), x) ?]; [cbn in NE; congruence|discriminate]. }
  destruct (rich_parts e a) as [|p ps]; [congruence|]. cbn [app merge].
  set (rest := merge _). destruct p; [destruct rest as [|[?|? ?] ?]|]; cbn [map]; eexists; eexists; reflexivity.
Qed.

Lemma fit_rich l : lines_fit l -> Forall rich_line l.
Proof. induction l as [|a l IH]; [constructor|]. intros (A & _ & C). constructor; auto. Qed.

Lemma hb_item e mk i : lines_ok i ->
  fine (Blk (HListItem mk (text_inlines e i)) None [] [])
  /\ hb (Blk (HListItem mk (text_inlines e i)) None [] []) = wrap "<li>" (paragraph_html e i) "</li>".
Proof.
  intros (N & F). apply fit_rich in F. unfold fine, hb. rewrite html_block_eq.
  destruct (text_inlines_cons e i N F) as (x & r & E).
  cbn [skipped bind html_title html_image html_principal html_attribution meta_attr html_terms class_attr block_id_attr opt_attr block_data_type app block_tag].
  split; [eexists; reflexivity|]. rewrite E. rewrite <- E. rewrite !app_nil_r, !pt_tag, text_html. reflexivity.
Qed.
Lemma fine_items e mk l : Forall lines_ok l ->
  let bl := map (fun i => Blk (HListItem mk (text_inlines e i)) None [] []) l in
  Forall fine bl /\ hbs bl = List.concat (map (fun i => wrap "<li>" (paragraph_html e i) "</li>") l).
Proof.
  induction 1 as [|i l H F (IH1 & IH2)]; [split; [constructor|reflexivity]|]. cbn [map] in *. destruct (hb_item e mk i H) as (A & B).
  split; [now constructor|]. unfold hbs in *. cbn [map List.concat]. now rewrite B, IH2.
Qed.
Lemma hb_leaf e x : leaf_ok x -> Forall fine (leaf_blocks e x) /\ hbs (leaf_blocks e x) = leaf_html e x.
Proof.
  destruct x as [l|o l|v body| | | |]; intros H; try (split; [constructor|reflexivity]).
  - destruct (hb_para e l) as (A & B). split; [repeat constructor; exact A|]. unfold hbs. cbn [leaf_blocks map List.concat leaf_html].
    now rewrite B, app_nil_r.
  - destruct H as (N & F). destruct (fine_items e (if o then bs "." else bs "*") l F) as (A & B).
    destruct (fine_blocks _ A) as (p & E & T). rewrite <- skipped_blocks in E.
    cbn [leaf_blocks leaf_html]. assert (html_block w false
       (Blk (HList (if o then LOrdered else LUnordered)) None
          (map (fun i => Blk (HListItem (if o then bs "." else bs "*") (text_inlines e i)) None [] []) l) [])
       = Ok (html_tag (if o then "ol" else "ul") [] p)) as K.
    { rewrite html_block_eq. cbn [is_admonition]. rewrite E. cbn. rewrite app_nil_r. destruct o; reflexivity. }
    split; [constructor; [eexists; exact K|constructor]|]. unfold hbs. cbn [map List.concat]. unfold hb at 1. rewrite K, app_nil_r, pt_tag, T, B.
    destruct o; reflexivity.
  - split; [constructor; [eexists; rewrite html_block_eq; reflexivity|constructor]|].
    unfold hbs, hb. cbn [leaf_blocks map List.concat]. rewrite html_block_eq, app_nil_r.
    destruct v; cbn [verbatim_name html_leaf class_attr meta_attr opt_attr app]; rewrite ?pt_tag; unfold pt, pieces_text; cbn [html_inlines html_inline map List.concat app Html.piece_text]; rewrite !app_nil_r; reflexivity.
Qed.
Lemma hb_leaves l : forall e, Forall leaf_ok l ->
  let (bl, e1) := leaves_blocks e l in let (s, e2) := leaves_html e l in Forall fine bl /\ hbs bl = s /\ e1 = e2.
Proof.
  induction l as [|x l IH]; intros e F; cbn [leaves_blocks leaves_html]; [repeat split; constructor|].
  inversion F as [|? ? H F']; subst. specialize (IH (leaf_env e x) F').
  destruct (leaves_blocks _ l) as (bl, e1), (leaves_html _ l) as (s, e2). destruct IH as (A & B & C). destruct (hb_leaf e x H) as (D & G).
  split; [apply Forall_app; now split|]. split; [rewrite hbs_app; congruence|exact C].
Qed.
Lemma hb_piece e p : piece_ok p -> (forall n t, p <> Heading n t) ->
  let (bl, e1) := piece_blocks e p in let (s, e2) := piece_html e p in Forall fine bl /\ hbs bl = s /\ e1 = e2.
Proof.
  intros H NH. destruct p as [x|n t|v l|v|b l last].
  - cbn [piece_blocks piece_html]. destruct (hb_leaf e x H) as (A & B). auto.
  - congruence.
  - cbn [piece_blocks piece_html].
    assert (html_block w false (Blk (HParent PAdmonition (Some v) (label v) []) None [para_block e l] [])
      = Ok (html_tag "div" [(bs "data-type", parent_variant_name v)] (html_leaf NParagraph (text_inlines e l) None))) as K.
    { rewrite html_block_eq. cbn [is_admonition skipped]. unfold para_block. rewrite html_block_eq. cbn [bind]. cbn. rewrite !app_nil_r. reflexivity. }
    split; [constructor; [eexists; exact K|constructor]|]. split; [|reflexivity].
    unfold hbs. cbn [map List.concat]. unfold hb. rewrite K, app_nil_r. unfold html_leaf, html_tag. rewrite !pt_app, text_html.
    unfold pt, pieces_text. destruct v; cbn; rewrite ?app_nil_r; unfold paragraph_html, wrap; rewrite <- ?app_assoc; reflexivity.
  - destruct v; cbn; (split; [constructor; [eexists; rewrite html_block_eq; reflexivity|constructor]|split; reflexivity]).
  - destruct H as (F & L). cbn [piece_blocks piece_html]. pose proof (hb_leaves l e F) as K.
    destruct (leaves_blocks e l) as (kids, e1), (leaves_html e l) as (s, e2). destruct K as (A & B & ->).
    set (tl := match last with [] => [] | _ => [para_block e2 last] end).
    set (th := match last with [] => [] | _ => paragraph_html e2 last end).
    assert (Forall fine tl /\ hbs tl = th) as (C & D).
    { unfold tl, th. destruct last; [split; [constructor|reflexivity]|]. destruct (hb_para e2 (r :: last)) as (P & Q).
      split; [repeat constructor; exact P|]. unfold hbs. cbn [map List.concat]. now rewrite Q, app_nil_r. }
    destruct (fine_blocks (kids ++ tl)) as (p & E & T); [apply Forall_app; now split|]. rewrite hbs_app, B, D in T.
    rewrite <- skipped_blocks in E.
    assert (html_block w false (Blk (HParent (box_name b) None (box_fence b) []) None (kids ++ tl) [])
      = Ok (html_tag (block_tag (HParent (box_name b) None [] [])) (opt_attr "data-type" (block_data_type (HParent (box_name b) None [] []))) p)) as K.
    { rewrite html_block_eq. destruct b; cbn [is_admonition box_name]; rewrite E; cbn; rewrite app_nil_r; reflexivity. }
    split; [constructor; [eexists; exact K|constructor]|]. split; [|reflexivity].
    unfold hbs. cbn [map List.concat]. unfold hb. rewrite K, app_nil_r. unfold html_tag. rewrite !pt_app, T.
    destruct b; cbn [box_name block_tag block_data_type opt_attr box_html]; unfold pt, pieces_text, wrap; cbn [map List.concat Html.piece_text]; rewrite ?app_nil_r; reflexivity.
Qed.

(** ** Nesting *)
Definition section_open (n : nat) (t : bytes) : bytes :=
  bs "<section data-type=""sect" ++ level_digit n ++ bs """>" ++ wrap "<h1>" t "</h1>".
Definition plain_section (b : block) : Prop := forall i t n m k loc, b = Blk (HSection i t n) m k loc ->
  m = None /\ k = [] /\ t <> [] /\ 1 <= n <= 4.
Definition title_html (b : block) : bytes := match b with Blk (HSection _ t _) _ _ _ => pt (html_inlines t) | _ => [] end.
Fixpoint emit (open : list nat) (l : list block) : bytes :=
  match l with
  | [] => List.concat (map (fun _ => bs "</section>") open)
  | Blk (HSection _ t n) _ _ _ :: r =>
      let (closed, open') := close_to n open in
      closed ++ section_open n (pt (html_inlines t)) ++ emit (n :: open') r
  | b :: r => hb b ++ emit open r
  end.
Fixpoint unwind (open : list nat) (l : list block) : bytes :=
  match open with
  | [] => hbs l
  | n :: r => let (mine, rest) := split_while (under n) l in hbs mine ++ bs "</section>" ++ unwind r rest
  end.
Definition is_sect (b : block) : bool := match b with Blk (HSection _ _ _) _ _ _ => true | _ => false end.
Lemma under_plain n b : is_sect b = false -> under n b = true.
Proof. destruct b as [[] ? ? ?]; cbn; congruence. Qed.
Lemma unwind_cons open b l : (forall n, In n open -> under n b = true) -> unwind open (b :: l) = hb b ++ unwind open l.
Proof.
  destruct open as [|n r]; [reflexivity|]. intros H. cbn [unwind split_while]. rewrite (H n) by now left.
  destruct (split_while (under n) l) as (mine, rest). unfold hbs. cbn [map List.concat]. now rewrite <- !app_assoc.
Qed.
(** levels fall from the innermost section outward *)
Fixpoint falling (l : list nat) : Prop := match l with [] => True | n :: r => Forall (fun m => m < n) r /\ falling r end.
Lemma close_to_unwind open : forall n b l, falling open -> under n b = false \/ True -> (forall m, under m b = (m <? n)) ->
  let (s, o) := close_to n open in unwind open (b :: l) = s ++ hb b ++ unwind o l /\ falling o /\ Forall (fun m => m < n) o.
Proof.
  induction open as [|m r IH]; intros n b l F _ U; cbn [close_to]; [repeat split; constructor|].
  destruct F as (F1 & F2). destruct (n <=? m) eqn:E.
  - apply Nat.leb_le in E. specialize (IH n b l F2 (or_intror I) U). destruct (close_to n r) as (s, o). destruct IH as (A & B & C).
    split; [|split; assumption]. cbn [unwind split_while]. rewrite (U m). replace (m <? n) with false by (symmetry; apply Nat.ltb_ge; exact E).
    rewrite A. unfold hbs. cbn [map List.concat app]. now rewrite <- app_assoc.
  - apply Nat.leb_gt in E. split; [|split; [now split|constructor; [exact E|]]].
    + apply unwind_cons. intros k [<-|K]; rewrite U; apply Nat.ltb_lt; [exact E|]. rewrite Forall_forall in F1. specialize (F1 k K). lia.
    + eapply Forall_impl; [|exact F1]. cbn. intros; lia.
Qed.
Lemma fine_split {P : block -> Prop} f l : Forall P l -> Forall P (fst (split_while f l)) /\ Forall P (snd (split_while f l)).
Proof.
  induction 1 as [|b l H F (A & B)]; [split; constructor|]. cbn [split_while]. destruct (f b); [|split; constructor; auto; constructor; auto].
  destruct (split_while f l) as (x, y). cbn in *. split; [now constructor|assumption].
Qed.
Lemma hb_section i t n kids loc : Forall fine kids -> t <> [] -> 1 <= n <= 4 ->
  fine (Blk (HSection i t n) None kids loc)
  /\ hb (Blk (HSection i t n) None kids loc) = section_open n (pt (html_inlines t)) ++ hbs kids ++ bs "</section>".
Proof.
  intros F T N. destruct (fine_blocks _ F) as (p & E & Q). rewrite <- skipped_blocks in E. unfold fine, hb. rewrite html_block_eq, E. cbn [bind].
  split; [eexists; reflexivity|]. cbn [class_attr meta_attr opt_attr app html_attribution html_title]. destruct t as [|x t]; [congruence|].
  unfold html_tag at 1. rewrite !pt_app, pt_tag, Q. unfold section_open, wrap.
  assert (dec n = level_digit n) as -> by (destruct n as [|[|[|[|[|n]]]]]; try lia; reflexivity).
  unfold pt at 1, pieces_text. cbn [map List.concat Html.piece_text]. unfold attrs_text, attr_text. cbn [map List.concat fst snd].
  unfold pt at 2, pieces_text. cbn [map List.concat Html.piece_text].
  rewrite ?app_nil_r, <- ?app_assoc. reflexivity.
Qed.
Lemma emitted l : (forall b, In b l -> plain_section b /\ (is_sect b = false -> fine b)) -> Forall fine (nest l)
  /\ forall open, falling open -> emit open l = unwind open (nest l).
Proof.
  induction l as [|b l IH]; intros G.
  - split; [constructor|]. intros open _. cbn [emit nest]. induction open; [reflexivity|]. cbn [unwind split_while map List.concat]. now rewrite IHopen.
  - destruct IH as (F & IH); [intros x X; apply G; now right|]. destruct (G b (or_introl eq_refl)) as (S & B).
    destruct (is_sect b) eqn:E.
    + destruct b as [[] m k loc]; try discriminate E. destruct (S _ _ _ _ _ _ eq_refl) as (-> & -> & T & N). cbn [nest app].
      destruct (split_while (under level) (nest l)) as (mine, rest) eqn:W.
      destruct (fine_split (under level) _ F) as (F1 & F2). rewrite W in F1, F2. cbn in F1, F2.
      destruct (hb_section id title level mine loc F1 T N) as (HF & HB).
      split; [now constructor|]. intros open O. cbn [emit].
      pose proof (close_to_unwind open level (Blk (HSection id title level) None mine loc) rest O (or_intror I) (fun m => eq_refl)) as C.
      destruct (close_to level open) as (s, o). destruct C as (C1 & C2 & C3). rewrite C1. f_equal.
      rewrite IH by now split. cbn [unwind]. rewrite W, HB, <- !app_assoc. reflexivity.
    + assert (nest (b :: l) = b :: nest l) as -> by (destruct b as [[] ? ? ?]; try discriminate E; reflexivity).
      split; [constructor; auto|]. intros open O.
      assert (emit open (b :: l) = hb b ++ emit open l) as -> by (destruct b as [[] ? ? ?]; try discriminate E; reflexivity).
      rewrite unwind_cons by (intros; now apply under_plain). now rewrite IH.
Qed.
Lemma pieces_emit l : forall e open, Forall piece_ok l ->
  emit open (pieces_blocks e l) = pieces_html e open l
  /\ forall b, In b (pieces_blocks e l) -> plain_section b /\ (is_sect b = false -> fine b).
Proof.
  induction l as [|p l IH]; intros e open F; [split; [reflexivity|intros ? []]|].
  inversion F as [|? ? H F']; subst. cbn [pieces_blocks pieces_html].
  assert ((exists n t, p = Heading n t) \/ forall n t, p <> Heading n t) as [(n & t & ->)|NH]
    by (destruct p; [right|left|right|right|right]; try (intros; discriminate); eexists; eexists; reflexivity).
  - cbn [piece_blocks piece_html app emit]. destruct H as (N & R). destruct (close_to n open) as (s, o).
    destruct (IH e (n :: o) F') as (A & B). split.
    + rewrite A, text_html. unfold section_open. rewrite <- !app_assoc. reflexivity.
    + intros b [<-|Hb]; [|auto]. split; [|discriminate]. intros i t0 n0 m k loc [= <- <- <- <- <- <-].
      split; [reflexivity|]. split; [reflexivity|]. split; [|exact N].
      destruct (text_inlines_cons e [t]) as (x & r & ->); [discriminate|constructor; [exact R|constructor]|discriminate].
  - pose proof (hb_piece e p H NH) as K. destruct (piece_blocks e p) as (bl, e1) eqn:EB, (piece_html e p) as (s, e2). destruct K as (A & B & ->).
    assert (Forall (fun b => is_sect b = false) bl) as S.
    { destruct p; cbn [piece_blocks] in EB.
      - injection EB as <- <-. destruct x; cbn [leaf_blocks]; repeat constructor.
      - congruence.
      - injection EB as <- <-. repeat constructor.
      - injection EB as <- <-. repeat constructor.
      - destruct (leaves_blocks e l0). injection EB as <- <-. repeat constructor. }
    destruct (IH e2 open F') as (C & D). split.
    + assert (emit open (bl ++ pieces_blocks e2 l) = hbs bl ++ emit open (pieces_blocks e2 l)) as ->.
      { clear - S. induction S as [|b bl Hb S IHS]; [reflexivity|]. cbn [app]. unfold hbs in *. cbn [map List.concat]. rewrite <- app_assoc, <- IHS.
        destruct b as [[] ? ? ?]; try discriminate Hb; reflexivity. }
      rewrite B, C. destruct p; try reflexivity. exfalso. eapply NH; reflexivity.
    + intros b Hb. apply in_app_or in Hb as [Hb|Hb]; [|auto]. rewrite Forall_forall in A, S. split; [|auto].
      intros i t n m k loc ->. specialize (S _ Hb). discriminate.
Qed.
End Html.

Lemma article_html_ok w fuel origin resolve a : article_ok a ->
  exists g, parse w fuel origin resolve (article_source a) = Ok g /\ render_htmlbook w g = Ok (article_html a).
Proof.
  intros H. destruct (article_graph w fuel origin resolve a H) as (g & P & B & T). exists g. split; [exact P|].
  destruct H as (_ & PO & _). unfold render_htmlbook, html_document.
  rewrite <- bare_html_blocks, B. destruct (pieces_emit w (ar_pieces a) (title_env a) [] PO) as (E & G).
  destruct (emitted w _ G) as (F & U). specialize (U [] I). unfold article_flat. cbn [unwind] in U. rewrite E in U.
  destruct (fine_blocks w _ F) as (p & Q & R). rewrite Q. cbn [bind]. f_equal. rewrite <- U in R.
  set (title := match a_header g with Some h => html_inlines (hd_title h) | None => [] end).
  assert (pt title = match ar_title a with Some (t, _) => lines_html no_env [t] | None => [] end) as K.
  { unfold title, title_of, article_title in *. destruct (a_header g) as [h|], (ar_title a) as [(t, l)|]; cbn [option_map fst] in T; try discriminate T; [|reflexivity].
    injection T as T. now rewrite <- bare_html_inlines, T, text_html. }
  fold pt. rewrite !pt_app, !pt_tag, !pt_app, pt_tag, K, R. unfold article_html, wrap. rewrite <- ?app_assoc. reflexivity.
Qed.

(** ** The whole command *)
Lemma article_run w fuel e c a : c_backend c = BHtmlbook -> source_text w e c (article_source a) -> article_ok a ->
  exists o n, destination c o
  /\ let counted := if c_count c then [EvCount n (c_file c)] else [] in
     match o with
     | None => run w fuel e c = (counted ++ [EvStdout (CHtml (article_html a))], Ok tt)
     | Some p => e_writable e p = true -> run w fuel e c = (counted ++ [EvWrite p (CHtml (article_html a))], Ok tt)
     end.
Proof.
  intros B S H. destruct (article_html_ok w fuel (origin_directory e (c_file c)) (negb (c_unresolved c)) a H) as (g & P & R).
  exists (read_output c), (word_count g). split; [apply destination_ok|]. unfold run.
  assert (read_input w e c = Ok (article_source a)) as ->.
  { unfold read_input. destruct S as [(E & I)|(E & I)].
    - rewrite E. cbn. now rewrite I.
    - apply beqb_neq in E. now rewrite E, I. }
  cbn [lift]. rewrite P. cbn [lift]. rewrite B, R. cbn [lift]. cbv zeta. unfold render_string.
  destruct (read_output c) as [p|]; [|reflexivity]. intros ->. reflexivity.
Qed.
