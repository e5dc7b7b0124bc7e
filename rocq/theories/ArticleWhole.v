(** * Articles: from the pieces to the whole *)
From Verif Require Import Base World Location Token Scanner Meta Inline Block Asg Parser SpecScan SpecStart SpecLoc
  SpecDoc SpecArticle ScanLemmas ScanStart ScanDoc LocProofs DocProofs DocGraph ArticleScan ArticleGraph ArticleText ArticleProofs GraphLemmas ScanMain2.
Local Open Scope char_scope.
Local Open Scope nat_scope.
Local Arguments reconcile : simpl never.
Local Arguments token_locations : simpl never.
Local Arguments token_text : simpl never.
Local Arguments consolidate_locations : simpl never.
Local Arguments last_opt : simpl never.
Local Arguments push_block : simpl never.

Definition piece_plines (x : piece) : list pline :=
  match x with
  | Leaf x => leaf_plines x ++ [LBlank]
  | Heading n t => [LLed (LHeading n) t] ++ [LBlank]
  | Admonition v l => led (LLabel v) l ++ [LBlank]
  | Break v => [LAlone (LBreak v)] ++ [LBlank]
  | Box b l last => [LAlone (LBox b)] ++ leaves_plines l ++ map ArticleScan.LText last ++ [LAlone (LBox b)] ++ [LBlank]
  end.
Definition title_plines (a : article) : list pline :=
  match ar_title a with
  | None => []
  | Some (t, l) => [LLed (LHeading 0) t] ++ map (fun x => LAlone (LEntry (fst x) (snd x))) l ++ [LBlank]
  end.
Definition article_plines (a : article) : list pline := title_plines a ++ List.concat (map piece_plines (ar_pieces a)).

(** ** They are the lines of the article *)
Lemma led_text l x s : lead_text l = s -> map pline_text (led l x) = after s (map spell_rich x).
Proof. intros <-. destruct x as [|r rest]; [reflexivity|]. cbn. f_equal. now rewrite map_map. Qed.
Lemma led_ok l x : lead_ok l -> ~ lead_alone l -> lines_ok x -> Forall pline_ok (led l x).
Proof.
  intros H1 H2 [Ne F]. destruct x as [|r rest]; [congruence|]. cbn [led lines_fit] in *. destruct F as (Hr & _ & F).
  apply Forall_cons; [cbn; auto|]. clear -F. induction rest as [|r rest IH]; [constructor|]. destruct F as (H & _ & F). apply Forall_cons; [exact H|auto].
Qed.
Lemma lines_pline l : lines_fit l -> Forall pline_ok (map ArticleScan.LText l).
Proof. induction l as [|r l IH]; [constructor|]. intros (H & _ & F). apply Forall_cons; [exact H|auto]. Qed.
Lemma body_text l : map pline_text (map body_pline l) = map body_line l.
Proof. rewrite map_map. apply map_ext. now intros [r|]. Qed.
Lemma body_plines_ok l : body_ok l -> Forall pline_ok (map body_pline l).
Proof. induction 1 as [|o l H _ IH]; [constructor|]. apply Forall_cons; [|exact IH]. destruct o as [r|]; cbn; [now apply H|exact I]. Qed.
Lemma leaf_text x : map pline_text (leaf_plines x) = leaf_lines x.
Proof.
  destruct x as [l|o l|v body|s|body|name value|]; cbn [leaf_plines leaf_lines].
  - rewrite map_map. reflexivity.
  - rewrite concat_map, map_map. f_equal. apply map_ext. intros i. now apply led_text.
  - cbn [map]. rewrite map_app, body_text. now destruct v.
  - reflexivity.
  - cbn [map]. now rewrite map_app, body_text.
  - reflexivity.
  - reflexivity.
Qed.
Lemma leaf_plines_ok x : leaf_ok x -> Forall pline_ok (leaf_plines x).
Proof.
  destruct x as [l|o l|v body|s|body|name value|]; cbn [leaf_plines leaf_ok]; intros H.
  - apply lines_pline, H.
  - destruct H as [_ F]. induction F as [|i l Hi _ IH]; [constructor|]. cbn [map List.concat]. apply Forall_app. split; [|exact IH].
    apply led_ok; [exact I|cbn; auto|exact Hi].
  - apply Forall_cons; [cbn; auto|]. apply Forall_app. split; [now apply body_plines_ok|]. apply Forall_cons; [cbn; auto|constructor].
  - apply Forall_cons; [cbn; auto|constructor].
  - apply Forall_cons; [cbn; auto|]. apply Forall_app. split; [now apply body_plines_ok|]. apply Forall_cons; [cbn; auto|constructor].
  - apply Forall_cons; [cbn; auto|constructor].
  - constructor.
Qed.
Lemma leaves_text l : map pline_text (leaves_plines l) = List.concat (map (fun x => with_blank (leaf_lines x)) l).
Proof.
  unfold leaves_plines. rewrite concat_map, map_map. f_equal. apply map_ext. intros x. now rewrite map_app, leaf_text.
Qed.
Lemma leaves_plines_ok l : Forall leaf_ok l -> Forall pline_ok (leaves_plines l).
Proof.
  induction 1 as [|x l H _ IH]; [constructor|]. unfold leaves_plines. cbn [map List.concat]. apply Forall_app. split; [|exact IH].
  apply Forall_app. split; [now apply leaf_plines_ok|]. apply Forall_cons; [exact I|constructor].
Qed.
Lemma piece_text x : map pline_text (piece_plines x) = piece_lines x.
Proof.
  destruct x as [x|n t|v l|v|b l last]; cbn [piece_plines piece_lines]; unfold with_blank; rewrite map_app.
  - now rewrite leaf_text.
  - cbn. now rewrite <- app_assoc.
  - now rewrite (led_text _ _ (label v)).
  - now destruct v.
  - rewrite !map_app, leaves_text, map_map. cbn [map app pline_text lead_text]. now rewrite <- !app_assoc.
Qed.
Lemma piece_plines_ok x : piece_ok x -> Forall pline_ok (piece_plines x).
Proof.
  assert (Forall pline_ok [LBlank]) as B by (apply Forall_cons; [exact I|constructor]).
  destruct x as [x|n t|v l|v|b l last]; cbn [piece_plines piece_ok]; intros H.
  - apply Forall_app. split; [now apply leaf_plines_ok|exact B].
  - apply Forall_app. split; [|exact B]. apply Forall_cons; [cbn; intuition lia|constructor].
  - apply Forall_app. split; [|exact B]. apply led_ok; cbn; auto.
  - apply Forall_app. split; [|exact B]. apply Forall_cons; [cbn; auto|constructor].
  - destruct H as [H1 H2]. assert (Forall pline_ok [LAlone (LBox b)]) as A by (apply Forall_cons; [cbn; auto|constructor]).
    apply Forall_app. split; [exact A|]. apply Forall_app. split; [now apply leaves_plines_ok|].
    apply Forall_app. split; [now apply lines_pline|]. apply Forall_app. now split.
Qed.
Lemma article_text a : psource (article_plines a) = article_source a.
Proof.
  unfold psource, article_source, article_lines, article_plines. f_equal.
  rewrite <- (map_map pline_text (fun l => l ++ [NL])). f_equal. rewrite map_app. f_equal.
  - unfold title_plines, title_lines. destruct (ar_title a) as [[t l]|]; [|reflexivity]. unfold with_blank. rewrite !map_app, map_map. cbn.
    reflexivity.
  - rewrite concat_map, map_map. f_equal. apply map_ext. intros x. apply piece_text.
Qed.
Lemma article_plines_ok a : article_ok a -> Forall pline_ok (article_plines a).
Proof.
  intros (H1 & H2 & _). unfold article_plines. apply Forall_app. split.
  - unfold title_plines. destruct (ar_title a) as [[t l]|]; [|constructor]. destruct H1 as [(H1 & _) F].
    apply Forall_app. split; [apply Forall_cons; [cbn; auto with arith|constructor]|]. apply Forall_app. split.
    + clear -F. induction F as [|x l H _ IH]; [constructor|]. cbn [map]. apply Forall_cons; [cbn; auto|exact IH].
    + apply Forall_cons; [exact I|constructor].
  - induction H2 as [|x l H _ IH]; [constructor|]. cbn [map List.concat]. apply Forall_app. split; [now apply piece_plines_ok|exact IH].
Qed.

Section Pieces.
  Variables (w : world) (fuel : nat) (origin : bytes) (resolve : bool).
  Notation state := (state origin resolve).
  Notation loop := (parse_loop w fuel).
  Notation at_rest := (at_rest origin resolve).

  Lemma heading_level n files l lst attrs bst ol force a : 1 <= n <= 4 ->
    get_heading_level w (lead_tok files l (LHeading n)) (state lst None attrs bst [] ol None false false force false None a) = Ok n.
  Proof. intros H. destruct n as [|[|[|[|[|n]]]]]; try lia; reflexivity. Qed.

  Lemma heading_step h e done p files n t l ts : at_rest (KTop h) e done p -> 1 <= n <= 4 -> rich_line t ->
    flat done -> subsections_clear 0 done -> plines_toks files l (piece_plines (Heading n t)) ts ->
    exists p', loop ts p = Ok p' /\ at_rest (KTop h) e (done ++ [Blk (HSection [] (text_inlines e [t]) n) None [] []]) p'.
  Proof.
    intros (lst & attrs & bst & ol & force & a & -> & L & A & R & F & N1 & N2) Hn Hr Fl Cl T.
    apply plines_app in T as (t1 & t2 & -> & T1 & T2). apply blank_toks in T2 as ->.
    apply (led_lines files (LHeading n) t []) in T1 as (t3 & -> & T3). cbn [app parse_loop].
    set (tk := lead_tok files l (LHeading n)). set (sec := new_section n (first_location tk)).
    assert (exists a', token_into w fuel tk (state lst None attrs bst [] ol None false false force false None a)
        = Ok (state lst None attrs [sec] [] [] None true false false false None a')
        /\ map bare (a_blocks a') = nest done /\ title_of a' = h) as (a' & E & Ea & Eh).
    { rewrite go; [|now left|reflexivity|destruct n as [|[|[|[|[|n]]]]]; try lia; discriminate..].
      assert (forall p, dispatch w tk p = parse_section_headings w tk p) as -> by (destruct n as [|[|[|[|[|n]]]]]; try lia; reflexivity).
      unfold parse_section_headings, tk at 1. rewrite heading_level by assumption. cbn [bind].
      destruct R as (-> & H & Ht). pose proof H as H0.
      destruct H as [(-> & _ & _)|(s & i & tl & lv & pre & leaves & -> & Es & _ & _ & _)].
      - exists a. split; [reflexivity|]. split; [now apply holds_nil|exact Ht].
      - pst. assert (is_section s = true) as -> by (rewrite <- is_section_bare, Es; reflexivity).
        destruct (finish_section s (a_blocks a) done a H0 eq_refl Fl Cl) as (a' & E & Ea & Eh).
        exists a'. split; [|split; [exact Ea|unfold title_of in *; now rewrite Eh]].
        unfold add_last_to_block_stack_or_graph. pst. unfold p_asg_push. pst. rewrite E. reflexivity. }
    rewrite E. cbn [bind]. rewrite set_last_state.
    destruct (lines_loop w fuel origin resolve files [t] t3 T3 None attrs e [sec] [] true false false a' (ttype tk) [] [] None) as (i1 & d1 & E1 & D1 & B1 & Ni); auto.
    { discriminate. } { apply Forall_forall. intros; now left. } { cbn. auto. } { discriminate. } { intros r rs _ _ (k0 & s & r0 & H). discriminate. }
    rewrite (loop_app w fuel _ _ _ _ E1). cbn [nl_part app] in B1. cbn [parse_loop].
    rewrite blank_newline by (reflexivity || (cbn; auto)).
    unfold add_inlines_to_block_stack. pst. destruct i1 as [|i i1]; [congruence|]. unfold sec, new_section. cbn [takes_inlines b_head]. pst.
    rewrite push_inlines_section. cbn [bind]. eexists. split; [reflexivity|].
    eexists TNewLineChar, attrs, _, [], true, a'. repeat split; auto; [|now left|].
    - cbn [room]. right. eexists _, [], (text_inlines e [t]), n, done, []. split; [reflexivity|].
      split; [|split; [reflexivity|split; [constructor|exact Ea]]].
      cbn [bare bare_head map app]. f_equal. f_equal. exact (rev_stack _ _ B1).
    - apply Forall_app. split; [assumption|]. now apply Forall_cons.
  Qed.

  Lemma break_step h e done p files v l ts : at_rest (KTop h) e done p -> plines_toks files l (piece_plines (Break v)) ts ->
    exists p', loop ts p = Ok p' /\ at_rest (KTop h) e (done ++ [Blk (HBreak v) None [] []]) p'.
  Proof.
    intros (lst & attrs & bst & ol & force & a & -> & L & A & R & F & N1 & N2) T.
    apply plines_app in T as (t1 & t2 & -> & T1 & T2). apply blank_toks in T2 as ->. apply alone_toks in T1 as (c & ->).
    cbn [app parse_loop]. rewrite go; [|now left|reflexivity|now destruct v..].
    set (tk := lead_tok files l (LBreak v)). assert (ol = []) as -> by now destruct R.
    destruct (deliver origin resolve h lst attrs (new_break v (token_locations tk)) bst [] false false force false None a done R eq_refl eq_refl)
      as (bst' & a' & E & _ & R').
    assert (dispatch w tk (state lst None attrs bst [] [] None false false force false None a)
            = Ok (state lst None attrs bst' [] [] None false false force false None a')) as E2.
    { rewrite <- E. unfold tk, new_break. now destruct v. }
    rewrite E2. cbn [bind]. rewrite set_last_state.
    destruct (soft_newline w fuel origin resolve files l c (ttype tk) None attrs bst' [] [] false force false None a') as (d & E3 & _ & _).
    { now destruct v. }
    change (exists p', loop ([nl_tok files l c] ++ [nl_tok files (l + 1) 1]) (state (ttype tk) None attrs bst' [] [] None false false force false None a') = Ok p' /\ at_rest (KTop h) e (done ++ [Blk (HBreak v) None [] []]) p').
    rewrite (loop_app w fuel _ _ _ _ E3). eapply blank_idle; eauto; [reflexivity|].
    apply Forall_app. split; [assumption|]. now apply Forall_cons.
  Qed.

  Lemma admonition_step h e done p files v x l ts : at_rest (KTop h) e done p -> lines_ok x -> plines_toks files l (piece_plines (Admonition v x)) ts ->
    exists p', loop ts p = Ok p'
      /\ at_rest (KTop h) e (done ++ [Blk (HParent PAdmonition (Some v) (label v) []) None [para_block e x] []]) p'.
  Proof.
    intros (lst & attrs & bst & ol & force & a & -> & L & A & R & F & N1 & N2) [Ne Lf] T.
    apply plines_app in T as (t1 & t2 & -> & T1 & T2). apply blank_toks in T2 as ->.
    apply led_toks in T1 as (t3 & -> & T3); [|assumption]. cbn [app parse_loop]. assert (ol = []) as -> by now destruct R.
    set (tk := lead_tok files l (LLabel v)).
    set (ad := Blk (HParent PAdmonition (Some v) (label v) []) None [] (token_locations tk)).
    rewrite go; [|now left|reflexivity|now destruct v..].
    assert (dispatch w tk (state lst None attrs bst [] [] None false false force false None a)
            = Ok (state lst None attrs (ad :: bst) [] [] None false false force true None a)) as ->.
    { unfold ad, tk. now destruct v. }
    cbn [bind]. rewrite set_last_state.
    destruct (lines_loop w fuel origin resolve files x t3 T3 None attrs e (ad :: bst) [] false force true a (ttype tk) [] [] None) as (i1 & d1 & E1 & D1 & B1 & Ni); auto.
    { apply Forall_forall. intros; now left. } { discriminate. } { intros r rs _ _ (k0 & s & r0 & H). discriminate. }
    rewrite (loop_app w fuel _ _ _ _ E1). cbn [nl_part app] in B1. cbn [parse_loop].
    rewrite blank_newline by (reflexivity || (cbn; auto)).
    destruct (new_para origin resolve TNewLineChar attrs (ad :: bst) i1 (lines_parts e x) [] force true a B1) as (b & E2 & Eb).
    assert (add_inlines_to_block_stack (state TNewLineChar None attrs (ad :: bst) i1 [] None false false force true None a)
            = new_paragraph (state TNewLineChar None attrs (ad :: bst) i1 [] None false false force true None a)) as ->.
    { unfold add_inlines_to_block_stack. pst. now destruct i1. }
    rewrite E2. cbn [bind]. unfold blank_tail. pst.
    assert (is_section b = false /\ is_list_item b = false) as (S1 & S2).
    { destruct (heads_bare b) as (<- & <- & _). now rewrite Eb. }
    rewrite S1. cbn [negb andb]. unfold add_to_block_stack_or_graph. pst. unfold ad. cbn [takes_block b_head].
    destruct (push_block_leaf (HParent PAdmonition (Some v) (label v) []) None [] (token_locations tk) b S1 S2) as (loc' & ->);
      [intros ? ? ? ? [= <-]; discriminate|exact I|].
    cbn [bind app]. pst.
    match goal with |- context [add_last_to_block_stack_or_graph ?p] =>
      change p with (state TNewLineChar None attrs (Blk (HParent PAdmonition (Some v) (label v) []) None [b] loc' :: bst) [] [] None false false true true None a) end.
    destruct (deliver origin resolve h TNewLineChar attrs (Blk (HParent PAdmonition (Some v) (label v) []) None [b] loc') bst [] false false true true None a done R eq_refl eq_refl)
      as (bst' & a' & _ & E3 & R').
    rewrite E3. cbn [bind]. eexists. split; [reflexivity|]. exists TNewLineChar, attrs, bst', [], true, a'.
    assert (bare (Blk (HParent PAdmonition (Some v) (label v) []) None [b] loc') = Blk (HParent PAdmonition (Some v) (label v) []) None [para_block e x] []) as Ep.
    { cbn [bare bare_head map]. now rewrite Eb. }
    rewrite Ep in R'. repeat split; auto; try apply R'; [now left|]. apply Forall_app. split; [assumption|]. now apply Forall_cons.
  Qed.

  (** *** Delimited blocks *)
  Lemma push_blocks_leaf nm v d ti m l : nm <> PTable -> Forall (fun b => is_section b = false /\ is_list_item b = false) l ->
    forall k loc, exists loc', push_blocks (Blk (HParent nm v d ti) m k loc) l = Ok (Blk (HParent nm v d ti) m (k ++ l) loc').
  Proof.
    intros Nt. induction 1 as [|b l [S1 S2] _ IH]; intros k loc; cbn [push_blocks]; [exists loc; now rewrite app_nil_r|].
    destruct (push_block_leaf (HParent nm v d ti) m k loc b S1 S2) as (loc1 & ->); [now intros ? ? ? ? [= <-]|exact I|]. cbn [bind].
    destruct (IH (k ++ [b]) loc1) as (loc2 & ->). exists loc2. now rewrite <- app_assoc.
  Qed.
  Lemma split_parent acc p base : Forall (fun b => is_parent b = false) acc -> is_parent p = true ->
    split_at_first is_parent (acc ++ p :: base) = Some (acc, p, base).
  Proof. intros F H. induction F as [|b acc Hb _ IH]; cbn; [now rewrite H|]. now rewrite Hb, IH. Qed.
  Lemma no_parent acc : Forall (fun b => is_parent b = false) acc -> split_at_first is_parent acc = None.
  Proof. intros F. induction F as [|b acc Hb _ IH]; cbn; [reflexivity|]. now rewrite Hb, IH. Qed.
  Definition box_block (b : box) (kids : list block) (loc : list location) : block :=
    Blk (HParent (box_name b) None (box_fence b) []) None kids loc.
  Lemma box_dispatch files n b p : p_header p = None -> p_open_type p = None -> p_meta p = None ->
    token_into w fuel (lead_tok files n (LBox b)) p = parse_delimited_parent_block (lead_tok files n (LBox b)) p.
  Proof.
    intros H1 H2 H3. rewrite go; [|now left|assumption|now destruct b..]. destruct b; try reflexivity.
    change (parse_quote_verse (lead_tok files n (LBox Quote)) p = parse_delimited_parent_block (lead_tok files n (LBox Quote)) p).
    unfold parse_quote_verse. now rewrite H3, H2.
  Qed.
  Lemma box_from files n b : parent_from_token (lead_tok files n (LBox b)) = Ok (box_block b [] (token_locations (lead_tok files n (LBox b)))).
  Proof. now destruct b. Qed.
  Lemma open_box files n b lst attrs bst force a : Forall (fun b => is_parent b = false) bst ->
    parse_delimited_parent_block (lead_tok files n (LBox b)) (state lst None attrs bst [] [] None false false force false None a)
    = Ok (state lst None attrs (box_block b [] (token_locations (lead_tok files n (LBox b))) :: bst) [] [n] None false false force false None a).
  Proof.
    intros F. unfold parse_delimited_parent_block. rewrite box_from. cbn [bind]. pst. rewrite (no_parent bst F). now destruct b.
  Qed.
  Lemma close_box files n b acc base loc m0 ist lst attrs force dang a :
    Forall (fun b => is_parent b = false) acc -> Forall (fun b => is_section b = false /\ is_list_item b = false) acc ->
    loc <> [] -> (ist = [] \/ exists x acc0, acc = x :: acc0
       /\ add_inlines_to_block_stack (state lst None attrs (acc0 ++ base) ist [m0] None false false force false None a)
          = Ok (state lst None attrs (acc ++ base) [] [m0] None false false force false None a)) ->
    forall acc1, acc1 = match ist with [] => acc | _ => tl acc end ->
    exists loc', parse_delimited_parent_block (lead_tok files n (LBox b)) (state lst None attrs (acc1 ++ box_block b [] loc :: base) ist [m0] None false false force false dang a)
      = Ok (state lst None attrs (box_block b (rev acc) loc' :: base) [] [] None false false force false None a).
  Proof.
    intros F1 F2 Nl Hi acc1 E1. unfold parse_delimited_parent_block. rewrite box_from. cbn [bind]. pst.
    assert (Forall (fun b => is_parent b = false) acc1) as F3.
    { subst acc1. destruct ist; [assumption|]. destruct F1; [constructor|assumption]. }
    rewrite (split_parent acc1 (box_block b [] loc) base F3 eq_refl).
    assert (parent_eqb (box_block b [] loc) (box_block b [] (token_locations (lead_tok files n (LBox b)))) = true) as -> by now destruct b.
    match goal with |- context [add_inlines_to_block_stack ?p] => change p with (state lst None attrs (acc1 ++ base) ist [m0] None false false force false None a) end.
    assert (add_inlines_to_block_stack (state lst None attrs (acc1 ++ base) ist [m0] None false false force false None a)
            = Ok (state lst None attrs (acc ++ base) [] [m0] None false false force false None a)) as ->.
    { destruct Hi as [-> |(x & acc0 & -> & E)]; [subst; reflexivity|]. destruct ist as [|i ist]; [subst; reflexivity|]. subst acc1. exact E. }
    cbn [bind]. pst. unfold block_line. cbn [b_locs box_block]. destruct loc as [|l0 loc]; [congruence|]. cbn [bind].
    rewrite app_length. replace (List.length acc + List.length base <? List.length base) with false by (symmetry; apply Nat.ltb_ge; lia).
    replace (List.length acc + List.length base - List.length base) with (List.length acc + 0) by lia.
    rewrite firstn_app_2, Nat.add_0_r, skipn_length_app. cbn [firstn]. rewrite app_nil_r.
    destruct (push_blocks_leaf (box_name b) None (box_fence b) [] None (rev acc)) with (k := @nil block) (loc := reconcile (l0 :: loc) (b_locs (box_block b [] (token_locations (lead_tok files n (LBox b))))))
      as (loc' & E); [now destruct b|now apply Forall_rev|].
    cbn [b_locs box_block] in E. rewrite E. cbn [bind app]. exists loc'. cbn [is_table b_head]. now destruct b.
  Qed.

  Lemma bare_all (f : block -> bool) (Hf : forall b, f (bare b) = f b) l : Forall (fun b => f b = false) (map bare (rev l)) -> Forall (fun b => f b = false) l.
  Proof.
    intros F. rewrite <- (rev_involutive l). apply Forall_rev. apply Forall_forall. intros b H. rewrite Forall_forall in F.
    rewrite <- Hf. apply F. now apply in_map.
  Qed.
  Lemma top_parents h ol bst a done : room (KTop h) ol bst a done -> Forall (fun b => is_parent b = false) bst.
  Proof.
    intros (_ & [(-> & _)|(s & i & t & lv & pre & leaves & -> & Es & _)] & _); [constructor|]. apply Forall_cons; [|constructor].
    destruct (heads_bare s) as (_ & _ & _ & <-). now rewrite Es.
  Qed.
  Lemma box_step h e done p files b x last l ts : at_rest (KTop h) e done p -> Forall leaf_ok x -> lines_fit last ->
    plines_toks files l (piece_plines (Box b x last)) ts ->
    exists p', loop ts p = Ok p' /\ at_rest (KTop h) (snd (piece_blocks e (Box b x last))) (done ++ fst (piece_blocks e (Box b x last))) p'.
  Proof.
    intros (lst & attrs & bst & ol & force & a & -> & L & A & R & F & N1 & N2) Fx Fl T. assert (ol = []) as -> by now destruct R.
    cbn [piece_plines] in T. apply plines_app in T as (t1 & t2 & -> & T1 & T2). apply alone_toks in T1 as (c1 & ->).
    apply plines_app in T2 as (t3 & t4 & -> & T3 & T4). apply plines_app in T4 as (t5 & t6 & -> & T5 & T6).
    apply plines_app in T6 as (t7 & t8 & -> & T7 & T8). apply alone_toks in T7 as (c2 & ->). apply blank_toks in T8 as ->.
    set (n7 := l + _ + _ + _) in *. set (n8 := n7 + _) in *. clearbody n7 n8.
    cbn [app parse_loop]. rewrite box_dispatch by reflexivity. rewrite open_box by exact (top_parents _ _ _ _ _ R). cbn [bind]. rewrite set_last_state.
    set (tk := lead_tok files l (LBox b)). set (loc := token_locations tk). set (P := box_block b [] loc).
    destruct (soft_newline w fuel origin resolve files l c1 (ttype tk) None attrs (P :: bst) [] [l] false force false None a) as (d & E1 & _ & D1).
    { now destruct b. }
    assert (d = None) as -> by (destruct b; exact D1).
    match goal with |- exists p', _ = Ok p' /\ @?Q p' => change (exists p',
      loop ([nl_tok files l c1] ++ t3 ++ t5 ++ [lead_tok files n7 (LBox b)] ++ [nl_tok files n7 c2] ++ [nl_tok files n8 1])
        (state (ttype tk) None attrs (P :: bst) [] [l] None false false force false None a) = Ok p' /\ Q p') end.
    rewrite (loop_app w fuel _ _ _ _ E1).
    assert (at_rest (KBox l P bst a) e [] (state TNewLineChar None attrs (P :: bst) [] [l] None false false force false None a)) as R1.
    { exists TNewLineChar, attrs, (P :: bst), [l], force, a. split; [reflexivity|]. split; [reflexivity|]. split; [exact A|].
      split; [|split; [|split; constructor]].
      - cbn [room]. split; [reflexivity|]. split; [reflexivity|]. split; [reflexivity|]. exists []. split; reflexivity.
      - destruct F as [->|F]; [now left|right]. cbn in F |- *. now subst. }
    destruct (leaves_step w fuel origin resolve _ files x e [] _ _ t3 R1 Fx T3) as (p2 & E2 & R2). rewrite (loop_app w fuel _ _ _ _ E2).
    cbn [app] in R2. cbn [piece_blocks]. destruct (leaves_blocks e x) as [kids e'] eqn:Ek. cbn [fst snd] in *.
    destruct R2 as (lst2 & attrs2 & bst2 & ol2 & force2 & a2 & -> & L2 & A2 & (-> & -> & _ & acc & -> & Ea) & F2 & N3 & N4). cbn [kept] in N4.
    (* the last lines *)
    assert (exists lst3 ist dang acc3, loop t5 (state lst2 None attrs2 (acc ++ P :: bst) [] [l] None false false force2 false None a)
        = Ok (state lst3 None attrs2 (acc ++ P :: bst) ist [l] None false false force2 false dang a)
        /\ map bare (rev acc3) = kids ++ match last with [] => [] | _ => [para_block e' last] end
        /\ acc = match ist with [] => acc3 | _ => tl acc3 end
        /\ (ist = [] \/ exists y acc0, acc3 = y :: acc0
             /\ add_inlines_to_block_stack (state lst3 None attrs2 (acc0 ++ bst) ist [l] None false false force2 false None a)
                = Ok (state lst3 None attrs2 (acc3 ++ bst) [] [l] None false false force2 false None a)))
      as (lst3 & ist & dang & acc3 & E3 & Ea3 & Et & Ei).
    { destruct last as [|r rest].
      - cbn in T5. subst t5. exists lst2, [], None, acc. cbn [parse_loop]. rewrite app_nil_r. auto.
      - apply lines_of in T5.
        destruct (lines_loop w fuel origin resolve files (r :: rest) t5 T5 None attrs2 e' (acc ++ P :: bst) [l] false force2 false a lst2 [] [] None) as (i1 & d1 & E3 & D3 & B3 & Ni); auto.
        { discriminate. } { apply Forall_forall. intros; now left. } { discriminate. } { intros r0 rs _ _ (k0 & s & r1 & H). discriminate. }
        cbn [nl_part app] in B3.
        destruct (new_para origin resolve TNewLineChar attrs2 (acc ++ bst) i1 (lines_parts e' (r :: rest)) [l] force2 false a B3) as (y & E4 & Ey).
        exists TNewLineChar, i1, d1, (y :: acc). split; [exact E3|]. split; [|split].
        + cbn [rev]. rewrite map_app, Ea. cbn [map]. now rewrite Ey.
        + now destruct i1.
        + right. exists y, acc. split; [reflexivity|].
          replace (add_inlines_to_block_stack (state TNewLineChar None attrs2 (acc ++ bst) i1 [l] None false false force2 false None a))
            with (new_paragraph (state TNewLineChar None attrs2 (acc ++ bst) i1 [l] None false false force2 false None a)); [exact E4|].
          unfold add_inlines_to_block_stack. pst. destruct i1 as [|i i1]; [congruence|].
          destruct (acc ++ bst) as [|z zs] eqn:Ez; [reflexivity|].
          replace (takes_inlines z && true && negb force2) with false; [reflexivity|].
          destruct F2 as [->|F2]; [now rewrite andb_false_r|]. cbn in F2. destruct acc as [|? [|]]; try discriminate F2. cbn in F2. injection F2 as ->. discriminate Ez. }
    rewrite (loop_app w fuel _ _ _ _ E3). cbn [app parse_loop]. rewrite box_dispatch by reflexivity.
    assert (Forall (fun z => is_parent z = false) acc3 /\ Forall (fun z => is_section z = false /\ is_list_item z = false) acc3) as [G1 G2].
    { assert (Forall (fun z => is_parent z = false /\ is_section z = false /\ is_list_item z = false) (map bare (rev acc3))) as G.
      { rewrite Ea3. apply Forall_app. split.
        - apply Forall_forall. intros z Hz. unfold no_items in N3. rewrite Forall_forall in N3, N4. specialize (N3 z Hz). specialize (N4 z Hz). tauto.
        - destruct last; [constructor|]. now apply Forall_cons. }
      split; [|apply Forall_and].
      - apply bare_all; [intros z; apply (heads_bare z)|]. eapply Forall_impl; [|exact G]. cbn. tauto.
      - apply bare_all; [intros z; apply (heads_bare z)|]. eapply Forall_impl; [|exact G]. cbn. tauto.
      - apply bare_all; [intros z; apply (heads_bare z)|]. eapply Forall_impl; [|exact G]. cbn. tauto. }
    destruct (close_box files n7 b acc3 bst loc l ist lst3 attrs2 force2 dang a G1 G2) with (acc1 := acc) as (loc' & E5); [discriminate|exact Ei|exact Et|].
    fold P in E5. rewrite E5. cbn [bind]. rewrite set_last_state.
    set (B := box_block b (rev acc3) loc').
    destruct (soft_newline w fuel origin resolve files n7 c2 (ttype (lead_tok files n7 (LBox b))) None attrs2 (B :: bst) [] [] false force2 false None a) as (d2 & E6 & _ & _).
    { now destruct b. }
    match goal with |- exists p', _ = Ok p' /\ @?Q p' => change (exists p',
      loop ([nl_tok files n7 c2] ++ [nl_tok files n8 1])
        (state (ttype (lead_tok files n7 (LBox b))) None attrs2 (B :: bst) [] [] None false false force2 false None a) = Ok p' /\ Q p') end.
    rewrite (loop_app w fuel _ _ _ _ E6).
    assert (bare B = Blk (HParent (box_name b) None (box_fence b) []) None (kids ++ match last with [] => [] | _ => [para_block e' last] end) []) as EB.
    { unfold B, box_block. cbn [bare bare_head map]. now rewrite Ea3. }
    rewrite <- EB. apply blank_settle; auto; reflexivity.
  Qed.

  Lemma piece_step h e done p files x l ts : at_rest (KTop h) e done p -> piece_ok x -> flat done -> subsections_clear 0 done ->
    plines_toks files l (piece_plines x) ts ->
    exists p', loop ts p = Ok p' /\ at_rest (KTop h) (snd (piece_blocks e x)) (done ++ fst (piece_blocks e x)) p'.
  Proof.
    intros R H Fl Cl T. destruct x as [x|n t|v x|v|b x last]; cbn [piece_ok] in H.
    - eapply leaf_step; eauto.
    - destruct H. eapply heading_step; eauto.
    - eapply admonition_step; eauto.
    - eapply break_step; eauto.
    - destruct H. eapply box_step; eauto.
  Qed.

  (** *** The blocks of pieces are tame *)
  Lemma tame_text e l : forallb tame_inline (text_inlines e l) = true.
  Proof. unfold text_inlines. apply forallb_forall. intros i H. apply in_map_iff in H as (p & <- & _). now destruct p. Qed.
  Lemma tame_leaf e x : Forall (fun b => tame b = true /\ is_section b = false /\ is_list_item b = false /\ is_dlist_item b = false) (leaf_blocks e x).
  Proof.
    destruct x as [l|o l|v body|s|body|name value|]; cbn [leaf_blocks]; try constructor; try constructor; auto.
    - cbn. unfold tame_head. cbn. now rewrite tame_text.
    - cbn [tame]. unfold tame_head at 1. cbn [own_inlines forallb andb]. apply forallb_forall. intros b H. apply in_map_iff in H as (i & <- & _).
      cbn. unfold tame_head. cbn. now rewrite tame_text.
  Qed.
  Lemma tame_leaves l : forall e, Forall (fun b => tame b = true) (fst (leaves_blocks e l)).
  Proof.
    induction l as [|x l IH]; intros e; cbn [leaves_blocks]; [constructor|]. specialize (IH (leaf_env e x)).
    destruct (leaves_blocks (leaf_env e x) l) as [bl e']. cbn [fst] in *. apply Forall_app. split; [|exact IH].
    eapply Forall_impl; [|apply tame_leaf]. cbn. tauto.
  Qed.
  Lemma tame_para e l : tame (para_block e l) = true.
  Proof. cbn. unfold tame_head. cbn. now rewrite tame_text. Qed.
  Lemma flat_piece e x : piece_ok x -> flat (fst (piece_blocks e x)).
  Proof.
    intros H. unfold flat.
    assert (forall b, flat_head b -> (forall n, section_level b = Some n -> 1 <= n) -> tame b = true ->
      Forall flat_head [b] /\ Forall (fun b => forall n, section_level b = Some n -> 1 <= n) [b] /\ Forall (fun b => tame b = true) [b]) as one.
    { intros b H1 H2 H3. repeat split; apply Forall_cons; auto; constructor. }
    destruct x as [x|n t|v x|v|b x last]; cbn [piece_blocks].
    - cbn [fst]. pose proof (tame_leaf e x) as T. repeat split; eapply Forall_impl; try exact T; cbn; intros z (T1 & T2 & T3 & T4); auto.
      + unfold flat_head. rewrite T2. repeat split; auto. discriminate.
      + unfold section_level. destruct z as [[] ? ? ?]; try discriminate; intros n; discriminate.
    - cbn [fst piece_ok] in *. repeat split; apply Forall_cons; try constructor; auto.
      + intros k [= <-]. lia.
      + cbn [tame forallb]. unfold tame_head. cbn [own_inlines]. now rewrite tame_text.
    - cbn [fst]. apply one; [repeat split; auto; discriminate|discriminate|].
      change (tame_head (HParent PAdmonition (Some v) (label v) []) && (tame (para_block e x) && true) = true). now rewrite tame_para.
    - cbn [fst]. apply one; [repeat split; auto; discriminate|discriminate|reflexivity].
    - pose proof (tame_leaves x e) as T. destruct (leaves_blocks e x) as [kids e']. cbn [fst] in *.
      apply one; [repeat split; auto; discriminate|discriminate|].
      cbn [tame]. assert (tame_head (HParent (box_name b) None (box_fence b) []) = true) as -> by now destruct b. cbn [andb].
      rewrite forallb_app. apply andb_true_intro. split.
      + apply forallb_forall. now apply Forall_forall.
      + destruct last; [reflexivity|]. cbn [forallb]. now rewrite tame_para.
  Qed.

  Lemma pieces_step h files l : forall e done p n ts, at_rest (KTop h) e done p -> Forall piece_ok l -> flat done ->
    subsections_clear 0 (done ++ pieces_blocks e l) -> plines_toks files n (List.concat (map piece_plines l)) ts ->
    exists p' e', loop ts p = Ok p' /\ at_rest (KTop h) e' (done ++ pieces_blocks e l) p' /\ flat (done ++ pieces_blocks e l).
  Proof.
    induction l as [|x l IH]; intros e done p n ts R F Fl Cl T.
    - cbn in T. subst. exists p, e. cbn. rewrite app_nil_r. auto.
    - inversion F as [|? ? F1 F2]. subst. cbn [map List.concat] in T. apply plines_app in T as (t1 & t2 & -> & T1 & T2).
      destruct (piece_step h e done p files x n t1 R F1 Fl (clear_prefix _ _ _ Cl) T1) as (p1 & E1 & R1). rewrite (loop_app w fuel _ _ _ _ E1).
      cbn [pieces_blocks] in Cl |- *. pose proof (flat_piece e x F1) as Fp.
      destruct (piece_blocks e x) as [bl e']. cbn [fst snd] in *. rewrite app_assoc in Cl |- *.
      eapply (IH e' (done ++ bl) p1 _ t2 R1 F2); eauto. apply flat_app. auto.
  Qed.

  (** *** The title *)
  Lemma texts_head files n col ts s h : texts files n col ts s -> Forall (settled h) ts.
  Proof. induction 1; [constructor|]. apply Forall_cons; [now right|assumption]. Qed.
  Lemma chunk_head files n col c ts h : chunk_toks files n col c ts -> snd c = [] -> Forall (settled h) ts.
  Proof.
    intros (t1 & t2 & -> & T1 & T2) E. rewrite E in T2. inversion T2. subst. rewrite app_nil_r. eapply texts_head. exact T1.
  Qed.
  Lemma marks_head files n col l ts h : marks_toks files n col l ts ->
    Forall (fun x => let '(k, inside, after) := x in constrained k /\ snd inside = [] /\ snd after = []) l -> Forall (settled h) ts.
  Proof.
    induction 1 as [|col k i a l t1 t2 ts T1 T2 _ IH]; intros F; [constructor|]. inversion F as [|? ? F1 F2]. subst. destruct F1 as (C & Hi & Ha).
    assert (forall c, settled h (mark_tok files n c k)) as M by (intros c; right; destruct k; try contradiction; reflexivity).
    apply Forall_cons; [apply M|]. apply Forall_app. split; [eapply chunk_head; eauto|]. apply Forall_cons; [apply M|].
    apply Forall_app. split; [eapply chunk_head; eauto|auto].
  Qed.
  Lemma title_head files n col t ts h : rich_toks files n col t ts -> title_ok t -> Forall (settled h) ts.
  Proof.
    intros (t1 & t2 & -> & T1 & T2) (_ & H1 & H2). apply Forall_app. split; [eapply chunk_head; eauto|eapply marks_head; eauto].
  Qed.
  Lemma entries_loop files l : forall n ts, plines_toks files n (map (fun x => LAlone (LEntry (fst x) (snd x))) l) ts ->
    Forall (fun x => simple_line (Entry (fst x) (snd x))) l ->
    forall hd attrs e bst ist ol force close dang a, agrees attrs e ->
    exists attrs' dang', loop ts (state TNewLineChar hd attrs bst ist ol None false false force close dang a)
      = Ok (state TNewLineChar hd attrs' bst ist ol None false false force close dang' a)
      /\ agrees attrs' (fold_left (fun e x => set_env e (fst x) (snd x)) l e).
  Proof.
    induction l as [|x l IH]; intros n ts T F hd attrs e bst ist ol force close dang a A; cbn [map] in T.
    - cbn in T. subst. exists attrs, dang. auto.
    - inversion F as [|? ? F1 F2]. subst. change (LAlone (LEntry (fst x) (snd x)) :: map (fun x => LAlone (LEntry (fst x) (snd x))) l)
        with ([LAlone (LEntry (fst x) (snd x))] ++ map (fun x => LAlone (LEntry (fst x) (snd x))) l) in T.
      apply plines_app in T as (t1 & t2 & -> & T1 & T2). apply alone_toks in T1 as (c & ->).
      destruct (soft_newline w fuel origin resolve files n c TAttribute hd (minsert (fst x) (snd x) attrs) bst ist ol false force close dang a eq_refl) as (d & E & _ & _).
      destruct (IH _ t2 T2 F2 hd (minsert (fst x) (snd x) attrs) (set_env e (fst x) (snd x)) bst ist ol force close d a) as (a1 & d1 & E1 & A1).
      { now apply agrees_insert. }
      exists a1, d1. split; [|exact A1].
      rewrite <- E1. change ([lead_tok files n (LEntry (fst x) (snd x)); nl_tok files n c] ++ t2)
        with ([lead_tok files n (LEntry (fst x) (snd x))] ++ [nl_tok files n c] ++ t2).
      erewrite loop_app; [rewrite (loop_app w fuel _ _ _ _ E); reflexivity|].
      cbn [parse_loop]. rewrite entry_token by assumption. reflexivity.
  Qed.

  Lemma start_rest : at_rest (KTop None) no_env [] (set_asg new_asg (new_parser origin resolve)).
  Proof.
    exists TEof, [], [], [], false, new_asg. split; [reflexivity|]. split; [reflexivity|]. split; [intros n; reflexivity|].
    split; [|split; [now right|split; constructor]]. cbn. split; [reflexivity|]. split; [|reflexivity]. left. split; [reflexivity|]. split; constructor.
  Qed.
  Lemma title_step a ts : article_ok a -> plines_toks [] 1 (title_plines a) ts ->
    exists p', loop ts (set_asg new_asg (new_parser origin resolve)) = Ok p' /\ at_rest (KTop (article_title a)) (title_env a) [] p'.
  Proof.
    intros (H & _) T. unfold title_plines, article_title, title_env in *. destruct (ar_title a) as [[t l]|].
    2:{ cbn in T. subst. eexists. split; [reflexivity|]. apply start_rest. }
    destruct H as [Ht Hl]. cbn [option_map fst].
    apply plines_app in T as (t1 & t2 & -> & T1 & T2). apply plines_app in T2 as (t3 & t4 & -> & T3 & T4). apply blank_toks in T4 as ->.
    destruct T1 as (t5 & t6 & -> & (t7 & -> & T7) & ->). set (tk := lead_tok [] 1 (LHeading 0)).
    set (hd := Some (mkHeader [] (token_locations tk))).
    assert (loop [tk] (set_asg new_asg (new_parser origin resolve)) = Ok (state THeading1 hd [] [] [] [] None true false false false None new_asg)) as E0.
    { cbn [parse_loop]. rewrite go; [reflexivity|now left|reflexivity|discriminate|discriminate]. }
    change ((tk :: t7) ++ nl_tok [] 1 (1 + List.length (pline_text (LLed (LHeading 0) t))) :: [])
      with ([tk] ++ t7 ++ [nl_tok [] 1 (1 + List.length (pline_text (LLed (LHeading 0) t)))]).
    rewrite <- app_assoc, (loop_app w fuel _ _ _ _ E0).
    destruct (lines_loop w fuel origin resolve [] [t] (t7 ++ [nl_tok [] 1 (1 + List.length (pline_text (LLed (LHeading 0) t)))])) with (hd := hd) (attrs := @nil (bytes * bytes)) (e := no_env)
      (bst := @nil block) (ol := @nil nat) (il := true) (force := false) (close := false) (a := new_asg) (lst := THeading1) (ist := @nil inline) (ps := @nil part) (dang := @None token)
      as (i1 & d1 & E1 & D1 & B1 & Ni).
    { econstructor; [exact T7|constructor]. } { discriminate. }
    { apply Forall_app. split; [eapply title_head; eauto|]. apply Forall_cons; [now right|constructor]. }
    { cbn. split; [apply Ht|auto]. } { intros n; reflexivity. } { reflexivity. } { discriminate. } { intros r rs _ _ (k0 & s & r0 & K). discriminate. }
    cbn [nl_part app] in B1. rewrite (loop_app w fuel _ _ _ _ E1).
    destruct (entries_loop [] l _ t3 T3 Hl hd [] no_env [] i1 [] false false d1 new_asg) as (at2 & d2 & E2 & A2); [intros n; reflexivity|].
    rewrite (loop_app w fuel _ _ _ _ E2). cbn [parse_loop]. rewrite go; [|now right|reflexivity|discriminate|discriminate].
    rewrite dispatch_nl. unfold parse_new_line_char. pst. unfold hd. unfold check_and_move_header, add_inlines_to_block_stack. pst.
    destruct i1 as [|i i1]; [congruence|]. pst. cbn [hd_title app].
    destruct (rev (i :: i1)) as [|j js] eqn:Er; [now apply (f_equal (@List.length _)) in Er; rewrite rev_length in Er|].
    eexists. split; [reflexivity|].
    eexists TNewLineChar, at2, [], [], false, _. split; [reflexivity|]. split; [reflexivity|]. split; [exact A2|].
    split; [|split; [now right|split; constructor]]. cbn [room]. split; [reflexivity|]. split.
    - left. split; [reflexivity|]. split; constructor.
    - cbn -[text_inlines map]. f_equal. rewrite <- Er. exact (rev_stack _ _ B1).
  Qed.

  Lemma article_graph a : article_ok a ->
    exists g, parse w fuel origin resolve (article_source a) = Ok g
      /\ map bare (a_blocks g) = nest (article_flat a) /\ title_of g = article_title a.
  Proof.
    intros H. rewrite <- article_text. destruct (plines_stream [] (article_plines a) (article_plines_ok a H)) as (ts & S & T).
    apply plines_app in T as (t1 & t2 & -> & T1 & T2).
    destruct (title_step a t1 H T1) as (p1 & E1 & R1). destruct H as (_ & Hp & Hc).
    destruct (pieces_step (article_title a) [] (ar_pieces a) (title_env a) [] p1 (1 + List.length (title_plines a)) t2 R1 Hp) as (p2 & e2 & E2 & R2 & Fl); [repeat split; constructor|exact Hc|exact T2|].
    cbn [app] in R2, Fl. fold (article_flat a) in R2, Fl.
    unfold parse, parse_with. rewrite S. cbn [fst snd]. rewrite <- app_assoc, (loop_app w fuel _ _ _ _ E1), (loop_app w fuel _ _ _ _ E2).
    destruct R2 as (lst & attrs & bst & ol & force & g & -> & L & A & (-> & Hh & Ht) & F & N1 & N2).
    cbn [parse_loop]. rewrite go; [|now left|reflexivity|discriminate|discriminate].
    change (dispatch w (final_token (1 + List.length (article_plines a)) []) (state lst None attrs bst [] [] None false false force false None g))
      with (Ok (state lst None attrs bst [] [] None false false force false None g) : result pstate).
    cbn [bind]. rewrite set_last_state, add_nothing. cbn [bind].
    assert (exists g', flush_to 0 (state (ttype (final_token (1 + List.length (article_plines a)) [])) None attrs bst [] [] None false false force false None g)
       = Ok (state (ttype (final_token (1 + List.length (article_plines a)) [])) None attrs [] [] [] None false false force false None g')
       /\ map bare (a_blocks g') = nest (article_flat a) /\ a_header g' = a_header g) as (g' & -> & Eb & Eh).
    { pose proof Hh as H0. destruct Hh as [(-> & _)|(s & i & t & lv & pre & leaves & -> & _)].
      - exists g. split; [reflexivity|]. split; [now apply holds_nil|reflexivity].
      - destruct (finish_section s (a_blocks g) (article_flat a) g H0 eq_refl Fl Hc) as (g' & E & Eb & Eh).
        exists g'. split; [|auto]. unfold flush_to. pst. cbn [List.length flush_blocks]. pst. cbn [List.length Nat.leb].
        unfold add_last_block_to_graph. pst. unfold take_metadata. pst. unfold p_asg_push. pst. rewrite E. reflexivity. }
    cbn [bind]. eexists. split; [reflexivity|]. unfold asg_consolidate. cbn [a_blocks a_header]. pst.
    assert (map (map_inlines (xref_standardize (a_ids g'))) (a_blocks g') = a_blocks g') as ->.
    { assert (Forall (fun b => tame b = true) (a_blocks g')) as Tm.
      { destruct Fl as (_ & _ & Fl). apply tame_nest in Fl. rewrite <- Eb in Fl. apply Forall_map in Fl.
        eapply Forall_impl; [|exact Fl]. cbn. intros b. now rewrite tame_bare. }
      clear -Tm. induction Tm as [|b l Hb _ IH]; [reflexivity|]. cbn [map]. now rewrite IH, tame_fixed. }
    split; [exact Eb|]. unfold title_of in *. cbn [a_header]. rewrite Eh. exact Ht.
  Qed.
End Pieces.
