(** * Lemmas on include directives in listings *)
From Verif Require Import Base World Location Token Scanner Meta Inline Block Asg Parser SpecScan SpecVerbatim SpecSelect SpecListing
  ScanLemmas ScanMain ScanProofs SelectProofs VerbatimProofs.
Local Open Scope char_scope.
Local Open Scope nat_scope.
Local Arguments reconcile : simpl never.
Local Arguments token_locations : simpl never.
Local Arguments token_text : simpl never.

(** a file is taken in byte for byte *)
Lemma file_text content files ts target : scan_with content files = Ok ts -> no_tags ts ->
  is_adoc target = true \/ Forall unreplaced ts -> included target ts = content.
Proof.
  intros S N U. rewrite <- (scan_lossless _ _ _ S N) at 1. unfold included, text_of, source_text. destruct (is_adoc target); [reflexivity|].
  destruct U as [U|U]; [discriminate|]. apply scan_yields in S as (sc & Y & _). f_equal. apply map_ext_in. intros t Ht.
  destruct (replacements_only _ _ _ _ _ Y Ht) as (_ & _ & K). rewrite Forall_forall in U. specialize (U t Ht). unfold unreplaced in U. apply K.
  - intros E. apply U. left. now symmetry.
  - cbn in U |- *. tauto.
Qed.

Section Listing.
  Variables (w : world) (fuel : nat).

  (** the tokens of a file join the text *)
  Lemma feed_text f adoc ts : (adoc = true -> Forall (content TSourceBlock) ts) -> forall p s loc, p_open_type p = Some TSourceBlock -> p_header p = None ->
    p_dangling p = None -> p_istack p = [ILit LText false s loc] ->
    exists loc' lst, feed (token_into w f) adoc ts p
      = Ok (set_last lst (set_istack [ILit LText false (s ++ (if adoc then source_text ts else List.concat (map token_text ts))) loc'] p)).
  Proof.
    induction ts as [|t ts IH]; intros F p s loc O H D I.
    - exists loc, (p_last p). cbn [feed source_text map List.concat]. replace (if adoc then [] else []) with (@nil ascii) by now destruct adoc.
      rewrite app_nil_r, <- I. destruct p; reflexivity.
    - cbn [feed]. destruct adoc.
      + specialize (F eq_refl). apply Forall_cons_iff in F as [Ft F]. pose proof (content_passes _ _ _ verbatim_listing Ft) as P.
        rewrite (pass_step w f TSourceBlock t p P O H). unfold pass_text_through, flush_dangling. rewrite D. cbn [bind].
        unfold pass_text_to_last_inline, add_to_last_inline. rewrite I. cbn [bind lit_append].
        destruct (IH (fun _ => F) (set_last (ttype t) (set_istack [ILit LText false (s ++ lexeme t) (reconcile loc (token_locations t))] p))
                    (s ++ lexeme t) (reconcile loc (token_locations t))) as (loc' & lst & E); auto.
        exists loc', lst. rewrite E. cbn [source_text map List.concat]. now rewrite app_assoc.
      + clear F. set (ty := if tt_eqb (ttype t) TEof then TEof else TText). unfold parse_text, flush_dangling. replace (p_dangling (set_last ty p)) with (@None token) by (symmetry; exact D). cbn [bind].
        unfold add_text_to_last_inline, add_to_last_inline. replace (p_istack (set_last ty p)) with [ILit LText false s loc] by (symmetry; exact I). cbn [bind lit_append].
        destruct (IH (fun K => False_ind _ (Bool.diff_false_true K)) (set_istack [ILit LText false (s ++ token_text t) (reconcile loc (token_locations t))] (set_last ty p))
                    (s ++ token_text t) (reconcile loc (token_locations t))) as (loc' & lst & E); auto.
        exists loc', lst. rewrite E. cbn [map List.concat]. now rewrite app_assoc.
  Qed.

  (** a block whose text grows *)
  Definition inside_listing (p : pstate) (ils : list inline) (op : token) (m : option metadata) (r : list block) : Prop :=
    p_header p = None /\ p_open_type p = Some TSourceBlock /\ p_istack p = [] /\ p_dangling p = None
    /\ p_in_line p = false /\ p_force_new p = false
    /\ p_bstack p = Blk (HLeaf NListing FmDelimited (Some (token_text op)) ils) m [] (token_locations op) :: r.
  Lemma listing_drain p ils op m r s loc : inside_listing p ils op m r ->
    add_inlines_to_block_stack (set_istack [ILit LText false s loc] p)
    = Ok (set_bstack (Blk (HLeaf NListing FmDelimited (Some (token_text op)) (ils ++ [ILit LText false s loc])) m [] (token_locations op) :: r) p).
  Proof.
    intros (H & O & I & D & L & F & B). unfold add_inlines_to_block_stack. destruct p. cbn in *. subst.
    destruct p_in_span; reflexivity.
  Qed.
  Lemma listing_include f p ils op m r s loc t target ts : inside_listing p ils op m r -> ttype t = TInclude ->
    fetches w (p_origin p) (p_files p) t target ts -> (is_adoc target = true -> Forall (content TSourceBlock) ts) ->
    exists loc' lst, token_into w (S f) t (set_istack [ILit LText false s loc] p)
      = Ok (set_last lst (set_bstack (Blk (HLeaf NListing FmDelimited (Some (token_text op)) (ils ++ [ILit LText false (s ++ included target ts) loc'])) m [] (token_locations op) :: r) p)).
  Proof.
    intros P Et F A. pose proof P as (H & O & I & D & L & Fn & B).
    set (q := set_istack [ILit LText false s loc] p).
    assert (parse_include w (token_into w f) t q = take_in (token_into w f) (is_adoc target) target ts (Ok Datatypes.tt) q) as K.
    { destruct F as [target path content ts T R C Sc|target m0 path content ts ts1 ts2 T Lo R C Sc BL BT].
      - unfold parse_include. rewrite T. cbn [bind include_spec_of]. unfold resolve_target. change (p_origin q) with (p_origin p). change (p_files q) with (p_files p).
        change (resolve_path (p_origin p) (p_files p) target) with (SpecPath.located (p_origin p) (p_files p) target). rewrite R. cbn [bind]. rewrite C. change (p_files (set_files (p_files p ++ [target]) q)) with (p_files p ++ [target]). rewrite (scan_is_stream _ _ _ Sc).
        cbn [inc_lines]. rewrite loop_feed. reflexivity.
      - rewrite (include_takes w (token_into w f) t q target m0 content ts1 ts2).
        + change (p_files q) with (p_files p). rewrite (scan_is_stream _ _ _ Sc). reflexivity.
        + split; [exact T|]. split; [exact Lo|]. exists path. split; [exact R|exact C].
        + change (p_files q) with (p_files p). rewrite (scan_is_stream _ _ _ Sc). exact BL.
        + exact BT. }
    cbn [token_into]. replace (p_header q) with (@None header) by (symmetry; exact H). cbn [bind]. unfold pre_dispatch.
    replace (p_open_type q) with (Some TSourceBlock) by (symmetry; exact O). rewrite Et. cbv iota. cbn [tt_eqb orb]. change (tt_eqb TInclude TSourceBlock || tt_eqb TInclude TCodeCallout || tt_eqb TInclude TInclude) with true. cbv iota.
    rewrite K. unfold take_in. change (p_files q) with (p_files p). change (p_bstack q) with (p_bstack p).
    destruct (feed_text f (is_adoc target) ts A (set_files (p_files p ++ [target]) q) s loc) as (loc' & lst & E); [exact O|exact H|exact D|reflexivity|].
    exists loc', lst. rewrite E. cbn [bind]. fold (included target ts).
    replace (set_last lst (set_istack [ILit LText false (s ++ included target ts) loc'] (set_files (p_files p ++ [target]) q)))
      with (set_istack [ILit LText false (s ++ included target ts) loc'] (set_last lst (set_files (p_files p ++ [target]) p))) by reflexivity.
    rewrite (listing_drain (set_last lst (set_files (p_files p ++ [target]) p)) ils op m r) by exact P. cbn [bind].
    unfold flush_to. rewrite B. cbn [List.length set_bstack p_bstack].
    assert (forall k n x, List.length (p_bstack x) <= n -> flush_blocks k n x = Ok x) as Fl.
    { intros k n x Hn. destruct k; cbn [flush_blocks]; destruct (Nat.leb_spec (List.length (p_bstack x)) n); (reflexivity || lia). }
    rewrite Fl by (cbn; lia). cbn [bind].
    cbn [set_bstack set_last set_files p_files]. rewrite removelast_last. destruct p. reflexivity.
  Qed.

  (** *** The text between the fences *)
  Lemma listing_texts op m r : fuel <> 0 -> forall ts l o fs, quoted w o fs ts l -> forall p ils, p_origin p = o -> p_files p = fs -> inside_listing p ils op m r ->
    exists ils' s loc lst, holds l (ils' ++ [ILit LText false s loc])
      /\ parse_loop w fuel ts p = Ok (set_last lst (set_istack [ILit LText false s loc]
           (set_bstack (Blk (HLeaf NListing FmDelimited (Some (token_text op)) (ils ++ ils')) m [] (token_locations op) :: r) p))).
  Proof.
    intros Nz. destruct fuel as [|f] eqn:Ef; [congruence|]. rewrite <- Ef in *. clear Nz.
    induction 1 as [ts N F|ts t target fts rest l N F Et Fe A Q IH]; intros p ils Eo Efs P.
    - pose proof P as (H & O & I & D & L & Fn & B).
      pose proof (Forall_impl _ (fun t => content_passes _ _ t verbatim_listing) F) as Pa.
      destruct (pass_all w fuel TSourceBlock ts p Pa N O H D I) as (loc & lst & E).
      exists [], (source_text ts), loc, lst. split; [repeat constructor; eauto|]. rewrite app_nil_r, <- B, E. destruct p; reflexivity.
    - pose proof P as (H & O & I & D & L & Fn & B).
      pose proof (Forall_impl _ (fun t => content_passes _ _ t verbatim_listing) F) as Pa.
      destruct (pass_all w fuel TSourceBlock ts p Pa N O H D I) as (loc & lst & E).
      rewrite (loop_app _ _ _ _ _ _ E). cbn [parse_loop].
      replace (set_last lst (set_istack [ILit LText false (source_text ts) loc] p)) with (set_istack [ILit LText false (source_text ts) loc] (set_last lst p)) by reflexivity.
      subst fs o. rewrite Ef.
      destruct (listing_include f (set_last lst p) ils op m r (source_text ts) loc t target fts P Et Fe A) as (loc1 & lst1 & E1).
      rewrite E1. cbn [bind]. rewrite Ef in IH.
      match goal with |- context [parse_loop w (S f) rest ?q] =>
        destruct (IH q (ils ++ [ILit LText false (source_text ts ++ included target fts) loc1])) as (ils' & s & loc2 & lst2 & Hd & E2) end.
      { reflexivity. }
      { reflexivity. }
      { unfold inside_listing in *. cbn. tauto. }
      exists (ILit LText false (source_text ts ++ included target fts) loc1 :: ils'), s, loc2, lst2. split.
      + constructor; [eauto|exact Hd].
      + rewrite E2, <- app_assoc. reflexivity.
  Qed.

  Lemma listing_block op ts cl l p : fuel <> 0 -> ttype op = TSourceBlock -> ttype cl = TSourceBlock ->
    quoted w (p_origin p) (p_files p) ts l -> between_blocks p ->
    exists ils loc m, holds l ils /\ (p_meta p = None -> m = None) /\ parse_loop w fuel (op :: ts ++ [cl]) p
      = Ok (set_last TSourceBlock (set_force_new false (set_meta None
              (set_bstack (Blk (HLeaf NListing FmDelimited (Some (token_text op)) ils) m [] loc :: p_bstack p) p)))).
  Proof.
    intros Nz Eo Ec Q (H & O & I & D & L & C).
    assert (parse_delimited_leaf_block op p
      = let* b := Ok (Blk (HLeaf NListing FmDelimited (Some (token_text op)) []) None [] (token_locations op)) in
        let* q := push_block_to_stack b (set_open_type (Some TSourceBlock) p) in Ok (set_force_new false q)) as Op.
    { unfold parse_delimited_leaf_block. rewrite O, Eo. unfold leaf_from_token. rewrite Eo. reflexivity. }
    assert (token_into w fuel op p = parse_delimited_leaf_block op p) as S1.
    { destruct fuel; cbn [token_into]; rewrite H; cbn [bind]; unfold pre_dispatch; rewrite O; unfold dispatch; rewrite Eo; reflexivity. }
    assert (exists m, (p_meta p = None -> m = None) /\ push_block_to_stack (Blk (HLeaf NListing FmDelimited (Some (token_text op)) []) None [] (token_locations op)) (set_open_type (Some TSourceBlock) p)
      = Ok (set_meta None (set_bstack (Blk (HLeaf NListing FmDelimited (Some (token_text op)) []) m [] (token_locations op) :: p_bstack p) (set_open_type (Some TSourceBlock) p)))) as (m & Em & E1).
    { unfold push_block_to_stack. cbn [set_open_type p_in_cont p_meta p_open_lines]. rewrite C. cbn [andb].
      destruct (p_meta p) as [md|] eqn:M.
      - unfold add_metadata. destruct (meta_is_empty md); eexists; (split; [discriminate|reflexivity]).
      - exists None. split; [reflexivity|]. cbn. unfold set_meta, set_bstack, set_open_type. cbn. now rewrite M. }
    cbn [parse_loop]. rewrite S1, Op. cbn [bind]. rewrite E1. cbn [bind].
    set (q := set_last (ttype op) (set_force_new false (set_meta None (set_bstack
      (Blk (HLeaf NListing FmDelimited (Some (token_text op)) []) m [] (token_locations op) :: p_bstack p) (set_open_type (Some TSourceBlock) p))))).
    destruct (listing_texts op m (p_bstack p) Nz ts l _ _ Q q []) as (ils & s & loc & lst & Hd & E2);
      [reflexivity|reflexivity|unfold inside_listing; cbn; tauto|].
    rewrite (loop_app _ _ _ _ _ _ E2). clear E2. cbn [app].
    set (q1 := set_last lst (set_bstack (Blk (HLeaf NListing FmDelimited (Some (token_text op)) ils) m [] (token_locations op) :: p_bstack p) q)).
    match goal with |- context [parse_loop w fuel [cl] ?x] => replace x with (set_istack [ILit LText false s loc] q1) by reflexivity end.
    cbn [parse_loop].
    assert (token_into w fuel cl (set_istack [ILit LText false s loc] q1) = parse_delimited_leaf_block cl (set_istack [ILit LText false s loc] q1)) as S2.
    { destruct fuel; cbn [token_into]; replace (p_header (set_istack [ILit LText false s loc] q1)) with (@None header) by (symmetry; exact H); cbn [bind];
        unfold pre_dispatch; replace (p_open_type (set_istack [ILit LText false s loc] q1)) with (Some TSourceBlock) by reflexivity; rewrite Ec;
        unfold dispatch; rewrite Ec; reflexivity. }
    rewrite S2. unfold parse_delimited_leaf_block. replace (p_open_type (set_istack [ILit LText false s loc] q1)) with (Some TSourceBlock) by reflexivity.
    rewrite (listing_drain q1 ils op m (p_bstack p)) by (unfold inside_listing; cbn; tauto).
    cbn [bind p_bstack set_bstack add_locations].
    unfold push_block_to_stack. cbn [set_bstack set_istack p_in_cont p_meta p_open_lines q1 q set_last set_force_new set_meta set_open_type].
    rewrite C. cbn [andb bind].
    exists (ils ++ [ILit LText false s loc]), (reconcile (token_locations op) (token_locations cl)), m. split; [exact Hd|]. split; [exact Em|]. rewrite Ec.
    subst q1 q. clear - I O. destruct p; cbn in I, O |- *. subst. reflexivity.
  Qed.
End Listing.

Lemma listing_document w fuel origin resolve src op ts cl nl eof l : fuel <> 0 ->
  scan src = Ok (op :: ts ++ [cl; nl; eof]) -> ttype op = TSourceBlock -> ttype cl = TSourceBlock ->
  quoted w origin [] ts l -> ttype nl = TNewLineChar -> ttype eof = TEof ->
  exists a ils loc, parse w fuel origin resolve src = Ok a /\ holds l ils
    /\ a_blocks a = [Blk (HLeaf NListing FmDelimited (Some (token_text op)) ils) None [] loc].
Proof.
  intros Nz S Eo Ec Q En Ee. pose proof (scan_is_stream _ _ _ S) as St.
  set (p0 := set_asg new_asg (new_parser origin resolve)).
  destruct (listing_block w fuel op ts cl l p0 Nz Eo Ec Q) as (ils & loc & m & Hd & Em & E); [repeat split|].
  rewrite (Em eq_refl) in E.
  unfold parse, parse_with. rewrite St. cbn [fst snd]. fold p0.
  replace (op :: ts ++ [cl; nl; eof]) with ((op :: ts ++ [cl]) ++ [nl; eof]) by (cbn; now rewrite <- app_assoc).
  rewrite (loop_app _ _ _ _ _ _ E). clear E.
  assert (exists q, parse_loop w fuel [nl; eof] (set_last TSourceBlock (set_force_new false (set_meta None
              (set_bstack (Blk (HLeaf NListing FmDelimited (Some (token_text op)) ils) None [] loc
                           :: p_bstack p0) p0)))) = Ok q
    /\ q = set_last TEof (set_dangling (Some nl) (set_bstack
         [Blk (HLeaf NListing FmDelimited (Some (token_text op)) ils) None [] loc] p0))) as (q & E2 & Eq).
  { eexists. split; [|reflexivity].
    destruct fuel; cbn [parse_loop token_into p0 set_asg new_parser set_last set_force_new set_meta set_bstack p_header]; cbn [bind];
    unfold pre_dispatch; cbn [p_open_type]; rewrite En, Ee; unfold dispatch; rewrite En, Ee; reflexivity. }
  rewrite E2, Eq. cbn [bind]. eexists _, ils, _. split; [reflexivity|]. split; [exact Hd|].
  assert (map (xref_standardize []) ils = ils) as X.
  { clear - Hd. induction Hd as [|s i l ils (loc & ->) _ IH]; cbn; [reflexivity|now rewrite IH]. }
  cbn. rewrite X. reflexivity.
Qed.
