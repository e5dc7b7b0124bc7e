(** * Lemmas on verbatim and comment blocks *)
From Verif Require Import Base World Location Token Scanner Meta Inline Block Asg Parser SpecScan SpecVerbatim
  ScanLemmas ScanProofs.
Local Open Scope char_scope.
Local Open Scope nat_scope.
Local Arguments reconcile : simpl never.
Local Arguments token_locations : simpl never.
Local Arguments token_text : simpl never.

Lemma tt_eqb_neq a b : a <> b -> tt_eqb a b = false.
Proof. intros H. unfold tt_eqb. destruct a, b; try reflexivity; congruence. Qed.

Section Verbatim.
  Variables (w : world) (fuel : nat).

  Definition passes (ty : token_type) (t : token) : Prop := forall p, p_open_type p = Some ty -> pre_dispatch t p = PrePass.
  Lemma content_passes ty n t : verbatim ty n -> content ty t -> passes ty t.
  Proof.
    intros V [N S] p O. unfold pre_dispatch. rewrite O. destruct V.
    - destruct (S eq_refl) as [S1 S2]. now rewrite !tt_eqb_neq.
    - now rewrite tt_eqb_neq.
    - now rewrite tt_eqb_neq.
  Qed.
  Lemma comment_passes t : ttype t <> TCommentBlock -> passes TCommentBlock t.
  Proof. intros N p O. unfold pre_dispatch. rewrite O. now rewrite tt_eqb_neq. Qed.

  Lemma pass_step ty t p : passes ty t -> p_open_type p = Some ty -> p_header p = None ->
    token_into w fuel t p = pass_text_through t p.
  Proof. intros P O H. destruct fuel; cbn [token_into]; rewrite H; cbn [bind]; now rewrite (P p O). Qed.

  (** the literal grows by the spelling of each token *)
  Lemma pass_loop ty ts : Forall (passes ty) ts -> forall p s loc r, p_open_type p = Some ty -> p_header p = None ->
    p_dangling p = None -> p_istack p = ILit LText false s loc :: r ->
    exists loc' lst, parse_loop w fuel ts p = Ok (set_last lst (set_istack (ILit LText false (s ++ source_text ts) loc' :: r) p)).
  Proof.
    induction 1 as [|t ts P _ IH]; intros p s loc r O H D I.
    - exists loc, (p_last p). cbn [source_text map List.concat]. rewrite app_nil_r, <- I. cbn. destruct p; reflexivity.
    - cbn [parse_loop]. rewrite (pass_step ty) by assumption. unfold pass_text_through, flush_dangling. rewrite D. cbn [bind].
      unfold pass_text_to_last_inline, add_to_last_inline. rewrite I. cbn [bind lit_append].
      destruct (IH (set_last (ttype t) (set_istack (ILit LText false (s ++ lexeme t) (reconcile loc (token_locations t)) :: r) p))
                  (s ++ lexeme t) (reconcile loc (token_locations t)) r) as (loc' & lst & E); auto.
      exists loc', lst. rewrite E. cbn [source_text map List.concat]. now rewrite app_assoc.
  Qed.
  Lemma pass_all ty ts p : Forall (passes ty) ts -> ts <> [] -> p_open_type p = Some ty -> p_header p = None ->
    p_dangling p = None -> p_istack p = [] ->
    exists loc lst, parse_loop w fuel ts p = Ok (set_last lst (set_istack [ILit LText false (source_text ts) loc] p)).
  Proof.
    intros F N O H D I. destruct F as [|t ts P F]; [congruence|].
    cbn [parse_loop]. rewrite (pass_step ty) by assumption. unfold pass_text_through, flush_dangling. rewrite D. cbn [bind].
    unfold pass_text_to_last_inline, add_to_last_inline. rewrite I. cbn [bind lit_pass].
    destruct (pass_loop ty ts F (set_last (ttype t) (set_istack [lit_pass t] p)) (lexeme t) (token_locations t) []) as (loc' & lst & E); auto.
    exists loc', lst. rewrite E. reflexivity.
  Qed.

  Lemma loop_app a b p p' : parse_loop w fuel a p = Ok p' -> parse_loop w fuel (a ++ b) p = parse_loop w fuel b p'.
  Proof.
    revert p. induction a as [|t a IH]; intros p H; cbn in *.
    - now injection H as ->.
    - destruct (token_into w fuel t p); cbn in *; try discriminate. now apply IH.
  Qed.

  Lemma verbatim_block ty n op ts cl p : verbatim ty n -> ttype op = ty -> ttype cl = ty ->
    Forall (content ty) ts -> ts <> [] -> between_blocks p ->
    exists loc loc' m, (p_meta p = None -> m = None) /\ parse_loop w fuel (op :: ts ++ [cl]) p
      = Ok (set_last ty (set_force_new false (set_meta None
              (set_bstack (Blk (HLeaf n FmDelimited (Some (token_text op)) [ILit LText false (source_text ts) loc]) m [] loc'
                           :: p_bstack p) p)))).
  Proof.
    intros V Eo Ec F N (H & O & I & D & L & C).
    pose proof (Forall_impl _ (fun t => content_passes ty n t V) F) as P.
    assert (parse_delimited_leaf_block op p
      = let* b := Ok (Blk (HLeaf n FmDelimited (Some (token_text op)) []) None [] (token_locations op)) in
        let* q := push_block_to_stack b (set_open_type (Some ty) p) in Ok (set_force_new false q)) as Op.
    { unfold parse_delimited_leaf_block. rewrite O, Eo. unfold leaf_from_token. rewrite Eo. destruct V; reflexivity. }
    assert (token_into w fuel op p = parse_delimited_leaf_block op p) as S1.
    { destruct fuel; cbn [token_into]; rewrite H; cbn [bind]; unfold pre_dispatch; rewrite O; unfold dispatch; rewrite Eo; destruct V; reflexivity. }
    assert (exists m, (p_meta p = None -> m = None) /\ push_block_to_stack (Blk (HLeaf n FmDelimited (Some (token_text op)) []) None [] (token_locations op)) (set_open_type (Some ty) p)
      = Ok (set_meta None (set_bstack (Blk (HLeaf n FmDelimited (Some (token_text op)) []) m [] (token_locations op) :: p_bstack p) (set_open_type (Some ty) p)))) as (m & Em & E1).
    { unfold push_block_to_stack. cbn [set_open_type p_in_cont p_meta p_open_lines]. rewrite C. cbn [andb].
      destruct (p_meta p) as [md|] eqn:M.
      - unfold add_metadata. destruct (meta_is_empty md); eexists; (split; [discriminate|reflexivity]).
      - exists None. split; [reflexivity|]. cbn. unfold set_meta, set_bstack, set_open_type. cbn. now rewrite M. }
    cbn [parse_loop]. rewrite S1, Op. cbn [bind]. rewrite E1. cbn [bind].
    set (q := set_last (ttype op) (set_force_new false (set_meta None (set_bstack
      (Blk (HLeaf n FmDelimited (Some (token_text op)) []) m [] (token_locations op) :: p_bstack p) (set_open_type (Some ty) p))))).
    destruct (pass_all ty ts q P N) as (loc & lst & E2); [reflexivity|exact H|exact D|exact I|].
    rewrite (loop_app _ _ _ _ E2). clear E2.
    set (q2 := set_last lst (set_istack [ILit LText false (source_text ts) loc] q)).
    cbn [parse_loop].
    assert (token_into w fuel cl q2 = parse_delimited_leaf_block cl q2) as S2.
    { destruct fuel; cbn [token_into]; replace (p_header q2) with (@None header) by (symmetry; exact H); cbn [bind];
        unfold pre_dispatch; replace (p_open_type q2) with (Some ty) by reflexivity; rewrite Ec; destruct V;
        unfold dispatch; rewrite Ec; reflexivity. }
    rewrite S2. unfold parse_delimited_leaf_block. replace (p_open_type q2) with (Some ty) by reflexivity.
    assert (add_inlines_to_block_stack q2 = Ok (set_bstack (Blk (HLeaf n FmDelimited (Some (token_text op)) [ILit LText false (source_text ts) loc]) m [] (token_locations op) :: p_bstack p) (set_istack [] q2))) as E3.
    { unfold add_inlines_to_block_stack. replace (p_istack q2) with [ILit LText false (source_text ts) loc] by reflexivity.
      assert (handle_dangling_spans q2 = Ok q2) as -> by reflexivity.
      destruct (p_in_span q2).
      1,2: cbn [bind]; replace (p_header q2) with (@None header) by (symmetry; exact H);
      replace (p_bstack q2) with (Blk (HLeaf n FmDelimited (Some (token_text op)) []) m [] (token_locations op) :: p_bstack p) by reflexivity;
      replace (p_in_line q2) with false by (symmetry; exact L); reflexivity. }
    rewrite E3. cbn [bind p_bstack set_bstack add_locations].
    unfold push_block_to_stack. cbn [set_bstack set_istack p_in_cont p_meta p_open_lines q2 q set_last set_force_new set_meta set_open_type].
    rewrite C. cbn [andb bind].
    exists loc, (reconcile (token_locations op) (token_locations cl)), m. split; [exact Em|]. rewrite Ec.
    subst q2 q. clear - I O. destruct p; cbn in I, O |- *. subst. reflexivity.
  Qed.

  (** *** Comments *)
  Lemma comment_pass t p : passes TCommentBlock t -> p_open_type p = Some TCommentBlock -> p_header p = None -> no_open_reference p ->
    exists st, token_into w fuel t p = Ok (set_dangling None (set_istack st p)) /\ no_open_reference (set_dangling None (set_istack st p)).
  Proof.
    intros P O H Q. rewrite (pass_step TCommentBlock) by assumption.
    assert (forall q, no_open_reference q -> forall pass u, exists st, add_to_last_inline pass u q = Ok (set_istack st q) /\ no_open_reference (set_istack st q)) as K.
    { intros q Qq pass u. unfold add_to_last_inline, no_open_reference in *. destruct (p_istack q) as [|[v f l m loc o|v tg l m loc|nm k v loc|loc] r] eqn:E.
      - eexists. split; [reflexivity|]. cbn. now destruct pass.
      - destruct (p_in_span q); eexists; (split; [reflexivity|]); cbn; [|now destruct pass].
        destruct (last_opt l) as [[? ? ? ? ? []| | |]|]; try exact I; destruct pass; exact I.
      - rewrite Qq. cbn. eexists. split; [reflexivity|]. cbn. now destruct pass.
      - destruct nm; eexists; (split; [reflexivity|]); cbn; try exact I; now destruct pass.
      - eexists. split; [reflexivity|]. cbn. now destruct pass. }
    unfold pass_text_through, flush_dangling. destruct (p_dangling p) as [nl|] eqn:D.
    - destruct (p_preserve_nl p).
      + cbn [bind]. eexists. split; [reflexivity|]. cbn. exact I.
      + destruct (K p Q false nl) as (st1 & E1 & Q1). unfold add_text_to_last_inline. rewrite E1. cbn [bind].
        destruct (K (set_dangling None (set_istack st1 p)) Q1 true t) as (st2 & E2 & Q2). unfold pass_text_to_last_inline. rewrite E2.
        exists st2. split; [reflexivity|exact Q2].
    - cbn [bind]. destruct (K p Q true t) as (st1 & E1 & Q1). unfold pass_text_to_last_inline. rewrite E1. exists st1. split; [|exact Q1].
      unfold set_dangling, set_istack. cbn. now rewrite D.
  Qed.
  Lemma comment_loop ts : Forall (passes TCommentBlock) ts -> forall p, p_open_type p = Some TCommentBlock -> p_header p = None -> no_open_reference p ->
    ts <> [] -> exists st lst, parse_loop w fuel ts p = Ok (set_last lst (set_dangling None (set_istack st p))).
  Proof.
    induction 1 as [|t ts P F IH]; intros p O H Q N; [congruence|]. cbn [parse_loop].
    destruct (comment_pass t p P O H Q) as (st & E & Q'). rewrite E. cbn [bind]. destruct ts as [|u ts].
    - exists st, (ttype t). reflexivity.
    - destruct (IH (set_last (ttype t) (set_dangling None (set_istack st p)))) as (st' & lst & E'); auto; [discriminate|].
      exists st', lst. rewrite E'. reflexivity.
  Qed.
  (** the state behind a comment block does not depend on what it says *)
  Lemma comment_same op cl ts ts' rest p : ttype op = TCommentBlock -> ttype cl = TCommentBlock ->
    Forall (fun t => ttype t <> TCommentBlock) ts -> Forall (fun t => ttype t <> TCommentBlock) ts' ->
    ts <> [] -> ts' <> [] -> p_open_type p = None -> no_open_reference p -> (p_header p <> None -> p_istack p = []) ->
    parse_loop w fuel (op :: ts ++ cl :: rest) p = parse_loop w fuel (op :: ts' ++ cl :: rest) p.
  Proof.
    intros Eo Ec F F' N N' O Q Hh.
    assert (exists q, forall ts, Forall (fun t => ttype t <> TCommentBlock) ts -> ts <> [] ->
              parse_loop w fuel (op :: ts ++ cl :: rest) p = q) as (q & K); [|now rewrite !K].
    clear ts ts' F F' N N'.
    destruct (token_into w fuel op p) as [q| | | |] eqn:E.
    2-5: eexists; intros ts F N; cbn [parse_loop]; rewrite E; cbn [bind]; reflexivity.
    assert (p_open_type q = Some TCommentBlock /\ p_header q = None /\ no_open_reference q) as (Oq & Hq & Qq).
    { assert (exists q0, p_header q0 = None /\ p_open_type q0 = None /\ no_open_reference q0 /\ parse_delimited_leaf_block op q0 = Ok q) as (q0 & H0 & O0 & Q0 & E0).
      { destruct (p_header p) as [h|] eqn:Hp.
        - assert (p_istack p = []) as I by (apply Hh; discriminate).
          assert (check_and_move_header w p = Ok (set_header None (match hd_title h with [] => p | _ => set_asg (asg_add_header w (p_asg p) (header_consolidate h) (p_attrs p)) p end))) as C.
          { unfold check_and_move_header, add_inlines_to_block_stack. rewrite I. cbn [bind]. rewrite Hp. destruct (hd_title h); reflexivity. }
          eexists (set_header None _). split; [reflexivity|]. split; [|split; [|rewrite <- E]].
          3:{ symmetry. destruct fuel; cbn [token_into]; rewrite Hp; unfold can_be_in_document_header, is_inline; rewrite Eo; rewrite C; cbn [bind].
              all: unfold pre_dispatch. all: replace (p_open_type _) with (@None token_type) by (cbn; destruct (hd_title h); symmetry; exact O).
              all: unfold dispatch, parse_comment_block; rewrite Eo.
              all: replace (p_open_type _) with (@None token_type) by (cbn; destruct (hd_title h); symmetry; exact O). all: reflexivity. }
          + cbn. destruct (hd_title h); exact O.
          + unfold no_open_reference. cbn. destruct (hd_title h); cbn; now rewrite I.
        - exists p. repeat split; auto. rewrite <- E. symmetry.
          destruct fuel; cbn [token_into]; rewrite Hp; cbn [bind]; unfold pre_dispatch; rewrite O; unfold dispatch, parse_comment_block; now rewrite Eo, O. }
      unfold parse_delimited_leaf_block in E0. rewrite O0, Eo in E0. unfold leaf_from_token in E0. rewrite Eo in E0. cbn [bind] in E0.
      unfold push_block_to_stack in E0. cbn [set_open_type p_in_cont p_open_lines p_bstack p_meta] in E0.
      destruct (p_in_cont q0 && _).
      - destruct (p_bstack q0) as [|l r0]; [discriminate|]. apply bind_ok in E0 as (x & E1 & E2). apply bind_ok in E1 as (y & E3 & E4).
        injection E4 as <-. injection E2 as <-. repeat split; [exact H0|exact Q0].
      - destruct (p_meta q0).
        + apply bind_ok in E0 as (x & E1 & E2). apply bind_ok in E1 as (y & E3 & E4). injection E4 as <-. injection E2 as <-.
          repeat split; [exact H0|exact Q0].
        + cbn [bind] in E0. injection E0 as <-. repeat split; [exact H0|exact Q0]. }
    eexists. intros ts F N. cbn [parse_loop]. rewrite E. cbn [bind].
    destruct (comment_loop ts) with (p := set_last (ttype op) q) as (st & lst & E1); auto.
    { eapply Forall_impl; [|exact F]. intros t. apply comment_passes. }
    rewrite (loop_app _ _ _ _ E1). cbn [parse_loop].
    set (q1 := set_last lst (set_dangling None (set_istack st (set_last (ttype op) q)))).
    replace (token_into w fuel cl q1) with (Ok (set_open_type None (set_force_new true (set_bstack (tl (p_bstack q)) (set_istack [] q1)))) : result pstate).
    2:{ symmetry. destruct fuel; cbn [token_into]; replace (p_header q1) with (@None header) by (symmetry; exact Hq); cbn [bind];
          unfold pre_dispatch; replace (p_open_type q1) with (Some TCommentBlock) by (symmetry; exact Oq); rewrite Ec;
          replace (tt_eqb TCommentBlock TCommentBlock) with true by reflexivity;
          unfold dispatch, parse_comment_block; rewrite Ec; replace (p_open_type q1) with (Some TCommentBlock) by (symmetry; exact Oq); reflexivity. }
    cbn [bind].
    replace (set_last (ttype cl) (set_open_type None (set_force_new true (set_bstack (tl (p_bstack q)) (set_istack [] q1)))))
      with (set_last (ttype cl) (set_open_type None (set_force_new true (set_bstack (tl (p_bstack q)) (set_istack [] (set_dangling None q)))))) by reflexivity.
    reflexivity.
  Qed.
End Verbatim.

(** ** Whole documents *)
Lemma scan_is_stream src files ts : scan_with src files = Ok ts -> scan_stream src files = (ts, Ok tt).
Proof.
  unfold scan_with, scan_stream. generalize (List.length src + 2) (new_with_stack src files). intros f.
  revert ts. induction f as [|f IH]; intros ts sc H; [discriminate|]. cbn [collect stream_from] in *.
  apply bind_ok in H as ([o sc'] & E & H). rewrite E. destruct o as [t|].
  - apply bind_ok in H as (ts' & E' & H). injection H as <-. now rewrite (IH _ _ E').
  - now injection H as <-.
Qed.

Lemma verbatim_document w fuel origin resolve src ty n op ts cl nl eof : verbatim ty n ->
  scan src = Ok (op :: ts ++ [cl; nl; eof]) -> no_tags ts ->
  ttype op = ty -> ttype cl = ty -> Forall (content ty) ts -> ts <> [] -> ttype nl = TNewLineChar -> ttype eof = TEof ->
  exists text a loc loc', src = lexeme op ++ text ++ lexeme cl ++ lexeme nl ++ lexeme eof
    /\ parse w fuel origin resolve src = Ok a
    /\ a_blocks a = [Blk (HLeaf n FmDelimited (Some (token_text op)) [ILit LText false text loc]) None [] loc'].
Proof.
  intros V S T Eo Ec F N En Ee. pose proof (scan_is_stream _ _ _ S) as St.
  assert (no_tags (op :: ts ++ [cl; nl; eof])) as T'.
  { unfold no_tags. constructor; [|apply Forall_app; split; [exact T|]].
    - intros [K|K]; destruct V; congruence.
    - repeat constructor; intros [K|K]; destruct V; congruence. }
  pose proof (scan_lossless _ _ _ S T') as L. unfold text_of in L. cbn [map List.concat] in L. rewrite map_app, concat_app in L.
  cbn [map List.concat] in L. rewrite app_nil_r in L.
  exists (source_text ts).
  set (p0 := set_asg new_asg (new_parser origin resolve)).
  destruct (verbatim_block w fuel ty n op ts cl p0 V Eo Ec F N) as (loc & loc' & m & Em & E); [repeat split|].
  rewrite (Em eq_refl) in E.
  unfold parse, parse_with. rewrite St. cbn [fst snd]. fold p0.
  replace (op :: ts ++ [cl; nl; eof]) with ((op :: ts ++ [cl]) ++ [nl; eof]) by (cbn; now rewrite <- app_assoc).
  rewrite (loop_app _ _ _ _ _ _ E). clear E.
  eexists _, loc, _. split; [now rewrite <- L|].
  assert (exists q, parse_loop w fuel [nl; eof] (set_last ty (set_force_new false (set_meta None
              (set_bstack (Blk (HLeaf n FmDelimited (Some (token_text op)) [ILit LText false (source_text ts) loc]) None [] loc'
                           :: p_bstack p0) p0)))) = Ok q
    /\ q = set_last TEof (set_dangling (Some nl) (set_bstack
         [Blk (HLeaf n FmDelimited (Some (token_text op)) [ILit LText false (source_text ts) loc]) None [] loc'] p0))) as (q & E2 & Eq).
  { eexists. split; [|reflexivity].
    destruct V, fuel; cbn [parse_loop token_into p0 set_asg new_parser set_last set_force_new set_meta set_bstack p_header]; cbn [bind];
    unfold pre_dispatch; cbn [p_open_type]; rewrite En, Ee; unfold dispatch; rewrite En, Ee; reflexivity. }
  rewrite E2, Eq. cbn [bind]. destruct V; (split; [reflexivity|]); cbn; reflexivity.
Qed.

Lemma comment_document w fuel origin resolve s1 s2 pre op ts ts' cl rest p :
  scan s1 = Ok (pre ++ op :: ts ++ cl :: rest) -> scan s2 = Ok (pre ++ op :: ts' ++ cl :: rest) ->
  ttype op = TCommentBlock -> ttype cl = TCommentBlock ->
  Forall (fun t => ttype t <> TCommentBlock) ts -> Forall (fun t => ttype t <> TCommentBlock) ts' -> ts <> [] -> ts' <> [] ->
  parse_loop w fuel pre (new_parser origin resolve) = Ok p ->
  p_open_type p = None -> no_open_reference p -> (p_header p <> None -> p_istack p = []) ->
  parse w fuel origin resolve s1 = parse w fuel origin resolve s2.
Proof.
  intros S1 S2 Eo Ec F F' N N' P O Q H. apply scan_is_stream in S1, S2. unfold parse, parse_with. rewrite S1, S2. cbn [fst snd].
  change (set_asg new_asg (new_parser origin resolve)) with (new_parser origin resolve).
  rewrite !(loop_app _ _ _ _ _ _ P). now rewrite (comment_same w fuel op cl ts ts' rest p).
Qed.

Lemma comment_line w fuel t p : ttype t = TComment ->
  (forall ty, p_open_type p = Some ty -> ty = TQuoteVerseBlock) -> token_into w fuel t p = Ok p.
Proof.
  intros E O.
  assert (pre_dispatch t p = PreGo) as G.
  { unfold pre_dispatch. destruct (p_open_type p) as [ty|] eqn:Eo; [|reflexivity]. rewrite (O _ eq_refl). unfold is_inline. now rewrite E. }
  destruct fuel; cbn [token_into]; unfold can_be_in_document_header, is_inline; rewrite E;
    (destruct (p_header p); cbn [bind]; rewrite G; unfold dispatch; now rewrite E).
Qed.
