(** * An invariant of the parser

    The parser is gone through once, for an invariant with several parameters; the
    properties are instances of it.  [PL] is a property of position lists, closed
    under [reconcile]; [SK] a property of the shape of blocks, closed under growth;
    [TOK] what is known of the tokens; [FS] of the stack of included files; [AV] of
    attribute values. *)
From Verif Require Import Base World Location Token Scanner Meta Inline Block Asg Parser SpecGraph GraphLemmas.
Local Open Scope char_scope.
Local Open Scope nat_scope.
Local Arguments reconcile : simpl never.
Local Arguments token_locations : simpl never.
Local Arguments Nat.ltb : simpl never.
Local Arguments trim : simpl never.

Definition optP {A} (P : A -> Prop) (o : option A) : Prop := match o with Some x => P x | None => True end.

Section Invariant.
  Variable w : world.
  Variable origin : bytes.
  Variable PL PE : list location -> Prop.
  Variable TOK : token -> Prop.
  Variable FS : list bytes -> Prop.
  Variable TIN : list bytes -> token -> Prop.
  Variable AV : bytes -> Prop.
  Variable SK : skel -> Prop.

  Hypothesis PL_nil : PL [].
  Hypothesis PL_start : PL [mkLoc 1 1 []].
  Hypothesis PL_rec : forall a b, PL a -> PL b -> PL (reconcile a b).
  Hypothesis TOK_locs : forall t, TOK t -> PL (token_locations t).
  Hypothesis TOK_first : forall t, TOK t -> PL [first_location t].
  Hypothesis TOK_pe : forall t, TOK t -> PE (token_locations t).
  Hypothesis PE_use : forall l fs, PE l -> FS fs ->
    let '(line, sc, ec) := destructure_inline_locations l in PL [mkLoc line sc fs; mkLoc line ec fs].
  Hypothesis TOK_ref : forall t v, TOK t -> ttype t = TAttributeReference -> AV v ->
    PL [first_location t; mkLoc (tline t) (startcol t + List.length v - 1) (tfiles t)].
  Hypothesis TOK_attr : forall t p, TOK t -> ttype t = TAttribute ->
    Forall (fun kv => AV (snd kv)) (p_attrs p) ->
    post (parse_attribute w t p) (fun p' => Forall (fun kv => AV (snd kv)) (p_attrs p')).
  Hypothesis INC : forall fs t target m path content, FS fs -> TOK t -> TIN fs t -> ttype t = TInclude ->
    target_and_attrs_from_token w t = Ok (target, m) ->
    w_canon w (resolve_path origin fs target) = Some path -> w_read w path = Some content ->
    FS (fs ++ [target]) /\ Forall (fun x => TOK x /\ TIN (fs ++ [target]) x) (fst (scan_stream content (fs ++ [target]))).
  Hypothesis CELL : forall fs t contents, FS fs -> TOK t -> TIN fs t -> ttype t = TTableCell ->
    slice (token_text t) 1 (List.length (token_text t)) = (Ok contents : result bytes) ->
    Forall (fun x => TOK (update_token_loc_offsets_by x (tline t) (startcol t))
                     /\ TIN fs (update_token_loc_offsets_by x (tline t) (startcol t))) (fst (scan_stream contents [])).
  Hypothesis SK_fresh : forall s, match s with KSection l => 1 <= l <= 4 | _ => True end -> SK (Node s []).
  Hypothesis SK_grow : forall a n a', SK a -> SK n ->
    (forall l l', section_level (root a) = Some l -> section_level (root n) = Some l' -> l < l') ->
    grows a n a' -> SK a'.

  (** ** Metadata, inlines, blocks *)
  Definition DM (m : metadata) : Prop := PL (m_loc m) /\ NoDup (map fst (m_attrs m)).
  Inductive DI : inline -> Prop :=
  | DI_span v f l m loc o :
      PL loc -> optP DM m -> (l = [] -> o = true -> v <> SFootnote -> PE loc) -> Forall DI l ->
      DI (ISpan v f l m loc o)
  | DI_ref v t l m loc : PL loc -> optP DM m -> Forall DI l -> DI (IRef v t l m loc)
  | DI_lit n k v loc : PL loc -> DI (ILit n k v loc)
  | DI_break loc : PL loc -> DI (IBreak loc).
  Definition head_inlines (h : head) : list inline :=
    match h with
    | HSection _ t _ => t
    | HListItem _ p => p
    | HDListItem t p => t ++ p
    | HMacro _ c => c
    | HLeaf _ _ _ l => l
    | HParent _ _ _ t => t
    | HCell l => l
    | HList _ | HDList | HBreak _ => []
    end.
  Inductive DB : block -> Prop :=
  | DB_blk h m k loc : Forall DI (head_inlines h) -> optP DM m -> Forall DB k -> PL loc -> DB (Blk h m k loc).
  Definition GB (b : block) : Prop := DB b /\ SK (skel_of b).

  Lemma DM_from m m' : meta_from m m' -> DM m -> DM m'.
  Proof. intros [E H] [H1 H2]. split; [rewrite E; exact H1 | auto]. Qed.
  Lemma DM_default : DM default_metadata.
  Proof. split; [exact PL_nil | constructor]. Qed.
  Lemma DM_role r : DM (meta_with_role r).
  Proof. split; [exact PL_nil | constructor]. Qed.

  Lemma process_one_from m n a : post (process_one m n a) (meta_from m).
  Proof.
    unfold process_one. apply post_any. intros [[key values]|] _.
    - destruct (beqb key _); apply post_ok; [now apply meta_from_same | apply meta_from_insert].
    - assert (post (process_attribute m n a) (meta_from m)) as K.
      { unfold process_attribute. destruct (m_type m) as [[]|];
        repeat match goal with
        | |- post (if ?b then _ else _) _ => destruct b
        | |- post (bind _ _) _ => apply post_any; intros ? _
        | |- post (Ok m) _ => apply post_ok, meta_from_refl
        | |- post (Ok (m_insert _ _ m)) _ => apply post_ok, meta_from_insert
        | |- post Panic _ => apply post_panic
        end. }
      destruct (_ && _); [|destruct a; [apply post_ok, meta_from_refl | exact K]].
      apply post_any. intros hd _. destruct (memb _ _); [apply post_ok; now apply meta_from_same | exact K].
  Qed.
  Lemma process_from_from l : forall m n, post (process_from m n l) (meta_from m).
  Proof.
    induction l as [|a l IH]; intros m n; cbn [process_from]; [apply post_ok, meta_from_refl|].
    eapply post_bind; [apply process_one_from|]. intros m' H. eapply post_mono; [apply IH|].
    intros m'' H'. eapply meta_from_trans; eassumption.
  Qed.
  Lemma block_meta_new_ok t : TOK t -> post (new_block_meta_from_token w t) DM.
  Proof.
    intros H. unfold new_block_meta_from_token.
    assert (DM (mkMeta [] [] [] false None (token_locations t))) as D by (split; [now apply TOK_locs | constructor]).
    destruct (ttype t); apply post_any; intros l _;
    try (eapply post_mono; [apply process_from_from|]; intros m K; eapply DM_from; eassumption).
    apply post_ok. eapply DM_from; [apply meta_from_insert | exact D].
  Qed.
  Lemma block_meta_add_ok m t : DM m -> post (add_metadata_from_token w m t) DM.
  Proof.
    intros D. unfold add_metadata_from_token.
    destruct (ttype t); apply post_any; intros l _;
    try (eapply post_mono; [apply process_from_from|]; intros m' K; eapply DM_from; eassumption).
    destruct (mhas _ _); apply post_ok; [exact D|]. eapply DM_from; [apply meta_from_insert | exact D].
  Qed.
  Lemma inline_meta_ok t : TOK t -> post (new_inline_meta_from_token t) DM.
  Proof.
    intros H. unfold new_inline_meta_from_token. apply post_any. intros l _. apply post_ok.
    split; [now apply TOK_locs | constructor].
  Qed.
  Lemma target_attrs_ok t : post (target_and_attrs_from_token w t) (fun x => optP DM (snd x)).
  Proof.
    unfold target_and_attrs_from_token. apply post_any. intros rest _. apply post_any. intros attrs _.
    destruct attrs as [|c attrs]; [apply post_ok; exact I|].
    eapply post_bind; [apply process_from_from|]. intros m H. apply post_ok. cbn.
    eapply DM_from; [exact H|]. split; [exact PL_nil | constructor].
  Qed.
  Lemma add_other_ok m i : DM m -> DM (add_metadata_from_other m i).
  Proof.
    intros [H1 H2]. split; [exact H1|]. cbn. revert H2. generalize (m_attrs m).
    induction (m_attrs i) as [|kv l IH]; intros a H; cbn; [exact H|]. apply IH. now apply minsert_nodup.
  Qed.
  Lemma macro_meta_ok m i : optP DM m -> DM i -> DM (macro_meta m i).
  Proof. destruct m; cbn; [intros; now apply add_other_ok | auto]. Qed.

  (** inlines *)
  Lemma DI_locs i : DI i -> PL (inline_locs i).
  Proof. destruct 1; assumption. Qed.
  Lemma lit_text_ok t : PL (token_locations t) -> DI (lit_text t).
  Proof. intros H. now apply DI_lit. Qed.
  Lemma lit_pass_ok t : PL (token_locations t) -> DI (lit_pass t).
  Proof. intros H. now apply DI_lit. Qed.
  Lemma lit_charref_ok t : PL (token_locations t) -> DI (lit_charref t).
  Proof. intros H. now apply DI_lit. Qed.
  Lemma lit_append_ok i v l : DI i -> PL l -> DI (lit_append i v l).
  Proof. destruct 1; cbn; intros; try (econstructor; eassumption). apply DI_lit. now apply PL_rec. Qed.
  Lemma inline_push_ok i c : DI i -> DI c -> post (inline_push i c) DI.
  Proof.
    destruct 1; intros Hc; cbn; try apply post_panic; apply post_ok; constructor; auto.
    - intros K. destruct l; discriminate.
    - apply Forall_app; auto.
    - apply Forall_app; auto.
  Qed.
  Lemma inline_push_macro i c i' : inline_push i c = Ok i' -> is_macro i' = is_macro i.
  Proof. destruct i; cbn; intros [= <-]; reflexivity. Qed.
  Lemma inline_push_all_ok l : forall i, DI i -> is_macro i = true -> Forall DI l ->
    post (inline_push_all i l) (fun i' => DI i' /\ is_macro i' = true).
  Proof.
    induction l as [|c l IH]; intros i Hi Hm Hl; cbn [inline_push_all]; [apply post_ok; auto|].
    inversion Hl. subst. apply post_any. intros i' E. apply IH; auto.
    - exact (inline_push_ok _ _ Hi H1 _ E).
    - rewrite <- Hm. eapply inline_push_macro, E.
  Qed.
  Lemma consolidate_from_token_ok i t : DI i -> is_macro i = true -> TOK t -> post (consolidate_from_token i t) DI.
  Proof.
    destruct 1; cbn; intros Hm Ht; try apply post_panic; apply post_ok; constructor; auto.
    intros _ _ K. elim K. destruct v; try discriminate. reflexivity.
  Qed.
  Lemma close_rec_ok i l : DI i -> PL l -> post (inline_close (inline_reconcile i l)) DI.
  Proof.
    destruct 1; cbn; intros; try apply post_panic. apply post_ok. constructor; auto. discriminate.
  Qed.
  Lemma add_meta_ok i m : DI i -> DM m -> post (inline_add_metadata i m) DI.
  Proof. destruct 1; cbn; intros; try apply post_panic. apply post_ok. now constructor. Qed.
  Lemma prepend_ok i v o : DI i -> optP PL o -> post (prepend_literal i v o) DI.
  Proof.
    destruct 1; cbn; intros; try apply post_panic. apply post_ok. constructor.
    destruct o; auto.
  Qed.
  Lemma snoc_ne {A} (l : list A) x : l ++ [x] <> [].
  Proof. destruct l; discriminate. Qed.
  Lemma span_add_ok s : forall i, DI s -> DI i -> DI (span_add s i).
  Proof.
    induction s as [v f l m loc o IH | | | ] using inline_ind2; intros i Hs Hi; cbn [span_add]; auto.
    inversion Hs as [? ? ? ? ? ? H1 H2 H3 H4 | | |]. subst.
    pose proof (PL_rec _ _ H1 (DI_locs _ Hi)) as Hl.
    assert (DI (ISpan v f (l ++ [i]) m (reconcile loc (inline_locs i)) o)) as App.
    { constructor; auto; [intros K; now apply snoc_ne in K | apply Forall_app; auto]. }
    destruct (last_opt l) as [x|] eqn:El; [|exact App].
    apply last_opt_inv in El as [k ->]. apply Forall_app in IH as [_ IH]. apply Forall_inv in IH.
    pose proof H4 as H4'. apply Forall_app in H4' as [Hk Hx]. apply Forall_inv in Hx.
    assert (forall g, DI (g x) -> DI (ISpan v f (upd_last' g (k ++ [x])) m (reconcile loc (inline_locs i)) o)) as Upd.
    { intros g Hg. rewrite upd_last'_snoc. constructor; auto; [intros K; now apply snoc_ne in K | apply Forall_app; auto]. }
    destruct x as [v' f' l' m' loc' o' | | n' k' v' loc' |]; try exact App.
    - destruct o'; [|exact App]. apply Upd, IH; auto.
    - destruct i; try exact App. apply Upd. apply lit_append_ok; [exact Hx | now inversion Hi].
  Qed.
  Lemma extract_children_ok i : DI i -> post (extract_children i) (Forall DI).
  Proof.
    induction i as [v f l m loc o IH | | | ] using inline_ind2; intros HD; try apply post_panic.
    inversion HD as [? ? ? ? ? ? H1 H2 H3 H4 | | |]. subst. clear HD H3.
    cbn [extract_children]. induction H4 as [|x r Hx Hr IHr]; [apply post_ok; constructor|].
    inversion IH as [|? ? IHx IHl]. subst.
    apply (post_bind _ _ _ (Forall DI)).
    - destruct (is_open x); [|apply post_ok; auto].
      apply post_any. intros lit _. eapply post_bind; [now apply IHx|]. intros [|k ks] Hk; [apply post_panic|].
      inversion Hk. subst. eapply post_bind; [apply prepend_ok; [assumption | exact I]|].
      intros k' Hk'. apply post_ok. constructor; auto.
    - intros hd Hhd. eapply post_bind; [now apply IHr|]. intros tl Htl. apply post_ok. apply Forall_app; auto.
  Qed.
  Lemma span_from_token_ok t : TOK t -> post (span_from_token t) DI.
  Proof.
    intros H. unfold span_from_token.
    assert (forall v f, DI (new_span v f (token_locations t))) as N.
    { intros v f. constructor; auto; exact I. }
    destruct (ttype t); try apply post_panic; try (apply post_ok, N).
    apply post_any. intros body _. apply post_ok. apply DI_span; [auto | apply DM_role | discriminate|].
    constructor; [|constructor]. apply DI_lit. auto.
  Qed.
  Lemma ref_text_ok i t b : DI i -> PL (token_locations t) -> post (ref_text_from_token i t b) DI.
  Proof.
    intros H Ht. unfold ref_text_from_token. destruct i as [| v tg l m loc | |]; try apply post_panic.
    inversion H as [| ? ? ? ? ? H1 H2 H3 | |]. subst.
    destruct (last_opt l) as [x|] eqn:El.
    - apply last_opt_inv in El as [k ->]. pose proof H3 as K. apply Forall_app in K as [Hk Hx]. apply Forall_inv in Hx.
      assert (forall g, DI (g x) -> DI (IRef v tg (upd_last' g (k ++ [x])) m loc)) as Upd.
      { intros g Hg. rewrite upd_last'_snoc. constructor; auto. apply Forall_app; auto. }
      destruct x; try apply post_panic; apply post_ok, Upd.
      + apply span_add_ok; [exact Hx | now apply lit_pass_ok].
      + now apply lit_append_ok.
    - apply post_ok. constructor; auto. apply Forall_app; auto using lit_pass_ok.
  Qed.
  Lemma new_xref_ok t : TOK t -> post (new_xref t) DI.
  Proof. intros H. unfold new_xref. apply post_any. intros s _. apply post_ok. constructor; auto; exact I. Qed.
  Lemma xref_std_ok ids i : Forall (fun kv => Forall DI (snd kv)) ids -> DI i -> DI (xref_standardize ids i).
  Proof.
    intros Hi H. destruct H as [| v t l m loc H1 H2 H3 | |]; try (constructor; assumption).
    cbn. destruct v; try (constructor; assumption).
    destruct (mget t ids) as [txt|] eqn:E; constructor; auto. eapply (mget_forall (Forall DI)); eassumption.
  Qed.

  (** blocks *)
  Lemma last_locs_ok k : Forall DB k -> optP PL (last_locs k).
  Proof.
    intros H. unfold last_locs. destruct (last_opt k) as [x|] eqn:E; [|exact I].
    apply last_opt_inv in E as [k0 ->]. apply Forall_app in H as [_ H]. apply Forall_inv in H. now destruct H.
  Qed.
  Lemma last_inline_locs_ok l : Forall DI l -> optP PL (last_inline_locs l).
  Proof.
    intros H. unfold last_inline_locs. destruct (last_opt l) as [x|] eqn:E; [|exact I].
    apply last_opt_inv in E as [k0 ->]. apply Forall_app in H as [_ H]. apply Forall_inv in H. now apply DI_locs.
  Qed.
  Lemma rec_opt_ok l o : PL l -> optP PL o -> PL (rec_opt l o).
  Proof. destruct o; cbn; auto. Qed.
  Lemma consolidate_DB b : DB b -> DB (consolidate_locations b).
  Proof.
    induction b as [h m k loc IH] using block_ind2. intros H. inversion H as [? ? ? ? H1 H2 H3 H4]. subst.
    pose proof (last_locs_ok _ H3) as Hk.
    assert (forall l, PL l -> DB (Blk h m k l)) as N by (intros; now constructor).
    destruct h; cbn [consolidate_locations head_inlines] in *;
    try apply N; auto using rec_opt_ok, last_inline_locs_ok.
    - assert (Forall DB (map consolidate_locations k)) as K.
      { apply Forall_map. rewrite Forall_forall in *. intros x Hx. apply IH; auto. }
      constructor; auto using rec_opt_ok, last_locs_ok.
    - destruct (last_locs k); apply N; auto using rec_opt_ok, last_inline_locs_ok.
    - assert (Forall DB (map consolidate_locations k)) as K.
      { apply Forall_map. rewrite Forall_forall in *. intros x Hx. apply IH; auto. }
      constructor; auto using rec_opt_ok, last_locs_ok.
    - apply Forall_app in H1 as [_ H1]. destruct (last_locs k); apply N; auto using rec_opt_ok, last_inline_locs_ok.
  Qed.
  Lemma push_block_DB b : forall nb, DB b -> DB nb -> post (push_block b nb) DB.
  Proof.
    induction b as [h m k loc IH] using block_ind2. intros nb H Hn. inversion H as [? ? ? ? H1 H2 H3 H4]. subst.
    cbn [push_block].
    apply (post_bind _ _ _ (Forall DB)).
    - assert (post (Ok (k ++ [nb]) : result (list block)) (Forall DB)) as App by (apply post_ok; apply Forall_app; auto).
      destruct h; try exact App; try apply post_err.
      + destruct (is_section nb); [|exact App]. destruct (last_opt k) as [x|] eqn:El; [|exact App].
        destruct (takes_block x nb); [|exact App]. apply last_opt_inv in El as [k0 ->].
        apply Forall_app in IH as [_ IH]. apply Forall_inv in IH.
        apply Forall_app in H3 as [Hk Hx]. apply Forall_inv in Hx.
        rewrite upd_last_snoc. eapply post_bind; [now apply IH|]. intros y Hy. apply post_ok. apply Forall_app; auto.
      + destruct (is_list_item nb).
        * destruct (last_opt k) as [x|] eqn:El; [|apply post_err].
          destruct (is_list x); [|apply post_err]. apply last_opt_inv in El as [k0 ->].
          apply Forall_app in IH as [_ IH]. apply Forall_inv in IH.
          apply Forall_app in H3 as [Hk Hx]. apply Forall_inv in Hx.
          rewrite upd_last_snoc. apply (post_bind _ _ _ DB).
          -- eapply post_bind; [now apply IH|]. intros y Hy. apply post_ok. now apply consolidate_DB.
          -- intros y Hy. apply post_ok. apply Forall_app; auto.
        * destruct (_ && _); [apply post_err | exact App].
    - intros k' Hk'. apply post_ok. apply consolidate_DB. now constructor.
  Qed.
  Lemma is_section_some b l : section_level (root (skel_of b)) = Some l -> is_section b = true.
  Proof. intros H. apply is_section_level. congruence. Qed.
  Lemma push_block_ok b nb : GB b -> GB nb -> (is_section b = true -> is_section nb = true -> takes_block b nb = true) ->
    post (push_block b nb) (fun b' => GB b' /\ b_head b' = b_head b).
  Proof.
    intros [D K] [D' K'] Hs b' E. destruct (push_block_grows _ _ _ E) as [Eh G].
    split; [|exact Eh]. split; [exact (push_block_DB _ _ D D' _ E)|]. eapply SK_grow; [exact K | exact K' | | exact G].
    intros l l' E1 E2. specialize (Hs (is_section_some _ _ E1) (is_section_some _ _ E2)).
    apply takes_admits in Hs.
    destruct (root (skel_of b)); try discriminate. destruct (root (skel_of nb)); try discriminate.
    injection E1 as <-. injection E2 as <-. exact Hs.
  Qed.
  Lemma push_inlines_ok l : forall b, Forall DI l -> GB b -> post (push_inlines b l) (fun b' => GB b' /\ is_section b' = is_section b).
  Proof.
    intros b Hl [D K] b' E. pose proof (push_inlines_skel _ _ _ E) as Es.
    split; [|now apply is_section_skel]. split; [|now rewrite Es]. clear K Es. revert b b' D E.
    induction Hl as [|i l Hi Hl IH]; intros b b' D E; cbn in E; [now injection E as <-|].
    destruct (push_inline b i) as [b1| | | |] eqn:E1; try discriminate. cbn [bind] in E. eapply IH; [|exact E].
    destruct D as [h m k loc H1 H2 H3 H4]. destruct h; cbn in E1; try discriminate; injection E1 as <-; constructor; cbn [head_inlines] in *; auto;
    rewrite ?app_assoc; apply Forall_app; auto.
  Qed.
  Lemma add_metadata_ok b m : GB b -> DM m -> post (add_metadata b m) (fun b' => GB b' /\ is_section b' = is_section b).
  Proof.
    intros [D K] Hm b' E. pose proof (add_metadata_skel _ _ _ E) as Es.
    split; [|now apply is_section_skel]. split; [|now rewrite Es].
    unfold add_metadata in E. destruct (meta_is_empty m); [now injection E as <-|].
    destruct D as [h m0 k loc H1 H2 H3 H4]. destruct h; try discriminate; injection E as <-; now constructor.
  Qed.
  Lemma add_locations_ok b l : GB b -> PL l -> post (add_locations b l) (fun b' => GB b' /\ is_section b' = is_section b).
  Proof.
    intros [D K] Hl b' E. pose proof (add_locations_skel _ _ _ E) as Es.
    split; [|now apply is_section_skel]. split; [|now rewrite Es].
    destruct D as [h m0 k loc H1 H2 H3 H4]. destruct h; try discriminate; injection E as <-; constructor; auto.
  Qed.
  Lemma consolidate_GB b : GB b -> GB (consolidate_locations b).
  Proof. intros [D K]. split; [now apply consolidate_DB | now rewrite skel_consolidate]. Qed.
  Lemma is_section_consolidate b : is_section (consolidate_locations b) = is_section b.
  Proof. apply is_section_skel, skel_consolidate. Qed.
  Lemma table_info_ok b : GB b -> post (consolidate_table_info b) (fun b' => GB b' /\ is_section b' = is_section b).
  Proof.
    intros [D K] b' E. pose proof (table_info_skel _ _ E) as Es.
    split; [|now apply is_section_skel]. split; [|now rewrite Es].
    destruct D as [h m k loc H1 H2 H3 H4]. destruct h; try discriminate.
    apply table_info_inv in E as [-> | (x & -> & Hx)]; constructor; auto. cbn.
    eapply DM_from; [exact Hx|]. destruct m; [exact H2 | apply DM_default].
  Qed.
  Lemma fresh_GB h loc : Forall DI (head_inlines h) -> PL loc -> match shape_of h with KSection l => 1 <= l <= 4 | _ => True end ->
    forall m, optP DM m -> GB (Blk h m [] loc).
  Proof. intros H1 H2 H3 m H4. split; [constructor; auto | apply (SK_fresh _ H3)]. Qed.
  Lemma leaf_from_token_ok t : TOK t -> post (leaf_from_token t) (fun b => GB b /\ is_section b = false).
  Proof.
    intros H. unfold leaf_from_token. destruct (ttype t); try apply post_err; apply post_ok; split; auto;
    apply fresh_GB; cbn; auto; constructor.
  Qed.
  Lemma parent_from_token_ok t : TOK t -> post (parent_from_token t) (fun b => GB b /\ is_parent b = true /\ b_kids b = []).
  Proof.
    intros H. unfold parent_from_token. destruct (ttype t); try apply post_err; apply post_ok; split; auto;
    apply fresh_GB; cbn; auto; constructor.
  Qed.
  Lemma set_title_ok b ti : GB b -> Forall DI ti -> GB (set_block_title b ti).
  Proof.
    intros [D K] H. split; [|now rewrite set_title_skel].
    destruct D as [h m k loc H1 H2 H3 H4]. destruct h; cbn [set_block_title]; constructor; auto.
  Qed.
  Lemma is_parent_title b ti : is_parent (set_block_title b ti) = is_parent b.
  Proof. destruct b as [[]]; reflexivity. Qed.
  Lemma parent_not_section b : is_parent b = true -> is_section b = false.
  Proof. destruct b as [[]]; cbn; congruence. Qed.
  Lemma GB_locs b : GB b -> PL (b_locs b).
  Proof. intros [[] _]; auto. Qed.
  Lemma id_hashes_ok b : DB b -> Forall (fun kv => Forall DI (snd kv)) (id_hashes b).
  Proof.
    induction b as [h m k loc IH] using block_ind2. intros H. inversion H as [? ? ? ? H1 H2 H3 H4]. subst.
    cbn [id_hashes].
    match goal with |- Forall _ (_ ?own k) => set (o := own) end.
    assert (Forall (fun kv => Forall DI (snd kv)) o) as Ho.
    { subst o. destruct (block_id _); [|constructor]. constructor; [|constructor]. cbn.
      destruct h; cbn in *; auto. }
    clearbody o. clear H H1. revert o Ho. induction k as [|x k IHk]; intros o Ho; [exact Ho|].
    inversion IH. inversion H3. subst. cbn. apply IHk; auto. apply (mextend_forall (Forall DI)); auto.
  Qed.
  Lemma map_inlines_ok f b : (forall i, DI i -> DI (f i)) -> GB b -> GB (map_inlines f b).
  Proof.
    intros Hf [D K]. split; [|now rewrite skel_map_inlines]. clear K.
    induction b as [h m k loc IH] using block_ind2. inversion D as [? ? ? ? H1 H2 H3 H4]. subst.
    cbn [map_inlines]. constructor; auto.
    - assert (forall l, Forall DI l -> Forall DI (map f l)) as M
        by (intros l Hl; apply Forall_map; eapply Forall_impl; [exact Hf | exact Hl]).
      destruct h; cbn in *; auto. apply Forall_app in H1 as [Ha Hb]. apply Forall_app; auto.
    - apply Forall_map. rewrite Forall_forall in *. auto.
  Qed.

  (** ** The state *)
  Definition top_sec (st : list block) : bool := match st with x :: _ => is_section x | [] => false end.
  Fixpoint apart (st : list block) : Prop :=
    match st with
    | [] => True
    | b :: r => (is_section b = true -> top_sec r = false) /\ apart r
    end.
  Definition HI (h : header) : Prop := Forall DI (hd_title h) /\ PL (hd_loc h).
  Definition AI (a : asg) : Prop :=
    Forall GB (a_blocks a) /\ Forall (fun kv => Forall DI (snd kv)) (a_ids a) /\ optP HI (a_header a)
    /\ optP (fun l => NoDup (map fst l)) (a_attrs a) /\ PL (a_loc a).
  Definition AM (l : list (bytes * bytes)) : Prop := Forall (fun kv => AV (snd kv)) l /\ NoDup (map fst l).
  Record inv (st : list block) (il : list inline) (title : option (list inline)) (meta : option metadata)
    (dang : option token) (hd : option header) (attrs : list (bytes * bytes)) (files : list bytes) (a : asg) : Prop :=
    mkInv { v_st : Forall GB st; v_il : Forall DI il; v_title : optP (Forall DI) title; v_meta : optP DM meta;
            v_dang : optP TOK dang; v_hd : optP HI hd; v_attrs : AM attrs;
            v_files : FS files; v_asg : AI a }.
  Definition Inv (p : pstate) : Prop :=
    inv (p_bstack p) (p_istack p) (p_title p) (p_meta p) (p_dangling p) (p_header p) (p_attrs p) (p_files p) (p_asg p).
  Definition frame (p p' : pstate) : Prop :=
    p_files p' = p_files p /\ p_origin p' = origin /\ p_resolve p' = p_resolve p.
  (** without and with the separation of sections on the stack *)
  Definition St0 (p0 p : pstate) : Prop := Inv p /\ frame p0 p.
  Definition St (p0 p : pstate) : Prop := St0 p0 p /\ apart (p_bstack p).

  Lemma apart_push b r : apart r -> (is_section b = true -> top_sec r = false) -> apart (b :: r).
  Proof. intros; split; auto. Qed.
  Lemma apart_top l l' r : apart (l :: r) -> is_section l' = is_section l -> apart (l' :: r).
  Proof. intros [H H'] E. split; [rewrite E; exact H | exact H']. Qed.

  (** setters *)
  Ltac setter := intros [[] F] ?; split; [constructor; cbn; assumption | exact F].
  Lemma s_bstack p0 p v : St0 p0 p -> Forall GB v -> St0 p0 (set_bstack v p).
  Proof. setter. Qed.
  Lemma s_istack p0 p v : St0 p0 p -> Forall DI v -> St0 p0 (set_istack v p).
  Proof. setter. Qed.
  Lemma s_title p0 p v : St0 p0 p -> optP (Forall DI) v -> St0 p0 (set_title v p).
  Proof. setter. Qed.
  Lemma s_meta p0 p v : St0 p0 p -> optP DM v -> St0 p0 (set_meta v p).
  Proof. setter. Qed.
  Lemma s_dangling p0 p v : St0 p0 p -> optP TOK v -> St0 p0 (set_dangling v p).
  Proof. setter. Qed.
  Lemma s_header p0 p v : St0 p0 p -> optP HI v -> St0 p0 (set_header v p).
  Proof. setter. Qed.
  Lemma s_asg p0 p v : St0 p0 p -> AI v -> St0 p0 (set_asg v p).
  Proof. setter. Qed.
  Lemma i_st p0 p : St0 p0 p -> Forall GB (p_bstack p).
  Proof. now intros [[] _]. Qed.
  Lemma i_il p0 p : St0 p0 p -> Forall DI (p_istack p).
  Proof. now intros [[] _]. Qed.
  Lemma i_title p0 p : St0 p0 p -> optP (Forall DI) (p_title p).
  Proof. now intros [[] _]. Qed.
  Lemma i_meta p0 p : St0 p0 p -> optP DM (p_meta p).
  Proof. now intros [[] _]. Qed.
  Lemma i_dang p0 p : St0 p0 p -> optP TOK (p_dangling p).
  Proof. now intros [[] _]. Qed.
  Lemma i_hd p0 p : St0 p0 p -> optP HI (p_header p).
  Proof. now intros [[] _]. Qed.
  Lemma i_attrs p0 p : St0 p0 p -> AM (p_attrs p).
  Proof. now intros [[] _]. Qed.
  Lemma i_files p0 p : St0 p0 p -> FS (p_files p).
  Proof. now intros [[] _]. Qed.
  Lemma i_asg p0 p : St0 p0 p -> AI (p_asg p).
  Proof. now intros [[] _]. Qed.

  (** ** Inline stack *)
  Definition Il (p0 p p' : pstate) : Prop := St0 p0 p' /\ p_bstack p' = p_bstack p.
  Lemma add_to_last_ok p0 p b t : St0 p0 p -> PL (token_locations t) -> post (add_to_last_inline b t p) (Il p0 p).
  Proof.
    intros H Ht. unfold add_to_last_inline. pose proof (i_il _ _ H) as HIl.
    set (il := if b then lit_pass t else lit_text t).
    assert (DI il) as Hil by (subst il; destruct b; auto using lit_pass_ok, lit_text_ok).
    assert (forall l, Forall DI l -> Il p0 p (set_istack l p)) as Seti by (intros l Hl; split; [now apply s_istack | reflexivity]).
    assert (post (Ok (set_istack (il :: p_istack p) p) : result pstate) (Il p0 p)) as Push by (apply post_ok, Seti; auto).
    destruct (p_istack p) as [|i r]; [exact Push|]. inversion HIl as [|? ? Hi Hr]. subst.
    destruct i as [| | [] | ]; try exact Push.
    - destruct (p_in_span p); [|exact Push]. apply post_ok, Seti. constructor; [now apply span_add_ok | exact Hr].
    - destruct (negb _); [|exact Push]. eapply post_bind; [now apply ref_text_ok|]. intros i' Hi'. apply post_ok, Seti. auto.
    - apply post_ok, Seti. constructor; [now apply lit_append_ok | exact Hr].
  Qed.
  Lemma split_at_first_inv {A} (f : A -> bool) l a x b :
    split_at_first f l = Some (a, x, b) -> l = a ++ x :: b /\ f x = true.
  Proof.
    revert a. induction l as [|y l IH]; intros a H; cbn in H; [discriminate|].
    destruct (f y) eqn:E.
    - injection H as <- <- <-. auto.
    - destruct (split_at_first f l) as [[[a' x'] b']|]; [|discriminate]. injection H as <- <- <-.
      destruct (IH a' eq_refl) as [-> Hx]. auto.
  Qed.
  Lemma merge_literals_ok l : forall acc, Forall DI acc -> Forall DI l -> Forall DI (merge_literals acc l).
  Proof.
    induction l as [|i l IH]; intros acc Ha Hl; cbn [merge_literals]; [now apply Forall_rev|].
    inversion Hl as [|? ? Hi Hr]. subst.
    assert (Forall DI (merge_literals (i :: acc) l)) as K by auto.
    destruct acc as [|[] acc']; try exact K. destruct i; try exact K.
    inversion Ha. inversion Hi. subst. apply IH; auto. constructor; auto. now apply lit_append_ok.
  Qed.
  Lemma extract_children_nil v f l m loc o : extract_children (ISpan v f l m loc o) = Ok [] -> l = [].
  Proof.
    destruct l as [|x r]; [auto|]. intros H. exfalso. cbn [extract_children] in H.
    assert (forall m : result (list inline), post m (fun h => h <> []) -> forall g,
      bind m (fun h => bind g (fun t => Ok (h ++ t))) <> (Ok [] : result (list inline))) as K.
    { intros m0 Hm g E. destruct m0 as [h| | | |]; try discriminate. cbn [bind] in E.
      destruct g as [t| | | |]; try discriminate. cbn [bind] in E. injection E as E. apply app_eq_nil in E as [-> _].
      now apply (Hm [] eq_refl). }
    revert H. apply K. destruct (is_open x); [|apply post_ok; discriminate].
    apply post_any. intros lit _. apply post_any. intros [|k ks] _; [apply post_panic|].
    apply post_any. intros k' _. apply post_ok. discriminate.
  Qed.
  Lemma dangling_spans_ok p0 p : St0 p0 p -> post (handle_dangling_spans p) (Il p0 p).
  Proof.
    intros H. unfold handle_dangling_spans. pose proof (i_il _ _ H) as HIl.
    destruct (split_at_first is_open (p_istack p)) as [[[above sp] below]|] eqn:Es; [|apply post_ok; split; auto].
    apply split_at_first_inv in Es as [E Ho]. rewrite E in HIl. apply Forall_app in HIl as [Ha Hb].
    inversion Hb as [|? ? Hs Hb']. subst.
    apply post_any. intros lit El. apply post_any. intros children Ec.
    pose proof (extract_children_ok _ Hs _ Ec) as Hc.
    destruct children as [|c cs].
    - destruct Hs as [v f l m loc o H1 H2 H3 H4 | | |]; try discriminate.
      apply extract_children_nil in Ec. cbn in Ho. subst o.
      assert (v <> SFootnote) as Hv by (intros ->; discriminate).
      pose proof (PE_use _ _ (H3 Ec eq_refl Hv) (i_files _ _ H)) as K. cbn [inline_locs].
      destruct (destructure_inline_locations loc) as [[line sc] ec].
      eapply post_mono; [apply add_to_last_ok; [apply s_istack; [exact H | apply Forall_app; auto] | exact K]|].
      intros p' [K1 K2]. split; [exact K1 | exact K2].
    - inversion Hc. subst. eapply post_bind; [apply prepend_ok; [assumption | now apply DI_locs]|].
      intros c' Hc'. apply post_ok. split; [|reflexivity]. apply s_istack; [exact H|].
      apply Forall_rev, merge_literals_ok; [constructor|].
      repeat (apply Forall_app; split); auto using Forall_rev.
  Qed.

  (** ** Block stack *)
  Definition step (sec : bool) (st st' : list block) : Prop :=
    st' = st
    \/ (exists l l' r, st = l :: r /\ st' = l' :: r /\ is_section l' = is_section l)
    \/ (exists b, st' = b :: st /\ is_section b = sec).
  Lemma step_apart sec st st' : step sec st st' -> (sec = true -> top_sec st = false) -> apart st -> apart st'.
  Proof.
    intros [-> | [(l & l' & r & -> & -> & E) | (b & -> & E)]] Hs Ha; [exact Ha | eapply apart_top; eassumption|].
    apply apart_push; [exact Ha|]. now rewrite E.
  Qed.
  Lemma push_to_stack0 p0 p b : St0 p0 p -> GB b -> (is_section b = true -> top_sec (p_bstack p) = false) ->
    post (push_block_to_stack b p) (fun p' => St0 p0 p' /\ step (is_section b) (p_bstack p) (p_bstack p')).
  Proof.
    intros H Hb Hs. unfold push_block_to_stack. pose proof (i_st _ _ H) as HS.
    destruct (_ && _).
    - destruct (p_bstack p) as [|l r] eqn:E; [apply post_err|]. inversion HS as [|? ? Hl Hr]. subst.
      eapply post_bind; [apply push_block_ok; auto; intros K1 K2; cbn in Hs; rewrite (Hs K2) in K1; discriminate|].
      intros l' [Hl' El']. apply post_ok. split; [apply s_bstack; [exact H | auto]|].
      right. left. exists l, l', r. repeat split; auto. now apply is_section_head.
    - destruct (p_meta p) as [m|] eqn:Em.
      + pose proof (i_meta _ _ H) as Hm. rewrite Em in Hm.
        eapply post_bind; [now apply add_metadata_ok|]. intros b' [Hb' Eb']. apply post_ok. split.
        * apply s_bstack; [apply s_meta; [exact H | exact I] | auto].
        * right. right. exists b'. cbn. auto.
      + apply post_ok. split; [apply s_bstack; auto|]. right. right. exists b. cbn. auto.
  Qed.
  Lemma push_to_stack_ns p0 p b : St0 p0 p -> GB b -> is_section b = false ->
    post (push_block_to_stack b p) (fun p' => St0 p0 p' /\ step false (p_bstack p) (p_bstack p')).
  Proof.
    intros H Hb E. pose proof (push_to_stack0 p0 p b H Hb) as K. rewrite E in K. apply K. discriminate.
  Qed.
  Lemma push_to_stack p0 p b : St p0 p -> GB b -> (is_section b = true -> top_sec (p_bstack p) = false) ->
    post (push_block_to_stack b p) (St p0).
  Proof.
    intros [H Ha] Hb Hs. eapply post_mono; [apply (push_to_stack0 p0); eassumption|]. intros p' [H' S].
    split; [exact H'|]. eapply step_apart; eassumption.
  Qed.
  Lemma para_GB locs : PL locs -> GB (Blk (HLeaf NParagraph FmParagraph None []) None [] locs).
  Proof. intros H. apply fresh_GB; cbn; auto. Qed.
  Lemma new_paragraph_ok p0 p : St0 p0 p ->
    post (new_paragraph p) (fun p' => St0 p0 p' /\ step false (p_bstack p) (p_bstack p')).
  Proof.
    intros H. unfold new_paragraph. pose proof (i_il _ _ H) as HIl. apply Forall_rev in HIl.
    set (inl := rev (p_istack p)) in *.
    assert (PL (match inl with i :: _ => inline_locs i | [] => [] end)) as Hlocs.
    { destruct inl; [exact PL_nil|]. apply DI_locs. now inversion HIl. }
    set (locs := match inl with i :: _ => inline_locs i | [] => [] end) in *.
    eapply post_bind; [apply push_inlines_ok; [exact HIl | now apply para_GB]|].
    intros para [Hp Ep]. cbn in Ep. cbn [set_istack p_in_cont p_open_lines p_bstack p_meta].
    assert (St0 p0 (set_istack [] p)) as H0 by (apply s_istack; auto).
    destruct (_ && _).
    - pose proof (i_st _ _ H) as HS. destruct (p_bstack p) as [|l r] eqn:E; [apply post_err|]. inversion HS as [|? ? Hl Hr]. subst.
      eapply post_bind; [apply push_block_ok; auto; rewrite Ep; discriminate|].
      intros l' [Hl' El']. apply post_ok. split; [apply s_bstack; [exact H0 | auto]|].
      right. left. exists l, l', r. repeat split; auto. now apply is_section_head.
    - assert (post (push_block_to_stack para (set_istack [] p))
               (fun p' => St0 p0 p' /\ step false (p_bstack p) (p_bstack p'))) as Push.
      { now apply (push_to_stack_ns p0 (set_istack [] p)). }
      destruct (p_meta p) as [bm|]; [|exact Push].
      apply post_any. intros la _. destruct (_ || _); [|exact Push].
      eapply post_bind; [apply push_block_ok; [| exact Hp | discriminate]|].
      + apply fresh_GB; cbn; auto.
      + intros q [Hq Eq']. assert (is_section q = false) as Es by (unfold is_section; now rewrite Eq').
        now apply (push_to_stack_ns p0 (set_istack [] p)).
  Qed.
  Lemma add_inlines0 p0 p : St0 p0 p ->
    post (add_inlines_to_block_stack p) (fun p' => St0 p0 p' /\ step false (p_bstack p) (p_bstack p')).
  Proof.
    intros H. unfold add_inlines_to_block_stack.
    destruct (p_istack p) as [|i0 l0] eqn:Ei; [apply post_ok; split; [exact H | now left]|].
    apply (post_bind _ _ _ (Il p0 p)).
    - destruct (p_in_span p); [now apply dangling_spans_ok | apply post_ok; split; auto].
    - clear Ei i0 l0. intros p1 [H1 E1]. rewrite <- E1. clear E1 H p. rename p1 into p, H1 into H.
      destruct (p_header p) as [h|] eqn:Eh.
      + apply post_ok. split; [|left; reflexivity]. apply s_istack; [|constructor].
        apply s_header; [exact H|]. pose proof (i_hd _ _ H) as K. rewrite Eh in K. destruct K as [K1 K2].
        split; [cbn; apply Forall_app; split; [exact K1|]; apply Forall_rev; exact (i_il _ _ H) | exact K2].
      + pose proof (i_st _ _ H) as HS. destruct (p_bstack p) as [|l r] eqn:E.
        * rewrite <- E. now apply new_paragraph_ok.
        * destruct (_ && _); [|rewrite <- E; now apply new_paragraph_ok].
          inversion HS as [|? ? Hl Hr]. subst.
          eapply post_bind; [apply push_inlines_ok; [apply Forall_rev; exact (i_il _ _ H) | exact Hl]|].
          intros l' [Hl' El']. apply post_ok. split; [apply s_bstack; [apply s_istack; auto | auto]|].
          right. left. exists l, l', r. auto.
  Qed.
  Lemma add_inlines p0 p : St p0 p -> post (add_inlines_to_block_stack p) (St p0).
  Proof.
    intros [H Ha]. eapply post_mono; [apply (add_inlines0 p0); eassumption|]. intros p' [H' S]. split; [exact H'|].
    eapply step_apart; [exact S | discriminate | exact Ha].
  Qed.

  (** ** Graph *)
  Lemma takes_guard b n : takes_block b n = true -> is_section b = true -> is_section n = true -> takes_block b n = true.
  Proof. auto. Qed.
  Lemma asg_push_ok a b : AI a -> GB b -> post (asg_push_block a b) AI.
  Proof.
    intros (H1 & H2 & H3 & H5 & H4) Hb. unfold asg_push_block.
    pose proof (consolidate_GB _ Hb) as Hc. set (c := consolidate_locations b) in *.
    apply (post_bind _ _ _ (Forall GB)).
    - assert (post (Ok (a_blocks a ++ [c]) : result (list block)) (Forall GB)) as App by (apply post_ok; apply Forall_app; auto).
      destruct (is_section c); [|exact App]. destruct (last_opt (a_blocks a)) as [x|] eqn:El; [|exact App].
      destruct (takes_block x c) eqn:Et; [|exact App]. apply last_opt_inv in El as [k Ek]. rewrite Ek in *.
      apply Forall_app in H1 as [Hk Hx]. apply Forall_inv in Hx. rewrite upd_last_snoc.
      eapply post_bind; [apply push_block_ok; auto|]. intros x' [Hx' _]. apply post_ok. apply Forall_app; auto.
    - intros bl Hbl. apply post_ok. repeat split; auto; cbn. apply (mextend_forall (Forall DI)); [exact H2|].
      apply id_hashes_ok. apply Hc.
  Qed.
  Lemma p_asg_push_ok p0 p b : St0 p0 p -> GB b -> post (p_asg_push b p) (Il p0 p).
  Proof.
    intros H Hb. unfold p_asg_push. eapply post_bind; [apply asg_push_ok; [exact (i_asg _ _ H) | exact Hb]|].
    intros a Ha. apply post_ok. split; [now apply s_asg | reflexivity].
  Qed.
  Lemma take_metadata_ok p0 p b : St0 p0 p -> GB b ->
    post (take_metadata b p) (fun x => GB (fst x) /\ is_section (fst x) = is_section b /\ Il p0 p (snd x)).
  Proof.
    intros H Hb. unfold take_metadata. pose proof (i_meta _ _ H) as Hm. destruct (p_meta p) as [m|].
    - eapply post_bind; [now apply add_metadata_ok|]. intros b' [Hb' E]. apply post_ok.
      split; [exact Hb'|]. split; [exact E|]. split; [now apply s_meta | reflexivity].
    - apply post_ok. split; [exact Hb|]. split; [reflexivity|]. split; [exact H | reflexivity].
  Qed.
  Lemma into_top p0 p l r b : St0 p0 p -> p_bstack p = l :: r -> GB b -> takes_block l b = true ->
    post (let* l' := push_block l b in Ok (set_bstack (l' :: r) p)) (fun p' => St0 p0 p' /\
      exists l', p_bstack p' = l' :: r /\ is_section l' = is_section l).
  Proof.
    intros H E Hb Ht. pose proof (i_st _ _ H) as HS. rewrite E in HS. inversion HS as [|? ? Hl Hr]. subst.
    eapply post_bind; [apply push_block_ok; auto|]. intros l' [Hl' El']. apply post_ok.
    split; [apply s_bstack; auto|]. exists l'. split; [reflexivity | now apply is_section_head].
  Qed.
  Lemma stack_or_graph p0 p b : St p0 p -> GB b -> post (add_to_block_stack_or_graph b p) (St p0).
  Proof.
    intros [H Ha] Hb. unfold add_to_block_stack_or_graph.
    assert (post (let* (b', p') := take_metadata b p in p_asg_push b' p') (St p0)) as G.
    { eapply post_bind; [apply (take_metadata_ok p0); eassumption|]. intros [b' p'] (Hb' & _ & [H' E']). cbn in *.
      eapply post_mono; [apply (p_asg_push_ok p0); eassumption|]. intros p2 [H2 E2]. split; [exact H2|]. now rewrite E2, E'. }
    destruct (p_bstack p) as [|l r] eqn:E; [exact G|]. destruct (takes_block l b) eqn:Et; [|exact G].
    eapply post_mono; [eapply (into_top p0); eassumption|]. intros p' [H' (l' & E' & Es)]. split; [exact H'|].
    rewrite E'. eapply apart_top; eassumption.
  Qed.
  (** a block leaves the stack for the one below it or for the graph *)
  Lemma leave p0 p b r : St0 p0 p -> apart r -> p_bstack p = r -> GB b ->
    post (match r with
          | l :: r' => if takes_block l b then let* l' := push_block l b in Ok (set_bstack (l' :: r') p) else p_asg_push b p
          | [] => p_asg_push b p
          end) (fun p' => St p0 p' /\ top_sec (p_bstack p') = top_sec r).
  Proof.
    intros H Ha E Hb.
    assert (post (p_asg_push b p) (fun p' => St p0 p' /\ top_sec (p_bstack p') = top_sec r)) as G.
    { eapply post_mono; [apply (p_asg_push_ok p0); eassumption|]. intros p' [H' E']. rewrite E in E'. split; [|now rewrite E'].
      split; [exact H' | now rewrite E']. }
    destruct r as [|l r']; [exact G|]. destruct (takes_block l b) eqn:Et; [|exact G].
    eapply post_mono; [eapply (into_top p0); eassumption|]. intros p' [H' (l' & E' & Es)]. rewrite E'.
    split; [|exact Es]. split; [exact H'|]. rewrite E'. eapply apart_top; eassumption.
  Qed.
  Lemma last_to_graph p0 p : St p0 p ->
    post (add_last_to_block_stack_or_graph p) (fun p' => St p0 p' /\ (top_sec (p_bstack p) = true -> top_sec (p_bstack p') = false)).
  Proof.
    intros [H Ha]. unfold add_last_to_block_stack_or_graph. pose proof (i_st _ _ H) as HS.
    destruct (p_bstack p) as [|b r] eqn:E; [apply post_err|]. inversion HS as [|? ? Hb Hr]. subst. destruct Ha as [Hs Ha].
    eapply post_mono; [apply (leave p0 (set_bstack r p) b r); auto; now apply s_bstack|].
    intros p' [K1 K2]. split; [exact K1|]. intros K. rewrite K2. exact (Hs K).
  Qed.
  Lemma last_block_to_graph p0 p : St p0 p -> post (add_last_block_to_graph p) (St p0).
  Proof.
    intros [H Ha]. unfold add_last_block_to_graph. pose proof (i_st _ _ H) as HS.
    destruct (p_bstack p) as [|b0 r] eqn:E; [apply post_ok; split; [exact H | now rewrite E]|].
    inversion HS as [|? ? Hb Hr]. subst. destruct Ha as [Hs Ha].
    eapply post_bind; [apply take_metadata_ok; [apply s_bstack; [exact H | exact Hr] | exact Hb]|].
    intros [b p1] (Hb1 & _ & [H1 E1]). cbn [fst snd] in *.
    eapply post_mono; [apply (leave p0 p1 b r); auto|]. intros p' [K1 K2]. exact K1.
  Qed.
  Lemma flush_ok n f : forall p0 p, St p0 p -> post (flush_blocks f n p) (St p0).
  Proof.
    induction f as [|f IH]; intros p0 p H; cbn [flush_blocks]; destruct (_ <=? n);
    try (apply post_ok; exact H); try apply post_hang.
    eapply post_bind; [apply (last_block_to_graph p0); eassumption|]. intros p1 H1. now apply IH.
  Qed.
  Lemma last_item p0 p : St p0 p -> post (add_last_list_item_to_list p) (St p0).
  Proof.
    intros H. unfold add_last_list_item_to_list. eapply post_bind; [apply add_inlines; exact H|].
    clear H p. intros p [H Ha]. pose proof (i_st _ _ H) as HS.
    destruct (p_bstack p) as [|item r] eqn:E; [apply post_panic|]. inversion HS as [|? ? Hb Hr]. subst. destruct Ha as [Hs Ha].
    assert (St0 p0 (set_bstack r p)) as H0 by now apply s_bstack.
    destruct (is_list_item item || is_dlist_item item) eqn:Ei.
    - destruct r as [|l r']; [apply post_ok; split; auto|]. inversion Hr as [|? ? Hl Hr']. subst.
      eapply post_bind; [apply push_block_ok; auto; intros _ K; destruct item as [[]]; discriminate|].
      intros l' [Hl' El']. apply post_ok. split; [apply s_bstack; auto|]. cbn. eapply apart_top; [exact Ha|].
      now apply is_section_head.
    - apply push_to_stack; auto. split; auto.
  Qed.

  (** ** Header, attributes *)
  Lemma header_consolidate_ok h : HI h -> HI (header_consolidate h).
  Proof. intros [H1 H2]. split; [exact H1|]. cbn. apply rec_opt_ok; [exact H2 | now apply last_inline_locs_ok]. Qed.
  Lemma move_header p0 p : St p0 p -> post (check_and_move_header w p) (St p0).
  Proof.
    intros H. unfold check_and_move_header. eapply post_bind; [apply add_inlines; exact H|].
    clear H p. intros p [H Ha]. apply post_ok. pose proof (i_hd _ _ H) as Hh.
    destruct (p_header p) as [h|]; [|split; [now apply s_header | exact Ha]].
    destruct (hd_title h); (split; [|exact Ha]); (apply s_header; [|exact I]); [exact H|].
    apply s_asg; [exact H|]. pose proof (i_asg _ _ H) as (H1 & H2 & H3 & H5 & H4).
    split; [exact H1|]. split; [exact H2|]. split; [cbn; now apply header_consolidate_ok|]. split; [exact (proj2 (i_attrs _ _ H))|exact H4].
  Qed.
  Definition ctl (p p' : pstate) : Prop :=
    p_bstack p' = p_bstack p /\ p_istack p' = p_istack p /\ p_title p' = p_title p /\ p_meta p' = p_meta p /\
    p_dangling p' = p_dangling p /\ p_header p' = p_header p /\ p_files p' = p_files p /\ p_asg p' = p_asg p /\
    p_origin p' = p_origin p /\ p_resolve p' = p_resolve p.
  Lemma ctl_ok p0 p p' : St p0 p -> ctl p p' -> AM (p_attrs p') -> St p0 p'.
  Proof.
    intros [[[] (F1 & F2 & F3)] Ha] (E1 & E2 & E3 & E4 & E5 & E6 & E7 & E8 & E9 & E10) Hv. split; [split|].
    - constructor; congruence.
    - repeat split; congruence.
    - congruence.
  Qed.
  Lemma level_offset_ctl v p : post (parse_level_offset w v p) (fun p' => ctl p p' /\ p_attrs p' = p_attrs p).
  Proof.
    unfold parse_level_offset. destruct (parse_usize v); [apply post_ok; repeat split|].
    destruct (parse_i8 v); [|apply post_err]. apply post_any. intros o _. apply post_ok. repeat split.
  Qed.
  Lemma level_offset_ok p0 p v : St p0 p -> post (parse_level_offset w v p) (St p0).
  Proof.
    intros H. eapply post_mono; [apply level_offset_ctl|]. intros p' [C E]. eapply ctl_ok; [exact H | exact C|].
    rewrite E. destruct H as [H _]. exact (i_attrs _ _ H).
  Qed.
  Lemma attribute_ok p0 p t : St p0 p -> TOK t -> ttype t = TAttribute -> post (parse_attribute w t p) (St p0).
  Proof.
    intros H Ht Ety p' E.
    assert (post (parse_attribute w t p) (ctl p)) as C.
    { unfold parse_attribute. destruct (split_terminator _ _) as [|? comps]; [apply post_panic|].
      destruct comps as [|key ?]; [apply post_ok; repeat split|].
      destruct (beqb key (bs "leveloffset")).
      - eapply post_mono; [apply level_offset_ctl|]. intros p1 [K _]. exact K.
      - apply post_ok; repeat split. }
    eapply ctl_ok; [exact H | now apply C|].
    destruct H as [H _]. pose proof (i_attrs _ _ H) as [A1 A2]. split; [eapply TOK_attr; [exact Ht | exact Ety | exact A1 | exact E]|].
    revert p' E. change (post (parse_attribute w t p) (fun p' => NoDup (map fst (p_attrs p')))).
    unfold parse_attribute. destruct (split_terminator _ _) as [|? comps]; [apply post_panic|].
    destruct comps as [|key ?]; [now apply post_ok|]. destruct (beqb key (bs "leveloffset")).
    - eapply post_mono; [apply level_offset_ctl|]. intros p1 [_ ->]. exact A2.
    - apply post_ok. cbn. now apply minsert_nodup.
  Qed.
  Lemma block_attributes_ok p0 p t : St p0 p -> TOK t -> post (parse_block_attributes w t p) (St p0).
  Proof.
    intros [H Ha] Ht. unfold parse_block_attributes, p_add_metadata_from_token.
    apply (post_bind _ _ _ (St p0)); [|intros p1 H1; apply post_ok; exact H1].
    apply (post_bind _ _ _ DM); [|intros m Hm; apply post_ok; split; [now apply s_meta | exact Ha]].
    pose proof (i_meta _ _ H) as K. destruct (p_meta p); [now apply block_meta_add_ok | now apply block_meta_new_ok].
  Qed.
  Lemma inline_attributes_ok p0 p t : St p0 p -> TOK t -> post (parse_inline_element_attributes t p) (St p0).
  Proof.
    intros [H Ha] Ht. unfold parse_inline_element_attributes. eapply post_bind; [now apply inline_meta_ok|].
    intros m Hm. apply post_ok. split; [apply (s_meta _ _ (Some m) H Hm) | exact Ha].
  Qed.
  Lemma new_line_ok p0 p t : St p0 p -> TOK t -> post (parse_new_line_char w t p) (St p0).
  Proof.
    intros H0 Ht. unfold parse_new_line_char.
    set (p1 := match p_title (set_in_line false p) with Some _ => _ | None => _ end).
    assert (St p0 p1) as H.
    { subst p1. cbn [set_in_line p_title p_istack]. destruct H0 as [H Ha]. pose proof (i_title _ _ H) as Hti.
      destruct (p_title p); [|split; auto]. split; [|exact Ha]. apply s_istack; [|constructor].
      apply (s_title _ (set_in_line false p)); [exact H|]. cbn. apply Forall_app; split; [exact Hti|].
      apply Forall_rev. exact (i_il _ _ H). }
    clearbody p1. clear H0 p. rename p1 into p.
    destruct (_ || _).
    - assert (St p0 (set_dangling None p)) as H' by (destruct H as [H Ha]; split; [now apply s_dangling | exact Ha]).
      clear H. cbn zeta. set (q := set_dangling None p) in *. clearbody q. clear p. rename q into p, H' into H.
      destruct (p_header p); [now apply move_header|].
      apply (post_bind _ _ _ (St p0)).
      + destruct (p_bstack p) as [|b ?]; [apply post_ok; exact H|].
        destruct (_ || _); [now apply last_item | apply post_ok; exact H].
      + clear H p. intros p H. eapply post_bind; [apply add_inlines; exact H|]. clear H p. intros p H.
        cbn [set_force_new p_bstack]. destruct (p_bstack p) as [|b r] eqn:E; [apply post_ok; exact H|].
        destruct H as [H Ha]. rewrite E in Ha. destruct Ha as [Hs Ha].
        pose proof (i_st _ _ H) as HS; rewrite E in HS; inversion HS as [|? ? Hb Hr]; subst.
        assert (St0 p0 (set_bstack r (set_force_new true p))) as H1 by (now apply (s_bstack _ (set_force_new true p))).
        destruct (_ && _).
        * eapply post_bind; [apply stack_or_graph; [split; [exact H1 | exact Ha] | exact Hb]|].
          intros p9 H9. destruct (_ && _); [|apply post_ok; exact H9].
          eapply post_bind; [apply (last_to_graph p0); exact H9|]. intros p10 [H10 _]. apply post_ok. exact H10.
        * apply push_to_stack; [split; [exact H1 | exact Ha] | exact Hb | exact Hs].
    - destruct (_ || _); apply post_ok; destruct H as [H Ha]; split; auto; now apply s_dangling.
  Qed.
  Lemma break_ok p0 p t v : St p0 p -> TOK t -> post (parse_break v t p) (St p0).
  Proof. intros H Ht. apply stack_or_graph; [exact H|]. apply fresh_GB; cbn; auto. Qed.

  (** ** Lists *)
  Lemma push_ns p0 p b : St p0 p -> GB b -> is_section b = false -> post (push_block_to_stack b p) (St p0).
  Proof. intros H Hb E. apply push_to_stack; auto. rewrite E. discriminate. Qed.
  Lemma st_set_istack p0 p v : St p0 p -> Forall DI v -> St p0 (set_istack v p).
  Proof. intros [H Ha] Hv. split; [now apply s_istack | exact Ha]. Qed.
  Lemma st_push_inline p0 p i : St p0 p -> DI i -> St p0 (push_inline_back i p).
  Proof. intros H Hi. apply st_set_istack; [exact H|]. constructor; [exact Hi|]. destruct H as [H _]. exact (i_il _ _ H). Qed.
  Lemma st_dangling p0 p v : St p0 p -> optP TOK v -> St p0 (set_dangling v p).
  Proof. intros [H Ha] Hv. split; [now apply s_dangling | exact Ha]. Qed.
  Lemma st_meta p0 p v : St p0 p -> optP DM v -> St p0 (set_meta v p).
  Proof. intros [H Ha] Hv. split; [now apply s_meta | exact Ha]. Qed.
  Lemma st_title p0 p v : St p0 p -> optP (Forall DI) v -> St p0 (set_title v p).
  Proof. intros [H Ha] Hv. split; [now apply s_title | exact Ha]. Qed.
  Lemma st_il p0 p : St p0 p -> Forall DI (p_istack p).
  Proof. intros [H _]. exact (i_il _ _ H). Qed.
  Lemma split_newline_ok l a b : split_at_newline l = Some (a, b) -> Forall DI l -> Forall DI a /\ Forall DI b.
  Proof.
    revert a. induction l as [|i l IH]; intros a E H; cbn in E; [discriminate|]. inversion H. subst.
    destruct (is_newline i); [injection E as <- <-; auto|].
    destruct (split_at_newline l) as [[a' b']|]; [|discriminate]. injection E as <- <-.
    destruct (IH a' eq_refl); auto.
  Qed.
  Lemma dlist_item_GB l loc : Forall DI l -> PL loc -> GB (new_dlist_item l loc).
  Proof.
    intros Hl Hloc. apply fresh_GB; cbn; auto; [now rewrite app_nil_r|].
    revert loc Hloc. induction Hl as [|i l Hi Hl IH]; intros loc Hloc; cbn; [exact Hloc|].
    apply IH. apply PL_rec; [exact Hloc | now apply DI_locs].
  Qed.
  Lemma dlist_term_ok p0 p t : St p0 p -> TOK t -> post (parse_description_list_term t p) (St p0).
  Proof.
    intros H Ht. unfold parse_description_list_term. cbn [set_force_new p_istack].
    apply (post_bind _ _ _ (St p0)).
    - destruct (split_at_newline (rev (p_istack p))) as [[before next]|] eqn:E; [|apply post_ok; exact H].
      apply split_newline_ok in E as [Hb Hn]; [|apply Forall_rev; now apply (st_il p0)].
      eapply post_bind; [apply (add_inlines p0); apply (st_set_istack _ (set_force_new false p)); [exact H | now apply Forall_rev]|].
      intros p1 H1. apply post_ok. apply st_set_istack; [exact H1|]. apply Forall_app. split; [now apply Forall_rev | now apply (st_il p0)].
    - clear H p. intros p H. pose proof (st_il _ _ H) as Hil.
      assert (GB (new_dlist_item (rev (p_istack p)) (token_locations t))) as Hi by (apply dlist_item_GB; auto using Forall_rev).
      cbn zeta. set (item := new_dlist_item _ _) in *. assert (is_section item = false) as Ei by reflexivity. clearbody item.
      assert (St p0 (set_istack [] p)) as H1 by now apply st_set_istack.
      apply (post_bind _ _ _ (St p0)).
      + destruct (match p_bstack _ with _ :: _ => _ | _ => _ end); [now apply last_item|].
        apply push_ns; [exact H1 | | reflexivity]. apply fresh_GB; cbn; auto. now apply GB_locs.
      + clear H H1 Hil p. intros p H. eapply post_bind; [apply (push_ns p0); eassumption|]. intros p1 H1. apply post_ok. exact H1.
  Qed.
  Lemma list_item_GB m t : TOK t -> GB (new_list_item m (token_locations t)).
  Proof. intros H. apply fresh_GB; cbn; auto. Qed.
  Lemma ordered_ok p0 p t : St p0 p -> TOK t -> post (parse_ordered_list_item t p) (St p0).
  Proof.
    intros H Ht. unfold parse_ordered_list_item.
    assert (St p0 (set_dangling None p)) as H1 by now apply st_dangling. clear H.
    cbn zeta. set (q := set_dangling None p) in *. clearbody q. clear p. rename q into p, H1 into H.
    apply (post_bind _ _ _ (St p0)).
    - destruct (match p_bstack _ with _ :: _ => _ | _ => _ end); [now apply last_item|].
      destruct (tt_eqb _ _).
      + apply (post_bind _ _ _ (St p0)).
        * destruct (p_bstack p) as [|b r]; [apply post_ok; exact H|].
          destruct (is_source_block b); [|apply post_ok; exact H].
          eapply post_mono; [apply (last_to_graph p0); exact H|]. intros p1 [K _]. exact K.
        * intros p1 H1. apply push_ns; [exact H1 | | reflexivity]. apply fresh_GB; cbn; auto. apply DM_role.
      + apply push_ns; [exact H | | reflexivity]. apply fresh_GB; cbn; auto.
    - intros p1 H1. apply push_ns; [exact H1 | now apply list_item_GB | reflexivity].
  Qed.
  Lemma unordered_ok p0 p t : St p0 p -> TOK t -> post (parse_unordered_list_item t p) (St p0).
  Proof.
    intros H Ht. unfold parse_unordered_list_item.
    assert (St p0 (set_dangling None p)) as H1 by now apply st_dangling. clear H.
    cbn zeta. set (q := set_dangling None p) in *. clearbody q. clear p. rename q into p, H1 into H.
    apply (post_bind _ _ _ (St p0)).
    - destruct (match p_bstack _ with _ :: _ => _ | _ => _ end); [now apply last_item|].
      apply push_ns; [exact H | | reflexivity]. apply fresh_GB; cbn; auto.
    - intros p1 H1. apply push_ns; [exact H1 | now apply list_item_GB | reflexivity].
  Qed.

  (** ** Headings *)
  Lemma heading_level_range t p : post (get_heading_level w t p) (fun n => 1 <= n <= 4).
  Proof.
    unfold get_heading_level. destruct (heading_base _); [|apply post_err]. apply post_any. intros lev _.
    destruct (_ && _)%bool eqn:E; [|apply post_err]. apply post_ok.
    apply andb_true_iff in E as [E1 E2]. apply Z.leb_le in E1, E2. lia.
  Qed.
  Lemma headings_ok p0 p t : St p0 p -> TOK t -> post (parse_section_headings w t p) (St p0).
  Proof.
    intros H Ht. unfold parse_section_headings. eapply post_bind; [apply heading_level_range|]. intros lev Hlev.
    apply (post_bind _ _ _ (fun p' => St p0 p' /\ top_sec (p_bstack p') = false)).
    - destruct (p_bstack p) as [|b r] eqn:E; [apply post_ok; split; [exact H | now rewrite E]|].
      destruct (is_section b) eqn:Es; [|apply post_ok; split; [exact H | now rewrite E]].
      eapply post_mono; [apply (last_to_graph p0); exact H|]. intros p1 [H1 K]. split; [exact H1|]. apply K. now rewrite E.
    - clear H p. intros p [H Hs].
      eapply post_bind; [apply (push_to_stack p0); [exact H | | intros _; exact Hs]|].
      + apply fresh_GB; cbn; auto.
      + intros p1 H1. apply post_ok. apply (st_dangling _ (set_in_line true p1)); [exact H1 | exact I].
  Qed.
  Lemma title_ok p0 p t : St p0 p -> TOK t -> post (parse_title w t p) (St p0).
  Proof.
    intros H Ht. unfold parse_title. destruct (negb _); [now apply headings_ok|].
    destruct (loc_eqb _ _); [|apply post_err]. apply post_ok. destruct H as [H Ha]. split; [|exact Ha].
    apply (s_header _ (set_in_line true p)); [exact H|]. split; [constructor | cbn; auto].
  Qed.
  Lemma admonition_ok p0 p t : St p0 p -> TOK t -> post (parse_admonition_para_syntax t p) (St p0).
  Proof.
    intros [H Ha] Ht. unfold parse_admonition_para_syntax. eapply post_bind; [now apply parent_from_token_ok|].
    intros b (Hb & Ep & _). apply post_ok. split.
    - apply (s_bstack _ p); [exact H|]. constructor; [exact Hb | exact (i_st _ _ H)].
    - cbn. split; [|exact Ha]. rewrite (parent_not_section _ Ep). discriminate.
  Qed.
  Lemma continuation_ok p0 p : St p0 p -> post (parse_block_continuation p) (St p0).
  Proof.
    intros H. unfold parse_block_continuation. eapply post_bind; [apply (add_inlines p0); exact H|].
    intros p1 H1. apply post_ok. exact H1.
  Qed.

  (** ** Inlines *)
  Lemma il_st p0 p p' : St p0 p -> Il p0 p p' -> St p0 p'.
  Proof. intros [_ Ha] [H E]. split; [exact H | now rewrite E]. Qed.
  Lemma add_to_last_st p0 p b t : St p0 p -> PL (token_locations t) -> post (add_to_last_inline b t p) (St p0).
  Proof.
    intros H Ht. eapply post_mono; [apply (add_to_last_ok p0); [exact (proj1 H) | exact Ht]|]. intros p'. now apply il_st.
  Qed.
  Lemma dang_locs p0 p t : St p0 p -> p_dangling p = Some t -> PL (token_locations t).
  Proof. intros [H _] E. pose proof (i_dang _ _ H) as K. rewrite E in K. now apply TOK_locs. Qed.
  Lemma span_new_ok p0 p i : St p0 p -> DI i -> post (parse_inline_span_new i p) (St p0).
  Proof.
    intros H Hi. unfold parse_inline_span_new. apply (post_bind _ _ _ (St p0)).
    - destruct (p_dangling p) as [nl|] eqn:E; [|apply post_ok; exact H].
      eapply post_bind; [apply (add_to_last_st p0); [exact H | exact (dang_locs _ _ _ H E)]|].
      intros p1 H1. apply post_ok. now apply st_dangling.
    - clear H p. intros p H. eapply post_bind; [apply (dangling_spans_ok p0); exact (proj1 H)|].
      intros p1 K. apply (il_st _ _ _ H) in K. clear H p. rename p1 into p, K into H.
      apply (post_bind _ _ _ (fun x => DI (fst x) /\ St p0 (snd x))).
      + pose proof (i_meta _ _ (proj1 H)) as Hm. destruct (p_meta p) as [m|]; [|apply post_ok; auto].
        eapply post_bind; [now apply add_meta_ok|]. intros i' Hi'. apply post_ok. split; [exact Hi' | now apply st_meta].
      + intros [i' p1] [Hi' H1]. cbn [fst snd] in *. apply post_ok. apply st_set_istack; [exact H1|].
        constructor; [exact Hi' | now apply (st_il p0)].
  Qed.
  Lemma span_ok p0 p i : St p0 p -> DI i -> post (parse_inline_span i p) (St p0).
  Proof.
    intros H Hi. unfold parse_inline_span. pose proof (st_il _ _ H) as Hil.
    destruct (p_istack p) as [|l r]; [now apply span_new_ok|]. inversion Hil as [|? ? Hl Hr]. subst.
    assert (forall l', DI l' -> St p0 (set_istack (l' :: r) p)) as S1 by (intros; apply st_set_istack; auto).
    destruct (inline_eqb i l).
    - eapply post_bind; [apply close_rec_ok; [exact Hl | now apply DI_locs]|]. intros l' Hl'. apply post_ok. now apply S1.
    - destruct l as [v f kids m loc o | | |]; try now apply span_new_ok.
      assert (post (Ok (set_istack (span_add (ISpan v f kids m loc o) i :: r) p) : result pstate) (St p0)) as Add
        by (apply post_ok, S1; now apply span_add_ok).
      destruct (last_opt kids) as [k|] eqn:Ek; [|exact Add]. destruct (inline_eqb i k); [|exact Add].
      apply last_opt_inv in Ek as [k0 ->]. inversion Hl as [? ? ? ? ? ? H1 H2 H3 H4 | | |]. subst.
      rewrite upd_last_snoc. apply Forall_app in H4 as [Hk Hx]. apply Forall_inv in Hx.
      apply (post_bind _ _ _ (fun ks => Forall DI ks /\ ks <> [])).
      + eapply post_bind; [apply close_rec_ok; [exact Hx | now apply DI_locs]|]. intros x Hx'. apply post_ok.
        split; [apply Forall_app; auto | apply snoc_ne].
      + intros ks [Hks Hne]. apply post_ok, S1. constructor; auto. intros K. contradiction.
  Qed.
  Lemma block_image_ok p0 p t : St p0 p -> TOK t -> post (parse_block_image w t p) (St p0).
  Proof.
    intros H Ht. unfold parse_block_image. eapply post_bind; [apply target_attrs_ok|]. intros [target m] Hm. cbn [snd] in Hm.
    apply post_any. intros _ _.
    destruct (match p_meta p with Some pm => _ | None => _ end) as [m1 p1] eqn:E1.
    assert (optP DM m1 /\ St p0 p1) as [Hm1 H1].
    { pose proof (i_meta _ _ (proj1 H)) as Hpm. destruct (p_meta p); injection E1 as <- <-; split; auto.
      - now apply macro_meta_ok.
      - now apply st_meta. }
    destruct (match p_title p1 with Some c => _ | None => _ end) as [cap p2] eqn:E2.
    assert (Forall DI cap /\ St p0 p2) as [Hcap H2].
    { pose proof (i_title _ _ (proj1 H1)) as Hti. destruct (p_title p1); injection E2 as <- <-; split; auto. now apply st_title. }
    apply stack_or_graph; [exact H2|]. apply fresh_GB; cbn; auto.
  Qed.
  Lemma inline_image_ok p0 p t : St p0 p -> TOK t -> post (parse_inline_image_macro w t p) (St p0).
  Proof.
    intros H Ht. unfold parse_inline_image_macro. eapply post_bind; [apply target_attrs_ok|]. intros [target m] Hm. cbn [snd] in Hm.
    apply post_ok. apply (st_push_inline p0 p); [exact H|]. constructor; auto.
  Qed.
  Lemma footnote_ok p0 p t : St p0 p -> TOK t -> post (parse_footnote_macro t p) (St p0).
  Proof.
    intros H Ht. unfold parse_footnote_macro. eapply post_bind; [now apply span_from_token_ok|]. intros s Hs.
    apply post_ok. now apply (st_push_inline p0 p).
  Qed.
  Lemma macro_close_ok p0 p t : St p0 p -> TOK t -> post (parse_inline_macro_close t p) (St p0).
  Proof.
    intros H Ht. unfold parse_inline_macro_close.
    match goal with |- post (match ?x with _ => _ end) _ => set (o := x) end.
    match goal with |- context [split_at_first is_macro ?x] => set (sp := split_at_first is_macro x) end.
    assert (post (match sp with
      | Some (above, m, below) => let* m0 := inline_push_all m (rev above) in let* m1 := consolidate_from_token m0 t in
          Ok (set_in_span false (set_close_parent true (set_istack (m1 :: below) p)))
      | None => add_text_to_last_inline t p end) (St p0)) as K.
    { subst sp. destruct (split_at_first _ _) as [[[above m] below]|] eqn:E.
      - apply split_at_first_inv in E as [E Em]. pose proof (st_il _ _ H) as Hil. rewrite E in Hil.
        apply Forall_app in Hil as [Ha Hb]. inversion Hb. subst.
        eapply post_bind; [apply inline_push_all_ok; auto using Forall_rev|]. intros m1 [Hm1 Em1].
        eapply post_bind; [now apply consolidate_from_token_ok|]. intros m2 Hm2. apply post_ok.
        apply (st_set_istack p0 p); auto.
      - apply add_to_last_st; auto. }
    destruct o as [[]|]; try exact K. apply post_ok. exact H.
  Qed.
  Lemma flush_dangling_ok p0 p lit : St p0 p -> DI lit -> post (flush_dangling lit p) (fun x => St p0 (fst x)).
  Proof.
    intros H Hl. unfold flush_dangling. destruct (p_dangling p) as [nl|] eqn:E; [|apply post_ok; exact H].
    pose proof (dang_locs _ _ _ H E) as Hn. destruct (p_preserve_nl p).
    - apply post_ok. cbn [fst]. apply st_push_inline; [|exact Hl]. apply st_dangling; [|exact I].
      apply st_push_inline; [exact H | now apply lit_text_ok].
    - eapply post_bind; [apply (add_to_last_st p0); [exact H | exact Hn]|]. intros p1 H1. apply post_ok. now apply st_dangling.
  Qed.
  Lemma text_ok p0 p t : St p0 p -> PL (token_locations t) -> post (parse_text t p) (St p0).
  Proof.
    intros H Ht. unfold parse_text. eapply post_bind; [apply (flush_dangling_ok p0); [exact H | now apply lit_text_ok]|].
    intros [p1 []] H1; cbn [fst] in H1; [apply post_ok; exact H1|]. now apply add_to_last_st.
  Qed.
  Lemma pass_ok p0 p t : St p0 p -> TOK t -> post (pass_text_through t p) (St p0).
  Proof.
    intros H Ht. unfold pass_text_through. eapply post_bind; [apply (flush_dangling_ok p0); [exact H | apply lit_pass_ok; auto]|].
    intros [p1 []] H1; cbn [fst] in H1; [apply post_ok; exact H1|]. apply add_to_last_st; auto.
  Qed.
  Lemma charref_ok p0 p t : St p0 p -> TOK t -> post (parse_charref t p) (St p0).
  Proof.
    intros H Ht. unfold parse_charref. assert (DI (lit_charref t)) as Hl by (apply lit_charref_ok; auto).
    cbn zeta. set (il := lit_charref t) in *. clearbody il.
    eapply post_bind; [apply (flush_dangling_ok p0); [exact H | exact Hl]|].
    intros [p1 []] H1; cbn [fst] in H1; [apply post_ok; exact H1|]. clear H p. rename p1 into p, H1 into H.
    assert (post (Ok (push_inline_back il p) : result pstate) (St p0)) as P by (apply post_ok; now apply st_push_inline).
    pose proof (st_il _ _ H) as Hil. destruct (p_istack p) as [|i r]; [exact P|]. inversion Hil as [|? ? Hi Hr]. subst.
    destruct i; try exact P.
    - destruct (p_in_span p); [|exact P]. apply post_ok. apply st_set_istack; [exact H|].
      constructor; [now apply span_add_ok | exact Hr].
    - destruct (negb _); [|exact P]. apply post_ok. apply st_set_istack; [exact H|]. inversion Hi. subst.
      constructor; [|exact Hr]. constructor; auto. apply Forall_app; auto.
  Qed.
  Lemma mget_AV k l v : mget k l = Some v -> Forall (fun kv => AV (snd kv)) l -> AV v.
  Proof. intros E H. eapply mget_forall; eassumption. Qed.
  Lemma attr_ref_ok p0 p t : St p0 p -> TOK t -> ttype t = TAttributeReference -> post (parse_attribute_reference t p) (St p0).
  Proof.
    intros H Ht Ety. unfold parse_attribute_reference. apply post_any. intros key _. apply text_ok; [exact H|].
    destruct (mget key (p_attrs p)) as [v|] eqn:E; [|auto].
    apply (TOK_ref t v Ht Ety). eapply mget_AV; [exact E|]. exact (proj1 (i_attrs _ _ (proj1 H))).
  Qed.
  Lemma xref_ok p0 p t : St p0 p -> TOK t -> post (parse_cross_reference t p) (St p0).
  Proof.
    intros H Ht. unfold parse_cross_reference. eapply post_bind; [now apply new_xref_ok|]. intros x Hx.
    apply post_ok. now apply (st_push_inline p0 p).
  Qed.
  Lemma callout_ok p0 p t : St p0 p -> TOK t -> post (parse_code_callout t p) (St p0).
  Proof.
    intros H Ht. unfold parse_code_callout.
    assert (post (let* s := span_from_token t in Ok (push_inline_back s p)) (St p0)) as K.
    { eapply post_bind; [now apply span_from_token_ok|]. intros s Hs. apply post_ok. now apply st_push_inline. }
    destruct (mget _ _); [|exact K]. destruct (p_istack p); [exact K|]. destruct (beqb _ _); [apply post_panic | exact K].
  Qed.

  (** ** Delimited blocks *)
  Lemma leaf_ok p0 p t : St p0 p -> TOK t -> post (parse_delimited_leaf_block t p) (St p0).
  Proof.
    intros H Ht. unfold parse_delimited_leaf_block. destruct (p_open_type p).
    - eapply post_bind; [apply (add_inlines p0); exact H|]. clear H p. intros p [H Ha]. pose proof (i_st _ _ H) as HS.
      destruct (p_bstack p) as [|b r] eqn:E; [apply post_err|]. inversion HS as [|? ? Hb Hr]. subst. destruct Ha as [Hs Ha].
      eapply post_bind; [apply add_locations_ok; [exact Hb | auto]|]. intros b' [Hb' Eb'].
      eapply post_bind; [apply (push_to_stack p0)|].
      + split; [apply s_bstack; [exact H | exact Hr] | exact Ha].
      + exact Hb'.
      + rewrite Eb'. exact Hs.
      + intros p1 H1. apply post_ok. exact H1.
    - eapply post_bind; [now apply leaf_from_token_ok|]. intros b [Hb Es].
      eapply post_bind; [apply (push_ns p0); [exact H | exact Hb | exact Es]|]. intros p1 H1. apply post_ok. exact H1.
  Qed.
  Lemma push_blocks_ok l : forall b, GB b -> is_parent b = true -> Forall GB l ->
    post (push_blocks b l) (fun b' => GB b' /\ is_parent b' = true).
  Proof.
    induction l as [|x l IH]; intros b Hb Ep Hl; cbn [push_blocks]; [apply post_ok; auto|]. inversion Hl. subst.
    eapply post_bind; [apply push_block_ok; auto; rewrite (parent_not_section _ Ep); discriminate|].
    intros b' [Hb' Eh]. apply IH; auto. destruct b as [h ? ? ?], b' as [h' ? ? ?]. cbn in *. now subst.
  Qed.
  Lemma apart_app a b : apart (a ++ b) -> apart b.
  Proof. induction a; cbn; [auto | intros [_ K]; auto]. Qed.
  Lemma step_below st st' above below : step false st st' -> st = above ++ below -> apart below ->
    (List.length st' <? List.length below) = false ->
    apart (skipn (List.length st' - List.length below) st').
  Proof.
    assert (forall a b : list block, skipn (List.length (a ++ b) - List.length b) (a ++ b) = b) as K.
    { intros a b. rewrite app_length. replace (List.length a + List.length b - List.length b) with (List.length a + 0) by lia.
      rewrite skipn_app. rewrite Nat.add_0_r, skipn_all, Nat.sub_diag. reflexivity. }
    intros [-> | [(l & l' & r & -> & -> & E) | (b & -> & E)]] Es Ha _.
    - rewrite Es, K. exact Ha.
    - destruct above as [|x above]; cbn [app] in Es.
      + subst. cbn [List.length]. rewrite Nat.sub_diag. cbn [skipn]. eapply apart_top; eassumption.
      + injection Es as -> ->. change (l' :: above ++ below) with ((l' :: above) ++ below). rewrite K. exact Ha.
    - rewrite Es. change (b :: above ++ below) with ((b :: above) ++ below). rewrite K. exact Ha.
  Qed.
  Lemma Forall_skipn {A} (P : A -> Prop) n l : Forall P l -> Forall P (skipn n l).
  Proof. intros H. rewrite <- (firstn_skipn n l) in H. now apply Forall_app in H. Qed.
  Lemma Forall_firstn {A} (P : A -> Prop) n l : Forall P l -> Forall P (firstn n l).
  Proof. intros H. rewrite <- (firstn_skipn n l) in H. now apply Forall_app in H. Qed.
  Lemma rec_GB h m k loc l : GB (Blk h m k loc) -> PL l -> GB (Blk h m k (reconcile loc l)).
  Proof. intros [D K] Hl. split; [|exact K]. inversion D. subst. constructor; auto. Qed.
  Lemma table_info_parent b b' : consolidate_table_info b = Ok b' -> is_parent b = true -> is_parent b' = true.
  Proof. intros E _. pose proof (table_info_skel _ _ E) as K. destruct b as [h ? ? ?]. destruct h; try discriminate.
    apply table_info_inv in E as [-> | (x & -> & _)]; reflexivity. Qed.
  Lemma parent_ok p0 p t : St p0 p -> TOK t -> post (parse_delimited_parent_block t p) (St p0).
  Proof.
    intros H Ht. unfold parse_delimited_parent_block. eapply post_bind; [now apply parent_from_token_ok|].
    intros block0 (Hb0 & Ep0 & _). cbn zeta.
    assert (St p0 (set_dangling None p)) as H1 by now apply st_dangling. clear H.
    set (q := set_dangling None p) in *. clearbody q. clear p. rename q into p, H1 into H.
    destruct (match p_title p with Some ti => _ | None => _ end) as [bl p1] eqn:E1.
    assert (GB bl /\ is_parent bl = true /\ St p0 p1) as (Hbl & Ep & H1).
    { pose proof (i_title _ _ (proj1 H)) as Hti. destruct (p_title p); injection E1 as <- <-; split; auto.
      - now apply set_title_ok.
      - split; [now rewrite is_parent_title | now apply st_title]. }
    clear E1 H p. rename p1 into p, H1 into H.
    assert (post (push_block_to_stack bl (set_open_lines (tline t :: p_open_lines p) p)) (St p0)) as New.
    { apply push_ns; [exact H | exact Hbl | now apply parent_not_section]. }
    destruct (split_at_first is_parent (p_bstack p)) as [[[above matched] below]|] eqn:E; [|exact New].
    destruct (parent_eqb matched bl); [|exact New].
    apply split_at_first_inv in E as [E Em]. destruct H as [H Ha]. rewrite E in Ha.
    pose proof (i_st _ _ H) as HS. rewrite E in HS. apply Forall_app in HS as [Hab HS]. inversion HS as [|? ? Hm Hbe]. subst.
    apply apart_app in Ha as [_ Ha].
    eapply post_bind; [apply (add_inlines0 p0); apply s_bstack; [exact H | apply Forall_app; auto]|].
    clear H. intros p1 [H1 S1]. cbn [set_bstack p_bstack] in S1.
    destruct (p_open_lines p1) as [|ol lines]; [apply post_err|].
    apply post_any. intros _ _. cbn [set_open_lines p_bstack].
    destruct (_ <? _) eqn:En; [apply post_panic|].
    pose proof (step_below _ _ _ _ S1 eq_refl Ha En) as Hap. set (n := List.length (p_bstack p1) - List.length below) in *.
    pose proof (i_st _ _ H1) as HS1.
    apply (post_bind _ _ _ (fun b => GB b /\ is_parent b = true)).
    - destruct matched as [h m k loc]. apply push_blocks_ok; auto.
      + apply rec_GB; [exact Hm | now apply GB_locs].
      + apply Forall_rev, Forall_firstn, HS1.
    - intros b [Hb Eb]. apply (post_bind _ _ _ (fun b => GB b /\ is_section b = false)).
      + destruct (is_table b); [|apply post_ok; split; [exact Hb | now apply parent_not_section]].
        eapply post_mono; [now apply table_info_ok|]. intros b' [K1 K2]. split; [exact K1|]. rewrite K2. now apply parent_not_section.
      + clear b Hb Eb. intros b [Hb Eb]. eapply post_bind; [apply (push_ns p0); [|exact Hb | exact Eb]|].
        * split; [|exact Hap]. apply (s_bstack _ (set_open_lines lines p1)); [exact H1 | now apply Forall_skipn].
        * intros p2 H2. apply post_ok. exact H2.
  Qed.
  Lemma quote_verse_ok p0 p t : St p0 p -> TOK t -> post (parse_quote_verse t p) (St p0).
  Proof.
    intros H Ht. unfold parse_quote_verse.
    destruct (p_meta p) as [m|]; [destruct (m_type m) as [[]|] | destruct (p_open_type p)]; auto using leaf_ok, parent_ok.
  Qed.
  Lemma comment_block_ok p0 p t : St p0 p -> TOK t -> post (parse_comment_block t p) (St p0).
  Proof.
    intros H Ht. unfold parse_comment_block.
    assert (post (Ok p : result pstate) (St p0)) as K by (apply post_ok; exact H).
    destruct (p_open_type p) as [[]|]; try exact K; [|now apply leaf_ok].
    apply post_ok. destruct H as [H Ha]. pose proof (i_st _ _ H) as HS. split.
    - apply (s_bstack _ (set_istack [] p)); [apply s_istack; auto|]. cbn. destruct (p_bstack p); cbn; [constructor | now inversion HS].
    - cbn. destruct (p_bstack p); cbn in *; [exact I | tauto].
  Qed.
  Lemma block_label_ok p0 p : St p0 p -> St p0 (parse_block_label p).
  Proof.
    intros H. unfold parse_block_label. apply st_dangling; [|exact I].
    apply (st_title p0 p); [exact H | constructor].
  Qed.
  Lemma dispatch_ok p0 p t : St p0 p -> TOK t -> post (dispatch w t p) (St p0).
  Proof.
    intros H Ht. unfold dispatch.
    assert (post (Ok p : result pstate) (St p0)) as K by (apply post_ok; exact H).
    assert (forall i, DI i -> post (Ok (push_inline_back i p) : result pstate) (St p0)) as KI
      by (intros i Hi; apply post_ok; now apply st_push_inline).
    destruct (ttype t) eqn:Ety; try exact K;
    auto using title_ok, headings_ok, attribute_ok, block_attributes_ok, inline_attributes_ok, new_line_ok, charref_ok,
      attr_ref_ok, xref_ok, footnote_ok, inline_image_ok, macro_close_ok, break_ok, parent_ok, quote_verse_ok, leaf_ok,
      callout_ok, block_image_ok, unordered_ok, ordered_ok, dlist_term_ok, admonition_ok, continuation_ok, comment_block_ok,
      text_ok;
    try (eapply post_bind; [now apply span_from_token_ok|]; intros s Hs; now apply span_ok);
    try apply post_panic; try apply post_hang.
    all: first [ apply KI; first [apply DI_ref | apply DI_break]; solve [auto | exact I] | apply post_ok; exact H | now apply post_ok, block_label_ok
               | destruct (p_header p); [now apply move_header | exact K] ].
  Qed.

  (** ** Includes, table cells *)
  Definition rec_ok (rec : token -> pstate -> result pstate) : Prop :=
    forall p0 p t, St p0 p -> TOK t -> TIN (p_files p0) t -> post (rec t p) (St p0).
  Lemma include_loop_ok rec (Hrec : rec_ok rec) s p0 ts : Forall (fun t => TOK t /\ TIN (p_files p0) t) ts ->
    forall st p, St p0 p -> post (include_loop rec s st ts p) (St p0).
  Proof.
    induction 1 as [|t ts [Ht Hin] Hts IH]; intros st p H; cbn [include_loop]; [apply post_ok; exact H|].
    apply post_any. intros [keep st'] _. destruct keep; [|now apply IH].
    apply (post_bind _ _ _ (St p0)).
    - destruct (inc_adoc s).
      + eapply post_bind; [apply (Hrec p0); eassumption|]. intros p1 H1. apply post_ok. exact H1.
      + apply (text_ok p0); auto.
    - intros p1 H1. now apply IH.
  Qed.
  Lemma cell_loop_ok rec (Hrec : rec_ok rec) line col p0 ts :
    Forall (fun x => TOK (update_token_loc_offsets_by x line col)
                     /\ TIN (p_files p0) (update_token_loc_offsets_by x line col)) ts -> forall p, St p0 p ->
    post (cell_loop rec line col ts p) (St p0).
  Proof.
    induction 1 as [|t ts [Ht Hin] Hts IH]; intros p H; cbn [cell_loop]; [apply post_ok; exact H|].
    eapply post_bind; [apply (Hrec p0); eassumption|]. intros p1 H1. now apply IH.
  Qed.
  Lemma include_ok rec (Hrec : rec_ok rec) p0 p t : St p0 p -> TOK t -> TIN (p_files p0) t -> ttype t = TInclude ->
    post (parse_include w rec t p) (St p0).
  Proof.
    intros H Ht Hin Ety. unfold parse_include. apply post_any. intros [target m] Etg.
    apply (post_bind _ _ _ (St p0)).
    - destruct m; [|apply post_ok; exact H]. destruct (mget _ _); [now apply level_offset_ok | apply post_ok; exact H].
    - clear H p. intros p H. apply post_any. intros spec _. apply post_any. intros path Epath.
      cbn zeta. set (p1 := set_files (p_files p ++ [target]) p).
      destruct (w_read w path) as [content|] eqn:Er; [|apply post_exit].
      destruct (scan_stream content (p_files p1)) as [ts e] eqn:Es.
      destruct H as [[[] (F1 & F2 & F3)] Ha].
      assert (w_canon w (resolve_path origin (p_files p) target) = Some path) as Ep.
      { unfold resolve_target in Epath. rewrite F2 in Epath. destruct (w_canon _ _); congruence. }
      rewrite <- F1 in Hin.
      destruct (INC _ _ _ _ _ _ ltac:(eassumption) Ht Hin Ety Etg Ep Er) as [Hfs Hts].
      assert (St p1 p1) as H1.
      { split; [|exact Ha]. split; [constructor; cbn; assumption | repeat split; cbn; assumption]. }
      change (p_files p ++ [target]) with (p_files p1) in Hts. rewrite Es in Hts. cbn [fst] in Hts.
      eapply post_bind; [apply (include_loop_ok rec Hrec _ p1 _ Hts _ p1); exact H1|].
      intros p2 H2. apply post_any. intros _ _. eapply post_bind; [apply (add_inlines p1); exact H2|].
      clear H2 p2. intros p2 H2. eapply post_bind; [apply (flush_ok _ _ p1); exact H2|].
      clear H2 p2. intros p2 [[I2 (G1 & G2 & G3)] A2]. apply post_ok.
      cbn in G1, G2, G3.
      assert (removelast (p_files p2) = p_files p) as Ef by (rewrite G1; apply removelast_last).
      split; [|exact A2]. split.
      + destruct I2. constructor; cbn; try assumption. rewrite Ef. assumption.
      + repeat split; cbn; congruence.
  Qed.
  Lemma cell_ok rec (Hrec : rec_ok rec) p0 p t : St p0 p -> TOK t -> TIN (p_files p0) t -> ttype t = TTableCell ->
    post (parse_table_cell rec t p) (St p0).
  Proof.
    intros H Ht Hin Ety. unfold parse_table_cell. apply post_any. intros contents Ec.
    assert (FS (p_files p0)) as Hfs.
    { destruct H as [[Hi (F1 & _)] _]. rewrite <- F1. exact (v_files _ _ _ _ _ _ _ _ _ Hi). }
    eapply post_bind; [apply (push_ns p0); [exact H | | reflexivity]|].
    - apply fresh_GB; cbn; auto.
    - clear H p. intros p H. destruct (scan_stream contents []) as [ts e] eqn:Es.
      pose proof (CELL _ _ _ Hfs Ht Hin Ety Ec) as Hts. rewrite Es in Hts. cbn in Hts.
      eapply post_bind; [apply (cell_loop_ok rec Hrec _ _ p0 _ Hts); now apply st_dangling|].
      intros p1 H1. apply post_any. intros _ _. now apply add_inlines.
  Qed.
  Lemma token_into_ok fuel : rec_ok (token_into w fuel).
  Proof.
    induction fuel as [|fuel IH]; intros p0 p t H Ht Hin; cbn [token_into].
    all: apply (post_bind _ _ _ (St p0));
      [destruct (p_header p); [|apply post_ok; exact H]; destruct (can_be_in_document_header t);
       [apply post_ok; exact H | now apply move_header]|].
    all: clear H p; intros p H; destruct (pre_dispatch t p); [apply text_ok; auto | now apply pass_ok|].
    all: destruct (ttype t) eqn:Ety; try (now apply dispatch_ok); try apply post_hang.
    - now apply cell_ok.
    - now apply include_ok.
  Qed.
  Lemma parse_loop_ok fuel p0 ts : Forall (fun t => TOK t /\ TIN (p_files p0) t) ts -> forall p, St p0 p ->
    post (parse_loop w fuel ts p) (St p0).
  Proof.
    induction 1 as [|t ts [Ht Hin] Hts IH]; intros p H; cbn [parse_loop]; [apply post_ok; exact H|].
    eapply post_bind; [apply (token_into_ok fuel p0); eassumption|]. intros p1 H1. now apply IH.
  Qed.
  Lemma asg_consolidate_ok a : AI a -> AI (asg_consolidate a).
  Proof.
    intros (H1 & H2 & H3 & H5 & H4). repeat split; auto; cbn.
    - apply Forall_map. eapply Forall_impl; [|exact H1]. intros b Hb. apply map_inlines_ok; [|exact Hb].
      intros i Hi. now apply xref_std_ok.
    - unfold asg_consolidate_locations. destruct (last_opt (a_blocks a)) as [b|] eqn:E.
      + apply last_opt_inv in E as [k E]. rewrite E in H1. apply Forall_app in H1 as [_ H1]. apply Forall_inv in H1.
        apply PL_rec; [exact H4 | now apply GB_locs].
      + destruct (a_header a) as [h|]; [|exact H4]. apply PL_rec; [exact H4 | apply H3].
  Qed.
  Theorem parse_with_ok fuel s p : Forall (fun t => TOK t /\ TIN (p_files p) t) (fst s) -> St p (set_asg new_asg p) ->
    post (parse_with w fuel s p) (fun x => AI (fst x) /\ p_files (snd x) = p_files p).
  Proof.
    intros Hs H. unfold parse_with.
    eapply post_bind; [apply (parse_loop_ok fuel p _ Hs); exact H|]. intros p1 H1. apply post_any. intros _ _.
    eapply post_bind; [apply (add_inlines p); exact H1|]. clear H1 p1. intros p1 H1.
    eapply post_bind; [apply (flush_ok _ _ p); exact H1|]. clear H1 p1. intros p1 [[I1 F] _]. apply post_ok.
    split; [apply asg_consolidate_ok; apply (v_asg _ _ _ _ _ _ _ _ _ I1) | apply F].
  Qed.
  Theorem parse_ok fuel resolve src : FS [] -> Forall (fun t => TOK t /\ TIN [] t) (fst (scan_stream src [])) ->
    post (parse w fuel origin resolve src) AI.
  Proof.
    intros Hf Hs. unfold parse. eapply post_bind; [apply parse_with_ok; [exact Hs|]|].
    - split; [|exact I]. split; [constructor; cbn; auto; try exact I | repeat split].
      + split; [constructor|constructor].
      + repeat split; cbn; auto.
    - intros [a p] [H _]. apply post_ok. exact H.
  Qed.
End Invariant.
