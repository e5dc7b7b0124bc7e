(** * Documents in several files *)
From Verif Require VerbatimProofs SelectProofs AttrProofs SpecAttrs ScanMain ScanStart ScanLemmas.
From Verif Require Import Base World Location Token Scanner Meta Inline Block Asg Parser SpecScan SpecLex SpecDoc SpecArticle SpecSelect
  DocGraph GraphLemmas ArticleGraph ScanWhole ScriptWords ScriptText ScriptLocs ScriptDecor ScriptGraph ScriptBlocks ScriptCells ScriptRefs ScriptWhole SpecScript SpecCut.
Local Open Scope char_scope.
Local Open Scope nat_scope.
Local Arguments reconcile : simpl never.
Local Arguments token_locations : simpl never.
Local Arguments token_text : simpl never.
Local Arguments consolidate_locations : simpl never.
Local Arguments last_opt : simpl never.
Local Arguments push_block : simpl never.

(** ** The directive *)
Lemma file_token w t target : token_text t = bs "include::" ++ target ++ bs "[" ++ [] ++ bs "]" -> ttype t = TInclude ->
  target_fits target = true -> match target with [] => True | c :: _ => is_cont c = false end ->
  target_and_attrs_from_token w t = Ok (target, None).
Proof.
  intros X T F S. unfold target_and_attrs_from_token. rewrite X, T.
  change 9 with (List.length (bs "include::")). rewrite slice_tail.
  2: { destruct target; [reflexivity|exact S]. }
  cbn [bind]. change (bs "[" ++ [] ++ bs "]") with ("[" :: [] ++ ["]"]). rewrite span_target by exact F. rewrite firstn_app, firstn_all, Nat.sub_diag, app_nil_r.
  pose proof (slice_mid (E := error) (target ++ ["["]) [] ["]"]) as M. rewrite <- app_assoc in M. cbn [app] in M.
  cbn [app]. replace (List.length (target ++ ["["; "]"]) <? 1) with false by (symmetry; apply Nat.ltb_ge; rewrite app_length; cbn; lia).
  replace (List.length (target ++ ["["; "]"]) - 1) with (List.length (target ++ ["["]) + 0) by (rewrite !app_length; cbn; lia).
  replace (List.length target + 1) with (List.length (target ++ ["["])) by (rewrite app_length; reflexivity).
  cbn [List.length] in M. rewrite M; [|reflexivity|reflexivity]. reflexivity.
Qed.
Lemma asked_token w t target asked : is_word (file_word target asked) t -> asked_ok asked -> asked <> [] ->
  target_fits target = true -> match target with [] => True | c :: _ => is_cont c = false end ->
  exists m, target_and_attrs_from_token w t = Ok (target, Some m) /\ mget (bs "leveloffset") (m_attrs m) = None
    /\ forall k, mget k (m_attrs m) = asked_for asked k.
Proof.
  intros W [->|(Io & Ne & Re & Lo)] N F S; [congruence|].
  assert (SpecAttrs.read_as target asked (target_and_attrs_from_token w t)) as R.
  { apply AttrProofs.directive_list; auto.
    - intros I. unfold target_fits in F. apply negb_true_iff in F. assert (existsb (Ascii.eqb "[") target = true) as E by (apply existsb_exists; exists "["; split; [exact I|reflexivity]). congruence.
    - rewrite (word_type _ _ W). discriminate.
    - rewrite (word_type _ _ W). exact (word_text _ _ W). }
  unfold SpecAttrs.read_as in R. destruct (SpecAttrs.list_text asked) as [|c r]; [congruence|]. rewrite Re in R. destruct R as (m & E & A).
  exists m. assert (forall k, mget k (m_attrs m) = asked_for asked k) as K.
  { intros k. destruct A as (_ & _ & _ & _ & _ & A). rewrite A. unfold asked_for. now destruct (SpecAttrs.last_given None (SpecAttrs.order asked) k). }
  split; [exact E|]. split; [now rewrite K|exact K].
Qed.
(** ** The tokens of a file *)
Lemma stream_words content files : Forall (fun t => is_word (ttype t, lexeme t) t /\ tfiles t = files) (fst (scan_stream content files)).
Proof.
  destruct (ScanStart.stream_yields content files) as [sc Y]. induction Y as [|ts sc t sc' Y IH N]; [constructor|]. apply Forall_app. split; [exact IH|]. constructor; [|constructor].
  destruct (ScanMain.yields_inv _ _ _ _ Y) as (_ & Fs & _).
  assert (is_tag t \/ ~ is_tag t) as [T|T] by (unfold is_tag; destruct (ttype t); ((left; left; reflexivity) || (left; right; reflexivity) || (right; intros [?|?]; discriminate))).
  - apply ScanMain.next_some in N as [[_ [P|O]]|E].
    + exfalso. destruct P as (adv & lit & P1 & P2 & P3 & P4 & P5 & P6 & P7 & P8 & P9 & P10 & P11 & P12 & P13 & P14 & (_ & Q) & _).
      destruct Q as (_ & _ & Q1 & Q2 & _); [lia|]. destruct T as [T|T]; contradiction.
    + destruct O as (_ & _ & _ & _ & _ & _ & _ & O1 & O2 & _). split; [|rewrite O1; exact Fs]. split; [reflexivity|]. split; [reflexivity|]. cbn [fst snd]. rewrite O2. destruct T as [T|T]; rewrite T; reflexivity.
    + destruct E as (_ & _ & -> & _). destruct T as [T|T]; discriminate T.
  - assert (ttype t = TEof \/ ttype t <> TEof) as [E|E] by (destruct (ttype t); auto; right; discriminate).
    + apply ScanMain.next_some in N as [[_ [P|O]]|Q].
      * exfalso. destruct P as (adv & lit & P1 & P2 & P3 & P4 & P5 & P6 & P7 & P8 & P9 & P10 & P11 & P12 & P13 & P14 & (_ & Q) & _).
        destruct Q as (_ & _ & _ & _ & Q & _); [lia|contradiction].
      * now destruct O as (O & _).
      * destruct Q as (_ & _ & -> & _). split; [repeat split|exact Fs].
    + destruct (step_token _ _ _ N T E) as (Et & _). split; [|rewrite Et; exact Fs]. split; [reflexivity|]. split; [reflexivity|]. cbn [fst snd]. rewrite Et at 1. reflexivity.
Qed.
Lemma lines_weak m m' ts ts' : (forall k, mget k (m_attrs m) = mget k (m_attrs m')) -> by_lines m ts ts' -> by_lines m' ts ts'.
Proof. unfold by_lines. now intros ->. Qed.
Lemma tags_weak m m' ts ts' : (forall k, mget k (m_attrs m) = mget k (m_attrs m')) -> by_tags m ts ts' -> by_tags m' ts ts'.
Proof. unfold by_tags, asks. intros E (tags & H & K). exists tags. split; [|exact K]. destruct H as (a & b & H1 & H2 & H3). exists a, b. rewrite <- !E. auto. Qed.
Lemma lines_kept (P : token -> Prop) m ts ts' : by_lines m ts ts' -> Forall P ts -> Forall P ts'.
Proof.
  unfold by_lines. destruct (mget _ _) as [v|]; [|now intros ->]. intros (l & _ & _ & ->) F. rewrite Forall_forall in *. intros t I. apply filter_In in I as [I _]. auto.
Qed.
Lemma tagged_kept (P : token -> Prop) tags pre ts ts' : tagged tags pre ts ts' -> Forall P ts -> Forall P ts'.
Proof. induction 1 as [| | |]; intros F; [constructor|inversion F; subst; constructor; auto|inversion F; auto|inversion F; auto]. Qed.
Lemma tags_kept (P : token -> Prop) m ts ts' : by_tags m ts ts' -> Forall P ts -> Forall P ts'.
Proof. intros (tags & _ & [(_ & ->)|(_ & _ & _ & T)]) F; [exact F|]. exact (tagged_kept P _ _ _ _ T F). Qed.
Lemma own_words ts : Forall (fun t => is_word (ttype t, lexeme t) t) ts -> are_words (map (fun t => (ttype t, lexeme t)) ts) ts.
Proof. induction 1; constructor; auto. Qed.
Lemma steady_lined files ts : steady ts -> Forall (fun t => tfiles t = files) ts -> lined files ts.
Proof.
  intros S F. destruct ts as [|t ts]; [exists 0; exact Logic.I|]. exists (tline t). revert t S F. induction ts as [|u ts IH]; intros t S F; inversion F as [|? ? F1 F2]; subst; cbn [linear].
  - repeat split.
  - cbn [steady] in S. destruct S as (S1 & S2). split; [now split|]. specialize (IH u S2 F2). unfold next_line. cbn [linear] in IH. 
    assert (match ttype t with TNewLineChar => S (tline t) | _ => tline t end = tline u) as -> by now rewrite S1. exact IH.
Qed.
Lemma feed_loop w f ts : forall p, feed (token_into w f) true ts p = parse_loop w f ts p.
Proof. induction ts as [|t ts IH]; intros p; [reflexivity|]. cbn [feed parse_loop]. destruct (token_into w f t p) as [q| | | |]; cbn [bind]; auto. Qed.
Lemma sealed_flow o g : g_flow (sealed o g) = g_flow g.
Proof. now destruct o. Qed.
Lemma body_flow b : forall g, exists r, g_flow (body_page b g) = g_flow g ++ r.
Proof.
  induction b as [|c l e|c x r IH|t ak f IHf n r IHr]; intros g; cbn [body_page].
  - exists []. now rewrite app_nil_r.
  - eexists. reflexivity.
  - destruct (IH (piece_page c x g)) as (q & ->). destruct (pieces_flow [(c, x)] g) as (s & E). cbn in E. rewrite E, <- app_assoc. eauto.
  - destruct (IHr (sealed (g_open g) (body_page f g))) as (q & ->). rewrite sealed_flow. destruct (IHf g) as (s & ->). rewrite <- app_assoc. eauto.
Qed.
Lemma body_clear b g : clear 0 (g_flow (body_page b g)) = true -> clear 0 (g_flow g) = true.
Proof. destruct (body_flow b g) as (r & ->). apply clear_prefix. Qed.

Section Files.
  Variables (w : world) (origin : bytes) (resolve : bool) (h : option (list inline)).
  Notation stm files := (stm (origin, files) resolve).
  Ltac cst := unfold ScriptBlocks.stm; pst.

  Lemma flush_some files lst attrs bst keep il force close dang a g (o : bool) : room (KTop h) [] bst a g -> flat (g_flow g) -> clear 0 (g_flow g) = true ->
    exists bst' a', flush_to (if o then 1 else 0) (stm files None lst attrs bst [] [] keep il force close dang a)
      = Ok (stm files None lst attrs bst' [] [] keep il force close dang a') /\ room (KTop h) [] bst' a' (sealed o g).
  Proof.
    intros R F C. destruct o.
    - exists bst, a. split; [|exact R]. destruct R as (_ & R & _).
      assert (List.length bst <= 1) as Lb by (destruct R as [(_ & -> & _)|(_ & s & ? & ? & ? & ? & ? & ? & -> & _)]; cbn; lia).
      unfold flush_to. cst. destruct bst as [|x [|y bst]]; [reflexivity|reflexivity|cbn in Lb; lia].
    - destruct (end_flush (origin, files) resolve h lst attrs bst keep force close dang a g R F C il) as (a' & E & Eb & Eh). exists [], a'. split; [exact E|].
      split; [reflexivity|]. split; [left; auto|exact Eh].
  Qed.
  (** the end of a file: what is left is delivered, and the blocks opened in it are closed *)
  Definition drained files (g : page) (o : bool) (q : pstate) : Prop :=
    exists lst attrs bst il force dang a,
      (let* p := add_inlines_to_block_stack q in flush_to (if o then 1 else 0) p)
        = Ok (stm files None lst attrs bst [] [] (g_keep g) il force (g_flag g) dang a)
      /\ agrees attrs (g_env g) /\ room (KTop h) [] bst a (sealed o g) /\ held [] (g_keep g) /\ flat (g_flow g).
  Lemma drain_idle files lst attrs bst il force dang a g o : agrees attrs (g_env g) -> room (KTop h) [] bst a g -> held [] (g_keep g) -> flat (g_flow g) ->
    clear 0 (g_flow g) = true -> drained files g o (stm files None lst attrs bst [] [] (g_keep g) il force (g_flag g) dang a).
  Proof.
    intros A R Hc F C. destruct (flush_some files lst attrs bst (g_keep g) il force (g_flag g) dang a g o R F C) as (bst' & a' & E & R').
    exists lst, attrs, bst', il, force, dang, a'. rewrite add_nothing. cbn [bind]. auto.
  Qed.
  Lemma drain_para files m lst attrs bst ist x il force dang a g (o : bool) : agrees attrs (g_env g) -> room (KTop h) [] bst a g -> flat (g_flow g) ->
    held [] (g_keep g) -> free (KTop h) force bst -> map unplaced_inline (rev ist) = x -> ist <> [] -> Forall located ist ->
    (o = true -> g_open g = true) ->
    clear 0 (g_flow (place (wrapped (option_map unplaced_meta m) x) g)) = true ->
    drained files (place (wrapped (option_map unplaced_meta m) x) g) o (stm files m lst attrs bst ist [] (g_keep g) il force (g_flag g) dang a).
  Proof.
    intros A R F Hc Fr B N Lo Ho C. unfold drained.
    destruct (add_para (origin, files) resolve (KTop h) m lst attrs bst ist x [] (g_keep g) il force (g_flag g) dang a g B N (or_intror (conj eq_refl Lo)) Hc R Fr) as (b & -> & Eb). cbn [bind].
    assert (sound b) as Sb by (apply sound_unplaced; rewrite Eb; apply sound_wrapped).
    destruct (deliver (origin, files) resolve h lst attrs b bst [] (g_keep g) il force (g_flag g) dang a g R Sb) as (bst' & a1 & _ & E & R').
    rewrite Eb in R'.
    assert (flat (g_flow (place (wrapped (option_map unplaced_meta m) x) g))) as F'.
    { cbn [place g_flow]. apply flat_app. split; [assumption|]. apply Forall_cons; [|constructor]. apply sound_settled. apply sound_wrapped. }
    destruct (flush_some files lst attrs bst' (g_keep g) il force (g_flag g) dang a1 _ o R' F' C) as (bst2 & a2 & E2 & R2).
    exists lst, attrs, bst2, il, force, dang, a2. split; [|auto]. refine (eq_trans _ E2). clear E2.
    assert (add_last_block_to_graph (stm files None lst attrs (b :: bst) [] [] (g_keep g) il force (g_flag g) dang a)
      = add_last_to_block_stack_or_graph (stm files None lst attrs (b :: bst) [] [] (g_keep g) il force (g_flag g) dang a)) as Eq.
    { unfold add_last_block_to_graph, add_last_to_block_stack_or_graph. cst. reflexivity. }
    assert (List.length bst' = List.length bst) as El.
    { destruct R as (_ & R & _), R' as (_ & R' & _). cbn [place g_open] in R'.
      destruct R as [(O1 & -> & _)|(O1 & s & ? & ? & ? & ? & ? & ? & -> & _)]; destruct R' as [(O2 & -> & _)|(O2 & s2 & ? & ? & ? & ? & ? & ? & -> & _)]; congruence || reflexivity. }
    assert ((if o then 1 else 0) < S (List.length bst)) as Ln.
    { destruct o; [|lia]. destruct R as (_ & R & _). destruct R as [(O1 & _)|(_ & s & ? & ? & ? & ? & ? & ? & -> & _)]; [rewrite Ho in O1 by reflexivity; discriminate|cbn; lia]. }
    unfold flush_to. change (p_bstack (stm files None lst attrs (b :: bst) [] [] (g_keep g) il force (g_flag g) dang a)) with (b :: bst).
    cbn [List.length flush_blocks]. change (p_bstack (stm files None lst attrs (b :: bst) [] [] (g_keep g) il force (g_flag g) dang a)) with (b :: bst).
    cbn [List.length]. destruct (Nat.leb_spec (S (List.length bst)) (if o then 1 else 0)) as [H|_]; [lia|].
    rewrite Eq, E. cbn [bind]. change (p_bstack (stm files None lst attrs bst' [] [] (g_keep g) il force (g_flag g) dang a1)) with bst'. now rewrite El.
  Qed.

  Lemma eof_step fuel files te m lst attrs bst ist keep il force close dang a : is_word (TEof, []) te ->
    parse_loop w fuel [te] (stm files m lst attrs bst ist [] keep il force close dang a) = Ok (stm files m TEof attrs bst ist [] keep il force close dang a).
  Proof.
    intros We. cbn [parse_loop]. rewrite (go w fuel (origin, files) resolve (TEof, [])) by (assumption || discriminate).
    unfold dispatch. rewrite (word_type _ _ We). cbn [fst bind]. reflexivity.
  Qed.
  Lemma tail_step fuel files e ts m lst attrs bst ist keep il force close dang a : e = [] \/ e = [(TEof, [])] -> are_words e ts ->
    exists lst', parse_loop w fuel ts (stm files m lst attrs bst ist [] keep il force close dang a) = Ok (stm files m lst' attrs bst ist [] keep il force close dang a).
  Proof.
    intros [->| ->] W; [inversion W; subst; now exists lst|]. apply words_cons in W as (te & t2 & -> & We & W). inversion W. subst t2. exists TEof. now apply eof_step.
  Qed.
  Lemma include_step f files t target asked p path content ts : is_word (file_word target asked) t -> asked_ok asked -> is_adoc target = true -> target_fits target = true ->
    match target with [] => True | c :: _ => is_cont c = false end ->
    w_canon w (resolve_path origin files target) = Some path -> w_read w path = Some content ->
    match asked with [] => scan_stream content (files ++ [target]) = (ts, Ok Datatypes.tt)
    | _ => snd (scan_stream content (files ++ [target])) = Ok Datatypes.tt /\ chosen asked (fst (scan_stream content (files ++ [target]))) ts end ->
    p_origin p = origin -> p_files p = files -> p_header p = None -> p_open_type p = None ->
    token_into w (S f) t p
    = (let* q := parse_loop w f ts (set_files (files ++ [target]) p) in
       let* q := add_inlines_to_block_stack q in
       let* q := flush_to (List.length (p_bstack p)) q in
       Ok (set_files (removelast (p_files q)) q)).
  Proof.
    intros W Ao Ad Tf Ts Ec Er Es Po Pf Ph Pt. cbn [token_into]. rewrite Ph. cbn [bind]. unfold pre_dispatch. rewrite Pt, (word_type _ _ W). cbn [fst file_word].
    destruct asked as [|x asked].
    - unfold parse_include. rewrite (file_token w t target (word_text _ _ W) (word_type _ _ W) Tf Ts). cbn [bind include_spec_of]. unfold resolve_target.
      rewrite Po, Pf, Ec. cbn [bind]. rewrite Er. assert (p_files (set_files (files ++ [target]) p) = files ++ [target]) as -> by (now destruct p). rewrite Es.
      cbn [inc_lines]. rewrite SelectProofs.loop_feed. change (ends_adoc target) with (is_adoc target). rewrite Ad, feed_loop.
      assert (p_bstack (set_files (files ++ [target]) p) = p_bstack p) as -> by (now destruct p). reflexivity.
    - destruct Es as (Se & m & ts1 & Km & L1 & L2). destruct (asked_token w t target _ W Ao ltac:(discriminate) Tf Ts) as (m' & Et & Lo & Km').
      assert (forall k, mget k (m_attrs m) = mget k (m_attrs m')) as K by (intros k; now rewrite Km, Km').
      rewrite (SelectProofs.include_takes w _ t p target m' content ts1 ts).
      + unfold take_in. rewrite Ad, feed_loop, Pf, Se. reflexivity.
      + split; [exact Et|]. split; [exact Lo|]. exists path. now rewrite Po, Pf.
      + rewrite Pf. exact (lines_weak _ _ _ _ K L1).
      + exact (tags_weak _ _ _ _ K L2).
  Qed.

  Lemma file_words files t ak f content :
    match ak with
    | [] => utf8 content /\ tokenised [] content (body_words f ++ [(TEof, [])])
    | _ => exists ts, scan_stream content (files ++ [t]) = (ts, Ok Datatypes.tt) /\ parted ak f ts
    end ->
    exists ts z, (z = [] \/ z = [(TEof, [])])
      /\ match ak with [] => scan_stream content (files ++ [t]) = (ts, Ok Datatypes.tt)
         | _ => snd (scan_stream content (files ++ [t])) = Ok Datatypes.tt /\ chosen ak (fst (scan_stream content (files ++ [t]))) ts end
      /\ are_words (body_words f ++ z) ts /\ (gridless f = true \/ lined (files ++ [t]) ts).
  Proof.
    destruct ak as [|x ak].
    - intros (U & K). exists (laid (files ++ [t]) 1 1 (body_words f ++ [(TEof, [])])), [(TEof, [])]. split; [now right|]. split; [|split].
      + apply VerbatimProofs.scan_is_stream. apply (proj2 (scan_is_grammar content (files ++ [t]) U _)). eauto.
      + exact (laid_words (files ++ [t]) _ _ _ K 1 1).
      + right. exists 1. apply laid_linear.
    - intros (ts & Es & ts' & Ch & Wd & Gr). exists ts'. pose proof (stream_words content (files ++ [t])) as F. rewrite Es in F |- *. cbn [fst snd] in F |- *.
      assert (Forall (fun t' => is_word (ttype t', lexeme t') t' /\ tfiles t' = files ++ [t]) ts') as F'.
      { destruct Ch as (m & ts1 & _ & C1 & C2). exact (tags_kept _ _ _ _ C2 (lines_kept _ _ _ _ C1 F)). }
      assert (are_words (map (fun t => (ttype t, lexeme t)) ts') ts') as Ww by (apply own_words; revert F'; apply Forall_impl; tauto).
      assert (gridless f = true \/ lined (files ++ [t]) ts') as Ll.
      { destruct Gr as [Gr|Gr]; [now left|right]. apply steady_lined; [exact Gr|]. revert F'. apply Forall_impl. tauto. }
      destruct Wd as [Wd|Wd]; rewrite Wd in Ww; [exists []; rewrite app_nil_r|exists [(TEof, [])]]; repeat split; auto.
  Qed.
  Lemma body_step b : forall z fuel files g p ts, z = [] \/ z = [(TEof, [])] -> at_rest (origin, files) resolve (KTop h) g p -> body_ok b g -> stored w origin resolve files b -> depth b <= fuel ->
    are_words (body_words b ++ z) ts -> gridless b = true \/ lined files ts -> clear 0 (g_flow (body_page b g)) = true ->
    exists q, parse_loop w fuel ts p = Ok q /\ forall o : bool, (o = true -> g_open (body_page b g) = true) -> drained files (body_page b g) o q.
  Proof.
    induction b as [|c l e|c x r IH|t ak f IHf n r IHr]; intros z fuel files g p ts Hz R Hb St Hd W Ln C.
    - cbn [body_words app] in W.
      destruct R as (lst & attrs & bst & ol & force & a & -> & L & A & R & Hc & F & N1 & N2). assert (ol = []) as -> by now destruct R.
      destruct (tail_step fuel files z ts None lst attrs bst [] (g_keep g) false force (g_flag g) None a Hz W) as (lst' & E).
      eexists. split; [exact E|]. intros o _. cbn [body_page] in *. now apply drain_idle.
    - cbn [body_words body_ok body_page] in *. rewrite <- !app_assoc in W.
      apply words_split in W as (t0 & t' & -> & W0 & W). apply words_split in W as (t1 & t2 & -> & W1 & W2). destruct Hb as [Hc Hl].
      apply words_split in W2 as (t3 & t4 & -> & W3 & W4).
      destruct (decors_step w fuel (origin, files) resolve _ g p c t0 R Hc W0) as (p0 & E0 & P0).
      destruct P0 as (m & lst & attrs & bst & ol & force & a & dang & -> & M & D & L & A & R0 & Hh & F & N1 & N2). assert (ol = []) as -> by now destruct R0.
      assert (exists m' lst' ist' il' dang', parse_loop w fuel (t1 ++ t3) (stm files m lst attrs bst [] [] (g_keep g) false force (g_flag g) dang a)
        = Ok (stm files m' lst' attrs bst ist' [] (g_keep g) il' (force || styled l) (g_flag g || macros l) dang' a)
        /\ map unplaced_inline (rev ist') = text_inlines (g_keep g) (g_env g) (dress c) (waits (g_keep g) c) l
        /\ option_map unplaced_meta m' = text_rest (g_keep g) (g_env g) (dress c) (waits (g_keep g) c) l /\ ist' <> [] /\ Forall located ist')
        as (m1 & l1 & i1 & il1 & d1 & E1 & B1 & M1 & Ni & Lo).
      { rewrite <- M. destruct e.
        - apply words_cons in W3 as (tn & t6 & -> & W3 & W6). inversion W6. subst.
          destruct (line_loop w fuel (origin, files) resolve l t1 tn m lst attrs (g_env g) bst [] (g_keep g) false force (g_flag g) dang (waits (g_keep g) c) a A W1 Hl D W3) as (i1 & m1 & d1 & E1 & H1).
          exists m1, TNewLineChar, i1, false, d1. auto.
        - inversion W3. subst. rewrite app_nil_r.
          destruct (text_loop w fuel (origin, files) resolve l t1 m lst attrs (g_env g) bst [] (g_keep g) false force (g_flag g) dang (waits (g_keep g) c) a A W1 Hl D) as (l1 & i1 & m1 & il1 & d1 & E1 & S & H1 & H2 & H3 & H4 & _).
          exists m1, l1, i1, il1, d1. auto. }
      destruct (tail_step fuel files z t4 m1 l1 attrs bst i1 (g_keep g) il1 (force || styled l) (g_flag g || macros l) d1 a Hz W4) as (l2 & E2).
      exists (stm files m1 l2 attrs bst i1 [] (g_keep g) il1 (force || styled l) (g_flag g || macros l) d1 a). split.
      { apply (loop_join w fuel _ _ _ _ _ E0). rewrite app_assoc. exact (loop_join w fuel _ t4 _ _ _ E1 E2). }
      intros o Ho. unfold page_para in C, Ho |- *. rewrite <- M1 in C, Ho |- *.
      change (g_keep g) with (g_keep (flag_page (macros l) g)). change (g_flag g || macros l) with (g_flag (flag_page (macros l) g)).
      apply drain_para; auto. now apply free_styled.
    - cbn [body_words body_ok body_page stored depth] in *. destruct Hb as [H1 H2]. destruct St as [S1 S2]. rewrite <- !app_assoc in W. rewrite app_assoc in W.
      apply words_split in W as (t1 & t2 & -> & W1 & W2).
      assert ((forall title gap rows, x = Grid title gap rows -> lined files t1) /\ (gridless r = true \/ lined files t2)) as [Ln1 Ln2].
      { destruct Ln as [Ln|Ln]; [|apply lined_app in Ln as [? ?]; split; [intros; assumption|now right]]. cbn [gridless] in Ln. split; [intros ? ? ? ->; discriminate|left; now destruct x]. }
      destruct (piece_step w fuel (origin, files) resolve h g p c x t1 R H1) as (p1 & E1 & R1); [|exact W1|exact Ln1|cbn [shows]; now apply body_clear in C|].
      { destruct x as [| | | | |title target alt| |title gap rows]; cbn in S1, Hd |- *; auto. split; [|exact S1]. destruct (grid_cells rows); [now left|right; lia]. }
      destruct (IH z fuel files (piece_page c x g) p1 t2 Hz R1 H2 S2) as (q & E2 & D2); auto; [lia|].
      exists q. split; [|exact D2]. exact (loop_join w fuel _ _ _ _ _ E1 E2).
    - cbn [body_words body_ok body_page stored depth] in *. destruct Hb as (Ao & Ad & Tf & Ts & Hf & Ho & Hn & Hr). destruct St as ((path & content & Ec & Er & K) & Sf & Sr).
      cbn [app] in W. rewrite <- app_assoc in W. apply words_cons in W as (ti & t2 & -> & Wi & W). apply words_split in W as (t3 & t4 & -> & W3 & W4).
      assert (gridless r = true \/ lined files t4) as Ln4.
      { destruct Ln as [Ln|Ln]; [now left|right]. apply lined_app with (a := [ti]) in Ln as [_ Ln]. now apply lined_app in Ln as [_ Ln]. }
      destruct fuel as [|fu]; [lia|].
      destruct (file_words files t ak f content K) as (fts & y & Hy & Es & Wl & Ll).
      pose proof R as (lst & attrs & bst & ol & force & a & Ep & L & A & R0 & Hc & F & N1 & N2). assert (ol = []) as -> by now destruct R0.
      assert (at_rest (origin, files ++ [t]) resolve (KTop h) g (set_files (files ++ [t]) p)) as Rf.
      { exists lst, attrs, bst, [], force, a. split; [now rewrite Ep|]. repeat (split; [assumption|]). assumption. }
      assert (clear 0 (g_flow (body_page f g)) = true) as Cf by (apply body_clear in C; now rewrite sealed_flow in C).
      destruct (IHf y fu (files ++ [t]) g _ fts Hy Rf Hf Sf) as (q & E1 & D1); auto; [lia|].
      assert (List.length (p_bstack p) = if g_open g then 1 else 0) as Eb.
      { rewrite Ep. cbn. destruct R0 as (_ & R0 & _). destruct R0 as [(-> & -> & _)|(-> & s & ? & ? & ? & ? & ? & ? & -> & _)]; reflexivity. }
      destruct (D1 (g_open g) Ho) as (lst1 & at1 & bst1 & il1 & force1 & dang1 & a1 & E2 & A1 & R1 & Hc1 & F1).
      set (g1 := sealed (g_open g) (body_page f g)) in *.
      assert (g_keep (body_page f g) = g_keep g1 /\ g_flag (body_page f g) = g_flag g1 /\ g_env (body_page f g) = g_env g1 /\ g_flow (body_page f g) = g_flow g1) as (K1 & K2 & K3 & K4)
        by (unfold g1; now destruct (g_open g)).
      rewrite K1 in Hc1. rewrite K3 in A1. rewrite K4 in F1, Cf. rewrite K1, K2 in E2.
      assert (token_into w (S fu) ti p = Ok (stm files None lst1 at1 bst1 [] [] (g_keep g1) il1 force1 (g_flag g1) dang1 a1)) as E3.
      { rewrite (include_step fu files ti t ak p path content fts); auto; try (now rewrite Ep). rewrite E1. cbn [bind]. rewrite Eb.
        destruct (add_inlines_to_block_stack q) as [q1| | | |]; try discriminate E2. cbn [bind] in E2 |- *. rewrite E2. cbn [bind].
        unfold ScriptBlocks.stm, tstate. cbn [p_files set_files fst snd]. now rewrite removelast_last. }
      rewrite (loop_cons w (S fu) _ _ _ _ E3), set_last_st, (word_type _ _ Wi). cbn [fst file_word].
      destruct n as [|n].
      { inversion W3. subst t3. cbn [app]. assert (r = Stop) as -> by (destruct Hn as [Hn|[_ Hn]]; [discriminate|exact Hn]).
        cbn [body_words app] in W4. destruct (tail_step (S fu) files z t4 None TInclude at1 bst1 [] (g_keep g1) il1 force1 (g_flag g1) dang1 a1 Hz W4) as (l2 & E4).
        eexists. split; [exact E4|]. intros o _. cbn [body_page]. now apply drain_idle. }
      cbn [repeat] in W3. apply words_cons in W3 as (tn & t5 & -> & Wn & W5). cbn [app].
      destruct (soft_newline w (S fu) (origin, files) resolve tn None TInclude at1 bst1 [] [] (g_keep g1) il1 force1 (g_flag g1) dang1 a1 Wn eq_refl) as (d2 & E4 & _).
      change (tn :: t5 ++ t4) with ([tn] ++ t5 ++ t4). rewrite (loop_join w (S fu) [tn] _ _ _ _ E4 eq_refl).
      destruct n as [|n].
      { inversion W5. subst t5. cbn [app]. assert (r = Stop) as -> by (destruct Hn as [Hn|[_ Hn]]; [discriminate|exact Hn]).
        cbn [body_words app] in W4. destruct (tail_step (S fu) files z t4 None TNewLineChar at1 bst1 [] (g_keep g1) false force1 (g_flag g1) d2 a1 Hz W4) as (l2 & E5).
        eexists. split; [exact E5|]. intros o _. cbn [body_page]. now apply drain_idle. }
      assert (n = 0) as -> by lia. cbn [repeat] in W5. apply words_cons in W5 as (tb & t6 & -> & Wb & W6). inversion W6. subst t6. cbn [app].
      destruct (blank_idle w (S fu) (origin, files) resolve (KTop h) g1 tb TNewLineChar at1 bst1 [] false force1 d2 a1 Wb eq_refl A1 R1 Hc1 F1 Logic.I) as (p' & E5 & P5).
      destruct (IHr z (S fu) files g1 p' t4 Hz P5 Hr Sr) as (q2 & E6 & D6); auto; [lia|].
      exists q2. split; [|exact D6]. exact (loop_join w (S fu) [tb] _ _ _ _ E5 E6).
  Qed.
End Files.

Theorem cut_graph w fuel origin resolve src d : utf8 src -> cut_ok d -> stored w origin resolve [] (ct_body d) -> depth (ct_body d) <= fuel ->
  tokenised [] src (cut_words d) ->
  exists g, parse w fuel origin resolve src = Ok g
    /\ map unplaced (a_blocks g) = cut_blocks d /\ heading_of g = cut_title d.
Proof.
  intros U (H & Hb & C) St Hd K. pose proof (laid_words [] _ _ _ K 1 1) as W.
  assert (scan_with src [] = Ok (laid [] 1 1 (cut_words d))) as S.
  { apply (proj2 (scan_is_grammar src [] U _)). eauto. }
  apply VerbatimProofs.scan_is_stream in S.
  assert (cut_words d = start_words (beginning d) ++ body_words (ct_body d) ++ [(TEof, [])]) as E by reflexivity.
  assert (match laid [] 1 1 (cut_words d) with t :: _ => ttype t = TEof \/ first_location t = mkLoc 1 1 [] | [] => True end) as L.
  { clear. destruct (cut_words d) as [|[ty l] ks]; [exact Logic.I|]. cbn. destruct ty; cbn; auto. }
  assert (lined [] (laid [] 1 1 (cut_words d))) as Ln by (exists 1; apply laid_linear).
  remember (laid [] 1 1 (cut_words d)) as ts eqn:Ets. clear Ets. rewrite E in W.
  apply words_split in W as (t1 & t2 & -> & W1 & W). apply lined_app in Ln as [_ Ln].
  assert (script_ok (beginning d)) as Hs by (split; [exact H|split; [exact Logic.I|split; [exact Logic.I|reflexivity]]]).
  destruct (title_step w fuel (origin, []) resolve eq_refl (beginning d) t1 Hs W1) as (p1 & E1 & R1).
  { destruct t1 as [|t t1]; [exact Logic.I|]. cbn in L. destruct L as [L|L]; [|exact L]. unfold start_words in W1. destruct (sc_title (beginning d)) as [[]|]; [|inversion W1].
    apply words_cons in W1 as (? & ? & [= <- <-] & Wt & _). rewrite (word_type _ _ Wt) in L. discriminate. }
  destruct (body_step w origin resolve (script_title (beginning d)) (ct_body d) [(TEof, [])] fuel [] (first_page (beginning d)) p1 t2 (or_intror eq_refl) R1 Hb St Hd W (or_intror Ln) C) as (q & E2 & D).
  destruct (D false) as (lst & attrs & bst & il & force & dang & a & E3 & _ & R & _); [discriminate|].
  pose proof (loop_join w fuel _ _ _ _ _ E1 E2) as El. cbn [fst] in El.
  pose proof (ends_steps w fuel origin resolve _ _ _ El E3) as Sp.
  unfold parse, parse_with. rewrite S. cbn [fst snd]. rewrite El. cbn [bind].
  destruct (add_inlines_to_block_stack q) as [q1| | | |]; try discriminate E3. cbn [bind] in E3 |- *. rewrite E3. cbn [bind].
  eexists. split; [reflexivity|]. rewrite (consolidated w _ Sp). destruct R as (_ & R & Eh). cbn [sealed g_open g_flow] in R.
  destruct R as [(_ & -> & Eb)|(Eo & _)]; [|discriminate]. cbn [p_asg]. split; [|exact Eh]. unfold cut_blocks, cut_page. now rewrite <- Eb.
Qed.
