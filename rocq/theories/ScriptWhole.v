(** * Scripts: from the pieces to the whole *)
From Verif Require ArticleProofs ArticleWhole ScanMain2 VerbatimProofs.
From Verif Require Import Base World Location Token Scanner Meta Inline Block Asg Parser SpecScan SpecLex SpecDoc SpecArticle
  DocGraph GraphLemmas ArticleGraph ScanWhole ScriptWords ScriptText ScriptLocs ScriptDecor ScriptGraph ScriptBlocks ScriptCells ScriptRefs SpecScript.
Local Open Scope char_scope.
Local Open Scope nat_scope.
Local Arguments reconcile : simpl never.
Local Arguments token_locations : simpl never.
Local Arguments token_text : simpl never.
Local Arguments consolidate_locations : simpl never.
Local Arguments last_opt : simpl never.
Local Arguments push_block : simpl never.

Section Pieces.
  Variables (w : world) (fuel : nat) (here : bytes * list bytes) (resolve : bool).
  Notation stm := (stm here resolve).
  Notation st := (stm None).
  Notation loop := (parse_loop w fuel).
  Notation at_rest := (at_rest here resolve).
  Notation primed := (primed here resolve).
  Ltac cst := unfold ScriptBlocks.stm; pst.

  Lemma at_place h g lst attrs bst force flag opened flow a b : held [] (g_keep g) -> ended lst -> agrees attrs (g_env g) ->
    room (KTop h) [] bst a (mkPage (g_env g) (g_keep g) flag opened flow) -> flat flow -> b = true \/ force = true ->
    at_rest (KTop h) (mkPage (g_env g) (g_keep g) flag opened flow) (st lst attrs bst [] [] (g_keep g) false (b || force) flag None a).
  Proof.
    intros Hc L A R F H. exists lst, attrs, bst, [], (b || force), a. split; [reflexivity|]. split; [assumption|]. split; [assumption|].
    split; [assumption|]. split; [exact Hc|]. split; [left; destruct H as [-> | ->]; [reflexivity|apply orb_true_r]|]. split; [assumption|exact I].
  Qed.

  Lemma held_top h ol bst a g : room (KTop h) ol bst a g -> held ol (g_keep g) -> held [] (g_keep g).
  Proof. intros (-> & _) H. exact H. Qed.
  Lemma held_drops keep : held [] keep -> drops_breaks keep = false.
  Proof. unfold held. now rewrite andb_true_r. Qed.
  Lemma heading_level n t me lst attrs bst ol keep force close dang a : 1 <= n <= 4 -> is_word (head_word n) t ->
    get_heading_level w t (stm me lst attrs bst [] ol keep false force close dang a) = Ok n.
  Proof.
    intros H W. unfold get_heading_level. rewrite (word_type _ _ W).
    destruct n as [|[|[|[|[|n]]]]]; try lia; reflexivity.
  Qed.
  Lemma heading_step h g c p n t ts : primed (KTop h) g (dress c) (waits (g_keep g) c) p -> piece_ok g c (Head n t) -> clear 0 (g_flow g) = true ->
    are_words (piece_words (Head n t)) ts ->
    exists p', loop ts p = Ok p' /\ at_rest (KTop h) (piece_page c (Head n t) g) p'.
  Proof.
    intros (m & lst & attrs & bst & ol & force & a & dang & -> & M & D & L & A & R & Hc & F & N1 & N2) (_ & Hn & Hf & Hs) Cl W. cbn [piece_words] in W.
    apply words_cons in W as (tk & t1 & -> & Wk & W). change (text_words t ++ [newline; newline]) with (text_words t ++ [newline] ++ [newline]) in W.
    apply words_split in W as (t2 & t3 & -> & W2 & W). apply words_cons in W as (t4 & t5 & -> & W4 & W). apply words_cons in W as (t6 & t7 & -> & W6 & W).
    inversion W. subst t7.
    assert (exists me a', token_into w fuel tk (stm m lst attrs bst [] ol (g_keep g) false force (g_flag g) dang a)
        = Ok (st lst attrs [Blk (HSection [] [] n) me [] [first_location tk]] [] [] (g_keep g) true false (g_flag g) None a')
        /\ option_map unplaced_meta me = worn (dress c) /\ map unplaced (a_blocks a') = outline (g_flow g) /\ heading_of a' = h) as (me & a' & E & Eme & Ea & Eh).
    { rewrite (go w fuel here resolve (head_word n)); [|assumption|destruct n as [|[|[|[|[|n]]]]]; try lia; discriminate..].
      assert (forall p, dispatch w tk p = parse_section_headings w tk p) as ->.
      { intros p. unfold dispatch. rewrite (word_type _ _ Wk). destruct n as [|[|[|[|[|n]]]]]; try lia; reflexivity. }
      unfold parse_section_headings. rewrite (heading_level n) by assumption. cbn [bind]. rewrite <- M. unfold new_section.
      destruct R as (-> & H & Ht). pose proof H as H0.
      destruct H as [(Eo & -> & Eb)|(Eo & s & i & tl & lv & sm & pre & leaves & -> & Es & _)].
      - cst. destruct (push_worn here resolve (HSection [] [] n) [] [first_location tk] None attrs [] None [] (g_keep g) a lst [] m None false force (g_flag g) dang Hc eq_refl)
          as (me & -> & Eme). exists me, a. split; [reflexivity|]. auto.
      - cst. assert (is_section s = true) as -> by (rewrite <- is_section_unplaced, Es; reflexivity).
        rewrite Eo in H0.
        destruct (finish_section s (a_blocks a) (g_flow g) a H0 eq_refl N1 Cl) as (a' & E & Ea & Eh).
        unfold add_last_to_block_stack_or_graph. pst. unfold p_asg_push. pst. rewrite E. pst.
        match goal with |- context [push_block_to_stack _ ?p] =>
          change p with (tstate here resolve None attrs [] None [] (g_keep g) a' lst [] m None false false force (g_flag g) dang) end.
        destruct (push_worn here resolve (HSection [] [] n) [] [first_location tk] None attrs [] None [] (g_keep g) a' lst [] m None false force (g_flag g) dang Hc eq_refl)
          as (me & -> & Eme).
        exists me, a'. split; [reflexivity|]. split; [exact Eme|]. split; [exact Ea|]. unfold heading_of in *. now rewrite Eh. }
    set (sec := Blk (HSection [] [] n) me [] [first_location tk]) in *.
    rewrite (loop_cons w fuel _ _ _ _ E).
    destruct (line_loop0 w fuel here resolve t t2 t4 (ttype tk) attrs (g_env g) [sec] [] (g_keep g) true false (g_flag g) a' A W2 Hf W4) as (i1 & d1 & E1 & B1 & Ni).
    rewrite Hs in E1. cbn [orb] in E1.
    set (S := Blk (HSection [] (rev i1) n) me [] (b_locs sec)).
    assert (loop [t6] (st TNewLineChar attrs [sec] i1 [] (g_keep g) false false (g_flag g || macros t) d1 a')
      = Ok (st TNewLineChar attrs [S] [] [] (g_keep g) false true (g_flag g || macros t) None a')) as E2.
    { cbn [parse_loop]. rewrite blank_newline by (assumption || reflexivity || (cbn; auto)).
      unfold add_inlines_to_block_stack. cst. destruct i1 as [|i i1]; [congruence|]. unfold sec. cbn [takes_inlines b_head]. pst.
      rewrite ArticleProofs.push_inlines_section. cbn [bind]. unfold blank_tail. cst. cbn [is_section b_head negb andb]. unfold push_block_to_stack. pst.
      unfold empty. rewrite (held_drops _ (held_top _ _ _ _ _ R Hc)). rewrite (word_type _ _ W6). reflexivity. }
    exists (st TNewLineChar attrs [S] [] [] (g_keep g) false true (g_flag g || macros t) None a'). split.
    - change (t2 ++ t4 :: [t6]) with (t2 ++ [t4] ++ [t6]). rewrite app_assoc. exact (loop_join w fuel _ _ _ _ _ E1 E2).
    - apply (at_place h g TNewLineChar attrs [S] true (g_flag g || macros t) true _ a' false); auto; [now apply held_top in R|reflexivity| |].
      + cbn [room g_open g_flow]. split; [reflexivity|]. split; [|auto]. right. split; [reflexivity|].
        exists S, [], (page_text g t), n, (worn (dress c)), (g_flow g), []. split; [reflexivity|]. split; [|split; [reflexivity|split; [constructor|exact Ea]]].
        unfold S. cbn [unplaced unplaced_head map]. now rewrite B1, Eme.
      + apply flat_app. split; [assumption|]. apply Forall_cons; [|constructor]. split; [|split; [|reflexivity]]; cbn [fst snd].
        * repeat split.
        * intros k [= <-]. split; [lia|reflexivity].
  Qed.

  Lemma rule_step h g p v ts : at_rest (KTop h) g p -> are_words (piece_words (Rule v)) ts ->
    exists p', loop ts p = Ok p' /\ at_rest (KTop h) (piece_page [] (Rule v) g) p'.
  Proof.
    intros (lst & attrs & bst & ol & force & a & -> & L & A & R & Hc & F & N1 & N2) W. cbn [piece_words] in W.
    apply words_cons in W as (tk & t1 & -> & Wk & W). apply words_cons in W as (t2 & t3 & -> & W2 & W). apply words_cons in W as (t4 & t5 & -> & W4 & W).
    inversion W. subst t5. assert (ol = []) as -> by now destruct R.
    destruct (deliver here resolve h lst attrs (new_break v (token_locations tk)) bst [] (g_keep g) false force (g_flag g) None a g R) as (bst' & a' & E & _ & R').
    { repeat split. }
    assert (token_into w fuel tk (st lst attrs bst [] [] (g_keep g) false force (g_flag g) None a)
            = Ok (st lst attrs bst' [] [] (g_keep g) false force (g_flag g) None a')) as E1.
    { rewrite (go w fuel here resolve (rule_word v)); [|assumption|destruct v; discriminate..].
      rewrite <- E. unfold dispatch. rewrite (word_type _ _ Wk). now destruct v. }
    destruct (soft_newline w fuel here resolve t2 None (ttype tk) attrs bst' [] [] (g_keep g) false force (g_flag g) None a' W2) as (d & E2 & _).
    { rewrite (word_type _ _ Wk). now destruct v. }
    destruct (blank_idle w fuel here resolve (KTop h) (piece_page [] (Rule v) g) t4 TNewLineChar attrs bst' [] false force d a' W4 eq_refl A R' Hc) as (p' & E3 & P3).
    { cbn [piece_page place g_flow]. apply flat_app. split; [assumption|]. apply Forall_cons; [|constructor]. apply sound_settled. repeat split. }
    { exact I. }
    exists p'. split; [|exact P3]. rewrite (loop_cons w fuel _ _ _ _ E1). exact (loop_join w fuel [t2] [t4] _ _ _ E2 E3).
  Qed.

  Lemma alert_step h g c p v l ts : primed (KTop h) g (dress c) (waits (g_keep g) c) p -> text_fits (g_keep g) (waits (g_keep g) c) l = true -> are_words (piece_words (Alert v l)) ts ->
    exists p', loop ts p = Ok p' /\ at_rest (KTop h) (piece_page c (Alert v l) g) p'.
  Proof.
    intros (m & lst & attrs & bst & ol & force & a & dang & -> & M & D & L & A & R & Hc & F & N1 & N2) Hf W. cbn [piece_words] in W.
    apply words_cons in W as (tk & t1 & -> & Wk & W). change (text_words l ++ [newline; newline]) with (text_words l ++ [newline] ++ [newline]) in W.
    apply words_split in W as (t2 & t3 & -> & W2 & W). apply words_cons in W as (t4 & t5 & -> & W4 & W). apply words_cons in W as (t6 & t7 & -> & W6 & W).
    inversion W. subst t7. assert (ol = []) as -> by now destruct R.
    set (ad := Blk (HParent PAdmonition (Some v) (label v) []) None [] (token_locations tk)).
    assert (token_into w fuel tk (stm m lst attrs bst [] [] (g_keep g) false force (g_flag g) dang a)
            = Ok (stm m lst attrs (ad :: bst) [] [] (g_keep g) false force true dang a)) as E0.
    { rewrite (go w fuel here resolve (alert_word v)); [|assumption|destruct v; discriminate..].
      assert (token_text tk = label v) as T by (pose proof (word_text _ _ Wk) as T; destruct v; exact T).
      unfold dispatch. rewrite (word_type _ _ Wk). unfold ad, parse_admonition_para_syntax, parent_from_token.
      destruct v; cbn [fst alert_word]; rewrite (word_type _ _ Wk), T; reflexivity. }
    rewrite (loop_cons w fuel _ _ _ _ E0).
    destruct (line_loop w fuel here resolve l t2 t4 m (ttype tk) attrs (g_env g) (ad :: bst) [] (g_keep g) false force true dang (waits (g_keep g) c) a A W2 Hf D W4) as (i1 & m1 & d1 & E1 & B1 & M1 & Ni & Lo).
    cbn [orb] in E1.
    destruct (new_para here resolve m1 TNewLineChar attrs (ad :: bst) i1 _ [] (g_keep g) false (force || styled l) true None a B1 (or_intror (conj eq_refl (conj Ni Lo))) Hc) as (b & E2 & Eb).
    assert (sound b) as Sb by (apply sound_unplaced; rewrite Eb; apply sound_wrapped). rewrite M1, M in Eb. fold (page_para g (dress c) (waits (g_keep g) c) l) in Eb. destruct Sb as (S1 & S2 & S3 & S4).
    destruct (push_block_leaf (HParent PAdmonition (Some v) (label v) []) None [] (token_locations tk) b S1 S2) as (loc' & Ep);
      [intros ? ? ? ? [= <-]; discriminate|exact I|].
    set (B := Blk (HParent PAdmonition (Some v) (label v) []) None [b] loc').
    assert (unplaced B = Blk (HParent PAdmonition (Some v) (label v) []) None [page_para g (dress c) (waits (g_keep g) c) l] []) as EB.
    { unfold B. cbn [unplaced unplaced_head map option_map]. now rewrite Eb. }
    destruct (deliver here resolve h TNewLineChar attrs B bst [] (g_keep g) false true true None a g R) as (bst' & a' & _ & E3 & R').
    { apply sound_unplaced. rewrite EB. repeat split. cbn [tidy forallb]. unfold page_para. now rewrite (proj2 (proj2 (proj2 (sound_wrapped _ _)))). }
    assert (loop [t6] (stm m1 TNewLineChar attrs (ad :: bst) i1 [] (g_keep g) false (force || styled l) true d1 a)
      = Ok (st TNewLineChar attrs bst' [] [] (g_keep g) false true false None a')) as E4.
    { cbn [parse_loop]. rewrite blank_newline by (assumption || reflexivity || (cbn; auto)).
      assert (add_inlines_to_block_stack (stm m1 TNewLineChar attrs (ad :: bst) i1 [] (g_keep g) false (force || styled l) true None a)
              = new_paragraph (stm m1 TNewLineChar attrs (ad :: bst) i1 [] (g_keep g) false (force || styled l) true None a)) as ->.
      { unfold add_inlines_to_block_stack. cst. now destruct i1. }
      rewrite E2. cbn [bind]. unfold blank_tail. cst. rewrite S1. cbn [negb andb empty]. unfold add_to_block_stack_or_graph. pst.
      replace (takes_block ad b) with true by (unfold takes_block, ad; reflexivity).
      unfold ad. rewrite Ep. cbn [bind app]. pst.
      match goal with |- context [add_last_to_block_stack_or_graph ?p] =>
        change p with (st TNewLineChar attrs (B :: bst) [] [] (g_keep g) false true true None a) end.
      rewrite E3. cbn [bind]. cst. rewrite (word_type _ _ W6). reflexivity. }
    rewrite EB in R'. exists (st TNewLineChar attrs bst' [] [] (g_keep g) false true false None a'). split.
    - change (t2 ++ t4 :: [t6]) with (t2 ++ [t4] ++ [t6]). rewrite app_assoc. exact (loop_join w fuel _ _ _ _ _ E1 E4).
    - apply (at_place h g TNewLineChar attrs bst' true false (g_open g) _ a' false); auto; [reflexivity|].
      apply flat_app. split; [assumption|]. apply Forall_cons; [|constructor]. apply sound_settled. repeat split. cbn [tidy forallb]. unfold page_para. now rewrite (proj2 (proj2 (proj2 (sound_wrapped _ _)))).
  Qed.

  (** *** Titles of blocks *)
  Definition tt m lst attrs bst ti keep force close dang a : pstate :=
    tstate here resolve None attrs bst ti [] keep a lst [] m None false false force close dang.
  Lemma label_step title g ts m lst attrs bst force dang a : label_ok (g_keep g) title -> are_words (title_words title) ts -> agrees attrs (g_env g) ->
    exists m' lst' ti more dang', loop ts (stm m lst attrs bst [] [] (g_keep g) false force (g_flag g) dang a)
      = Ok (tt m' lst' attrs bst ti (g_keep g) (force || more) (g_flag g || title_macros title) dang' a)
      /\ map unplaced_inline (match ti with Some x => x | None => [] end) = title_text g (option_map unplaced_meta m) title
      /\ option_map unplaced_meta m' = title_rest g (option_map unplaced_meta m) title.
  Proof.
    destruct title as [l|]; cbn [title_words label_ok title_macros title_text title_rest].
    2:{ intros _ W _. inversion W. subst. exists m, lst, None, false, dang. rewrite !orb_false_r. split; [reflexivity|]. split; reflexivity. }
    intros [Hf H1] W A. apply words_cons in W as (tk & t1 & -> & Wk & W). apply words_split in W as (t2 & t3 & -> & W2 & W).
    apply words_cons in W as (t4 & t5 & -> & W4 & W). inversion W. subst t5.
    assert (token_into w fuel tk (stm m lst attrs bst [] [] (g_keep g) false force (g_flag g) dang a)
      = Ok (tstate here resolve None attrs bst (Some []) [] (g_keep g) a lst [] m None true false force (g_flag g) None)) as E0.
    { rewrite (go w fuel here resolve (TBlockLabel, bs ".")) by (assumption || discriminate). unfold dispatch. rewrite (word_type _ _ Wk). reflexivity. }
    destruct (text_step w fuel here resolve None attrs bst (Some []) [] (g_keep g) a (g_env g) A l t2 (ttype tk) m true force (g_flag g) None false W2)
      as (l1 & i1 & m1 & il1 & d1 & E1 & S & B & M & N & _); auto.
    { split; [now left|now right]. }
    { reflexivity. }
    assert (exists d2, loop [t4] (tstate here resolve None attrs bst (Some []) [] (g_keep g) a l1 i1 m1 None il1 false (force || styled l) (g_flag g || macros l) d1)
      = Ok (tt m1 TNewLineChar attrs bst (Some (rev i1)) (g_keep g) (force || styled l) (g_flag g || macros l) d2 a)) as (d2 & E2).
    { cbn [parse_loop]. rewrite (step w fuel here resolve None attrs bst (Some []) [] (g_keep g) a newline); [|assumption|now left|discriminate|discriminate].
      unfold dispatch. rewrite (word_type _ _ W4). cbn [fst newline]. unfold parse_new_line_char, tt. pst. destruct S as [S1 S2]. rewrite S1. pst. rewrite S2, orb_false_r.
      destruct (drops_breaks (g_keep g)); eexists; reflexivity. }
    exists m1, TNewLineChar, (Some (rev i1)), (styled l), d2. split.
    - rewrite (loop_cons w fuel _ _ _ _ E0). exact (loop_join w fuel _ _ _ _ _ E1 E2).
    - split; [now rewrite map_rev|exact M].
  Qed.
  Lemma alt_unplaced alt : option_map unplaced_meta (alt_meta alt) = alt_meta alt.
  Proof. unfold alt_meta. now destruct alt. Qed.
  Lemma joined_macro alt m : option_map unplaced_meta (match m with Some m => Some (macro_meta (alt_meta alt) m) | None => alt_meta alt end)
    = joined alt (option_map unplaced_meta m).
  Proof.
    unfold joined. destruct m as [m|]; cbn [option_map].
    2:{ rewrite alt_unplaced. now destruct (alt_meta alt). }
    unfold alt_meta. destruct alt as [|c s]; [reflexivity|]. cbn [macro_meta option_map]. unfold add_metadata_from_other, unplaced_meta. cbn [m_attrs m_options m_roles m_inline m_type app].
    do 2 f_equal. generalize [(bs "positional_1", c :: s)]. generalize (m_attrs m). intros l. induction l as [|[k v] l IH]; intros l0; [reflexivity|].
    cbn [fold_left fst snd]. rewrite enter_insert. apply IH.
  Qed.

  Definition found (x : piece) : Prop :=
    match x with
    | Picture _ target _ => resolve = true -> w_canon w (resolve_path (fst here) (snd here) target) <> None
    | Grid _ _ rows => (grid_cells rows = [] \/ 0 < fuel) /\ Forall scanned_cell (grid_cells rows)
    | _ => True
    end.
  Lemma picture_step h g c p title target alt ts : primed (KTop h) g (dress c) (waits (g_keep g) c) p -> piece_ok g c (Picture title target alt) ->
    found (Picture title target alt) ->
    are_words (piece_words (Picture title target alt)) ts ->
    exists p', loop ts p = Ok p' /\ at_rest (KTop h) (piece_page c (Picture title target alt) g) p'.
  Proof.
    intros (m & lst & attrs & bst & ol & force & a & dang & -> & M & D & L & A & R & Hc & F & N1 & N2) (_ & Hl & Ha & Ht & Hs) Hcn W. cbn [piece_words] in W.
    apply words_split in W as (t1 & t2 & -> & W1 & W). apply words_cons in W as (tk & t3 & -> & Wk & W).
    apply words_cons in W as (t4 & t5 & -> & W4 & W). apply words_cons in W as (t6 & t7 & -> & W6 & W). inversion W. subst t7.
    assert (ol = []) as -> by now destruct R.
    destruct (label_step title g t1 m lst attrs bst force dang a Hl W1 A) as (m1 & l1 & ti & more & d1 & E1 & Et & Em). rewrite M in Et, Em.
    set (cap := match ti with Some x => x | None => [] end) in *.
    set (B := Blk (HMacro target cap) (match m1 with Some m => Some (macro_meta (alt_meta alt) m) | None => alt_meta alt end) [] (token_locations tk)).
    destruct (deliver here resolve h l1 attrs B bst [] (g_keep g) false (force || more) (g_flag g || title_macros title) d1 a (flag_page (title_macros title) g) R) as (bst' & a' & E2 & _ & R').
    { repeat split. }
    assert (token_into w fuel tk (tt m1 l1 attrs bst ti (g_keep g) (force || more) (g_flag g || title_macros title) d1 a)
      = Ok (st l1 attrs bst' [] [] (g_keep g) false (force || more) (g_flag g || title_macros title) d1 a')) as E3.
    { unfold tt. rewrite (step w fuel here resolve None attrs bst ti [] (g_keep g) a (TBlockImageMacro, bs "image::" ++ target ++ "[" :: alt ++ ["]"])); [|assumption|now left|discriminate|discriminate].
      unfold dispatch. rewrite (word_type _ _ Wk). cbn [fst]. unfold parse_block_image.
      rewrite (block_image_token w tk target alt); [|exact (word_text _ _ Wk)|exact (word_type _ _ Wk)|exact Hs|assumption|assumption].
      cbn [bind].
      match goal with |- context [check_target w ?n target ?p] => assert (check_target w n target p = Ok Datatypes.tt) as -> end.
      { unfold check_target, resolve_target. pst. cbn [found] in Hcn. destruct resolve; [|reflexivity].
        destruct (w_canon w (resolve_path (fst here) (snd here) target)) eqn:Ec; [reflexivity|now destruct (Hcn eq_refl)]. }
      cbn [bind]. pst. rewrite <- E2. unfold B, cap. destruct m1; pst; destruct ti; reflexivity. }
    destruct (soft_newline w fuel here resolve t4 None (ttype tk) attrs bst' [] [] (g_keep g) false (force || more) (g_flag g || title_macros title) d1 a' W4) as (d & E4 & _).
    { now rewrite (word_type _ _ Wk). }
    assert (unplaced B = Blk (HMacro target (title_text g (dress c) title)) (joined alt (title_rest g (dress c) title)) [] []) as EB.
    { unfold B. cbn [unplaced unplaced_head map]. now rewrite Et, joined_macro, Em. }
    rewrite EB in R'.
    destruct (blank_idle w fuel here resolve (KTop h) (piece_page c (Picture title target alt) g) t6 TNewLineChar attrs bst' [] false (force || more) d a' W6 eq_refl A R' Hc) as (p' & E5 & P5).
    { cbn [piece_page place flag_page g_flow]. apply flat_app. split; [assumption|]. apply Forall_cons; [|constructor]. apply sound_settled. repeat split. }
    { exact I. }
    exists p'. split; [|exact P5]. apply (loop_join w fuel _ _ _ _ _ E1). rewrite (loop_cons w fuel _ _ _ _ E3). exact (loop_join w fuel [t4] [t6] _ _ _ E4 E5).
  Qed.

  (** *** Delimited blocks *)
  Definition box_block (b : box) (ti : list inline) (me : option metadata) (kids : list block) (loc : list location) : block :=
    Blk (HParent (box_name b) None (box_fence b) ti) me kids loc.
  Lemma box_from b t : is_word (box_word b) t -> parent_from_token t = Ok (box_block b [] None [] (token_locations t)).
  Proof.
    intros W. assert (token_text t = box_fence b) as T by (pose proof (word_text _ _ W) as T; destruct b; exact T).
    unfold parent_from_token. rewrite (word_type _ _ W), T. now destruct b.
  Qed.
  Lemma box_go b t attrs bst ti ol keep a lst ist m il force close dang : is_word (box_word b) t ->
    (b = Quote -> match m with Some m => m_type m <> Some AVerse | None => True end) ->
    token_into w fuel t (tstate here resolve None attrs bst ti ol keep a lst ist m None il false force close dang)
    = parse_delimited_parent_block t (tstate here resolve None attrs bst ti ol keep a lst ist m None il false force close dang).
  Proof.
    intros W H. rewrite (step w fuel here resolve None attrs bst ti ol keep a (box_word b)); [|assumption|now left|destruct b; discriminate..].
    unfold dispatch. rewrite (word_type _ _ W). destruct b; try reflexivity. specialize (H eq_refl). cbn [fst box_word]. unfold parse_quote_verse. pst.
    destruct m as [m|]; [|reflexivity]. destruct (m_type m) as [[]|]; reflexivity || congruence.
  Qed.
  Lemma open_box b t m lst attrs bst ti keep force close dang a : is_word (box_word b) t -> Forall (fun b => is_parent b = false) bst ->
    (b = Quote -> match m with Some m => m_type m <> Some AVerse | None => True end) ->
    exists me, token_into w fuel t (tt m lst attrs bst ti keep force close dang a)
    = Ok (st lst attrs (box_block b (match ti with Some x => x | None => [] end) me [] (token_locations t) :: bst) [] [tline t] keep false force close None a)
    /\ option_map unplaced_meta me = worn (option_map unplaced_meta m).
  Proof.
    intros W F H. unfold tt. rewrite (box_go b) by assumption. unfold parse_delimited_parent_block. rewrite (box_from b t W). cbn [bind]. pst.
    destruct (push_worn here resolve (HParent (box_name b) None (box_fence b) (match ti with Some x => x | None => [] end)) [] (token_locations t)
                None attrs bst None [tline t] keep a lst [] m None false force close None (andb_false_r _) eq_refl) as (me & E & Em).
    exists me. split; [|exact Em]. refine (eq_trans _ E). destruct ti; cst; rewrite (ArticleWhole.no_parent bst F); reflexivity.
  Qed.
  Lemma close_box b t ti me acc base loc m0 ol ist lst attrs keep force close dang a : is_word (box_word b) t ->
    Forall (fun b => is_parent b = false) acc -> Forall (fun b => is_section b = false /\ is_list_item b = false) acc ->
    loc <> [] -> (ist = [] \/ exists x acc0, acc = x :: acc0
       /\ add_inlines_to_block_stack (st lst attrs (acc0 ++ base) ist (m0 :: ol) keep false force close None a)
          = Ok (st lst attrs (acc ++ base) [] (m0 :: ol) keep false force close None a)) ->
    forall acc1, acc1 = match ist with [] => acc | _ => tl acc end ->
    exists loc', token_into w fuel t (st lst attrs (acc1 ++ box_block b ti me [] loc :: base) ist (m0 :: ol) keep false force close dang a)
      = (let* p := push_block_to_stack (box_block b ti me (rev acc) loc') (st lst attrs base [] ol keep false force close None a) in
         Ok (set_in_cont false p)).
  Proof.
    intros W F1 F2 Nl Hi acc1 E1. unfold ScriptBlocks.stm at 1. rewrite (box_go b) by (assumption || auto). unfold parse_delimited_parent_block. rewrite (box_from b t W). cbn [bind]. pst.
    assert (Forall (fun b => is_parent b = false) acc1) as F3.
    { subst acc1. destruct ist; [assumption|]. destruct F1; [constructor|assumption]. }
    rewrite (ArticleWhole.split_parent acc1 (box_block b ti me [] loc) base F3 eq_refl).
    assert (parent_eqb (box_block b ti me [] loc) (box_block b [] None [] (token_locations t)) = true) as -> by now destruct b.
    match goal with |- context [add_inlines_to_block_stack ?p] => change p with (st lst attrs (acc1 ++ base) ist (m0 :: ol) keep false force close None a) end.
    assert (add_inlines_to_block_stack (st lst attrs (acc1 ++ base) ist (m0 :: ol) keep false force close None a)
            = Ok (st lst attrs (acc ++ base) [] (m0 :: ol) keep false force close None a)) as ->.
    { destruct Hi as [-> |(x & acc0 & -> & E)]; [subst; reflexivity|]. destruct ist as [|i ist]; [subst; reflexivity|]. subst acc1. exact E. }
    cbn [bind]. cst. unfold block_line. cbn [b_locs box_block]. destruct loc as [|l0 loc]; [congruence|]. cbn [bind].
    rewrite app_length. replace (List.length acc + List.length base <? List.length base) with false by (symmetry; apply Nat.ltb_ge; lia).
    replace (List.length acc + List.length base - List.length base) with (List.length acc + 0) by lia.
    rewrite firstn_app_2, Nat.add_0_r, ScanMain2.skipn_length_app. cbn [firstn]. rewrite app_nil_r.
    destruct (ArticleWhole.push_blocks_leaf (box_name b) None (box_fence b) ti me (rev acc)) with (k := @nil block) (loc := reconcile (l0 :: loc) (b_locs (box_block b [] None [] (token_locations t))))
      as (loc' & E); [now destruct b|now apply Forall_rev|].
    cbn [b_locs box_block] in E. rewrite E. cbn [bind app]. exists loc'. cbn [is_table b_head]. destruct b; reflexivity.
  Qed.
  Lemma unplaced_all (f : block -> bool) (Hf : forall b, f (unplaced b) = f b) l : Forall (fun b => f b = false) (map unplaced (rev l)) -> Forall (fun b => f b = false) l.
  Proof.
    intros F. rewrite <- (rev_involutive l). apply Forall_rev. apply Forall_forall. intros b H. rewrite Forall_forall in F.
    rewrite <- Hf. apply F. now apply in_map.
  Qed.
  Lemma top_parents h ol bst a g : room (KTop h) ol bst a g -> Forall (fun b => is_parent b = false) bst.
  Proof.
    intros (_ & [(_ & -> & _)|(_ & s & i & t & lv & sm & pre & leaves & -> & Es & _)] & _); [constructor|]. apply Forall_cons; [|constructor].
    destruct (heads_unplaced s) as (_ & _ & _ & <-). now rewrite Es.
  Qed.
  Lemma leaf_open c x g : g_open g = false -> g_open (leaf_page c x g) = false.
  Proof.
    intros H. destruct x as [|? ?|[|[[] ?] ?]| | | | | |]; cbn [leaf_page]; try exact H; unfold land; cbn [flag_page keeping g_open g_flag]; rewrite H, andb_false_r; exact H.
  Qed.
  Lemma leaf_drops c x g : drops_breaks (g_keep (leaf_page c x g)) = drops_breaks (g_keep g).
  Proof. destruct x as [|? ?|[|[[] ?] ?]| | | | | |]; cbn [leaf_page]; try reflexivity; now rewrite (proj2 (land_env _ _)). Qed.
  Lemma fold_drops l : forall g, drops_breaks (g_keep (fold_left (fun h x => leaf_page (fst x) (snd x) h) l g)) = drops_breaks (g_keep g).
  Proof. induction l as [|x l IH]; intros g; [reflexivity|]. cbn. now rewrite IH, leaf_drops. Qed.
  Lemma box_drops l last g : drops_breaks (g_keep (box_page l last g)) = drops_breaks (g_keep g).
  Proof. unfold box_page. destruct last; cbn [place flag_page g_keep]; apply fold_drops. Qed.
  Lemma bound_drops x g : drops_breaks (g_keep (bound_page x g)) = drops_breaks (g_keep g).
  Proof. now destruct x. Qed.
  Lemma bounds_drops l : forall g, drops_breaks (g_keep (bounds_page l g)) = drops_breaks (g_keep g).
  Proof. unfold bounds_page. induction l as [|x l IH]; intros g; [reflexivity|]. cbn [fold_left]. now rewrite IH, bound_drops. Qed.
  Lemma item_drops x g : drops_breaks (g_keep (item_page x g)) = drops_breaks (g_keep g).
  Proof. unfold item_page. now rewrite bounds_drops. Qed.
  Lemma rest_same keep e l me wait : text_rest keep e me wait l = me \/ text_rest keep e me wait l = None.
  Proof.
    unfold text_rest, text_draft. generalize (@nil inline, wait). revert me. induction l as [|x l IH]; intros me d; [now left|]. cbn [fold_left].
    assert (snd (write keep e (d, me) x) = me \/ snd (write keep e (d, me) x) = None) as E.
    { destruct x; cbn; try (now left); destruct (fold_left _ _ _); cbn; auto. }
    destruct (write keep e (d, me) x) as [d1 m1]. cbn [snd] in E. destruct E as [-> | ->]; [apply IH|]. right. now destruct (IH None d1).
  Qed.

  (** the page inside, from the line below the opening fence to the closing fence *)
  Definition last_lines (last : list element) : list word := match last with [] => [] | _ => text_words last ++ [newline] end.
  Lemma box_body b n P cap me loc bst a h p x last ts tc : at_rest (KBox n P bst a) h p -> P = box_block b cap me [] loc -> loc <> [] -> box_ok h x last ->
    are_words (leaves_words x ++ last_lines last) ts -> is_word (box_word b) tc ->
    exists lst attrs force kids loc',
      (forall q, push_block_to_stack (box_block b cap me kids loc') (st lst attrs bst [] [] (g_keep (box_page x last h)) false force (g_flag (box_page x last h)) None a) = Ok q ->
         loop (ts ++ [tc]) p = Ok (set_last (ttype tc) (set_in_cont false q)))
      /\ map unplaced kids = map snd (g_flow (box_page x last h)) /\ agrees attrs (g_env (box_page x last h))
      /\ forallb tidy (map snd (g_flow (box_page x last h))) = true.
  Proof.
    intros R1 EP Nl [Fx Fl] W Wc. apply words_split in W as (t6 & t8 & -> & W6 & W8).
    destruct (leaves_step w fuel here resolve n P bst a x h p t6 R1 Fx W6) as (p2 & E4 & R2). unfold box_page.
    set (g1 := fold_left (fun h x => leaf_page (fst x) (snd x) h) x h) in *.
    destruct R2 as (lst2 & attrs2 & bst2 & ol2 & force2 & a2 & -> & L2 & A2 & (-> & -> & _ & Ho & acc & -> & Ea) & Hc2 & F2 & N3 & N4). cbn [kept] in N4.
    (* the last lines *)
    set (g2 := match last with [] => g1 | _ => place (para None (page_text g1 last)) (flag_page (macros last) g1) end).
    assert (g_keep g2 = g_keep g1 /\ g_env g2 = g_env g1) as [K1 K2] by (unfold g2; destruct last; auto).
    assert (exists lst3 ist dang acc3 force3, loop t8 (st lst2 attrs2 (acc ++ P :: bst) [] [n] (g_keep g1) false force2 (g_flag g1) None a)
        = Ok (st lst3 attrs2 (acc ++ P :: bst) ist [n] (g_keep g1) false force3 (g_flag g2) dang a)
        /\ map unplaced (rev acc3) = map snd (g_flow g2)
        /\ acc = match ist with [] => acc3 | _ => tl acc3 end
        /\ (ist = [] \/ exists y acc0, acc3 = y :: acc0
             /\ add_inlines_to_block_stack (st lst3 attrs2 (acc0 ++ bst) ist [n] (g_keep g1) false force3 (g_flag g2) None a)
                = Ok (st lst3 attrs2 (acc3 ++ bst) [] [n] (g_keep g1) false force3 (g_flag g2) None a)))
      as (lst3 & ist & dang & acc3 & force3 & E5 & Ea3 & Etl & Ei).
    { unfold g2. destruct last as [|r rest].
      - inversion W8. subst t8. exists lst2, [], None, acc, force2. cbn [parse_loop]. auto.
      - apply words_split in W8 as (t15 & t16 & -> & W15 & W8). apply words_cons in W8 as (t17 & t18 & -> & W17 & W8). inversion W8. subst t18.
        destruct (line_loop0 w fuel here resolve (r :: rest) t15 t17 lst2 attrs2 (g_env g1) (acc ++ P :: bst) [n] (g_keep g1) false force2 (g_flag g1) a A2 W15 Fl W17)
          as (i1 & d2 & E5 & B5 & Ni).
        set (force3 := force2 || styled (r :: rest)) in *.
        destruct (new_para here resolve None TNewLineChar attrs2 (acc ++ bst) i1 _ [n] (g_keep g1) false force3 (g_flag g1 || macros (r :: rest)) None a B5 (or_introl eq_refl) Hc2) as (y & E6 & Ey).
        exists TNewLineChar, i1, d2, (y :: acc), force3. split; [exact E5|]. cbn [place flag_page g_flow g_flag]. split; [|split].
        + cbn [rev]. rewrite !map_app, Ea. cbn [map snd]. now rewrite Ey.
        + now destruct i1.
        + right. exists y, acc. split; [reflexivity|]. cbn [app]. rewrite <- E6.
          unfold add_inlines_to_block_stack. cst. destruct i1 as [|i i1]; [congruence|].
          destruct (acc ++ bst) as [|z zs] eqn:Ez; [reflexivity|].
          replace (takes_inlines z && true && negb force3) with false; [reflexivity|].
          destruct F2 as [F2|F2]; [unfold force3; now rewrite F2, andb_false_r|]. cbn in F2. destruct acc as [|? [|]]; try discriminate F2. cbn in F2. injection F2 as ->. discriminate Ez. }
    assert (Forall (fun z => is_parent z = false) acc3 /\ Forall (fun z => is_section z = false /\ is_list_item z = false) acc3 /\ forallb tidy (map snd (g_flow g2)) = true) as (G1 & G2 & G3).
    { assert (Forall (fun z => is_parent z = false /\ is_section z = false /\ is_list_item z = false /\ tidy z = true) (map unplaced (rev acc3))) as G.
      { rewrite Ea3.
        assert (Forall (fun z => is_parent z = false /\ is_section z = false /\ is_list_item z = false /\ tidy z = true) (map snd (g_flow g1))) as G0.
        { apply Forall_forall. intros z Hz. apply in_map_iff in Hz as ([o y] & <- & Hy). unfold flat in N3. rewrite Forall_forall in N3, N4.
          destruct (N3 _ Hy) as ((K3 & K4 & K5) & _ & K6). destruct (N4 _ Hy) as (K7 & K8). auto. }
        unfold g2. destruct last; [exact G0|]. cbn [place flag_page g_flow]. rewrite map_app. apply Forall_app. split; [exact G0|].
        apply Forall_cons; [|constructor]. repeat split. }
      split; [|split].
      - apply unplaced_all; [intros z; apply (heads_unplaced z)|]. eapply Forall_impl; [|exact G]. cbn. tauto.
      - apply Forall_and.
        + apply unplaced_all; [intros z; apply (heads_unplaced z)|]. eapply Forall_impl; [|exact G]. cbn. tauto.
        + apply unplaced_all; [intros z; apply (heads_unplaced z)|]. eapply Forall_impl; [|exact G]. cbn. tauto.
      - rewrite <- Ea3. apply forallb_forall. intros z Hz. rewrite Forall_forall in G. now apply G. }
    destruct (close_box b tc cap me acc3 bst loc n [] ist lst3 attrs2 (g_keep g1) force3 (g_flag g2) dang a Wc G1 G2) with (acc1 := acc) as (loc' & E7); [assumption|exact Ei|exact Etl|].
    rewrite <- EP in E7. exists lst3, attrs2, force3, (rev acc3), loc'. split; [|split; [exact Ea3|split; [now rewrite K2|exact G3]]].
    intros q Eq. rewrite K1 in Eq. rewrite <- app_assoc. apply (loop_join w fuel _ _ _ _ _ E4). apply (loop_join w fuel _ _ _ _ _ E5). cbn [parse_loop]. rewrite E7, Eq. reflexivity.
  Qed.
  (** from the title to the line below the opening fence *)
  Lemma box_start title b g m lst attrs bst force dang a ts : label_ok (g_keep g) title -> agrees attrs (g_env g) ->
    Forall (fun b => is_parent b = false) bst -> force = true \/ bst = [] ->
    (b = Quote -> match m with Some m => m_type m <> Some AVerse | None => True end) ->
    are_words (title_words title ++ [box_word b; newline]) ts ->
    exists n cap me loc p', loop ts (stm m lst attrs bst [] [] (g_keep g) false force (g_flag g) dang a) = Ok p'
      /\ at_rest (KBox n (box_block b cap me [] loc) bst a) (inside (flag_page (title_macros title) g)) p' /\ loc <> []
      /\ map unplaced_inline cap = title_text g (option_map unplaced_meta m) title
      /\ option_map unplaced_meta me = worn (title_rest g (option_map unplaced_meta m) title).
  Proof.
    intros Hl A Fb F Hq W. apply words_split in W as (t1 & t2 & -> & W1 & W). apply words_cons in W as (tk & t3 & -> & Wk & W).
    apply words_cons in W as (t4 & t5 & -> & W4 & W). inversion W. subst t5.
    destruct (label_step title g t1 m lst attrs bst force dang a Hl W1 A) as (m1 & l1 & ti & more & d1 & E1 & Et & Em).
    set (cap := match ti with Some x => x | None => [] end) in *.
    destruct (open_box b tk m1 l1 attrs bst ti (g_keep g) (force || more) (g_flag g || title_macros title) d1 a Wk Fb) as (me & E2 & Eme).
    { intros Hb. specialize (Hq Hb). destruct m1 as [m1|]; [|exact I]. cbn [option_map] in Em. 
      assert (option_map unplaced_meta m = Some (unplaced_meta m1)) as Er.
      { destruct title as [l|]; cbn [title_rest] in Em; [|now rewrite <- Em]. destruct (rest_same (g_keep g) (g_env g) l (option_map unplaced_meta m) false) as [Er|Er]; rewrite Er in Em; [now rewrite <- Em|discriminate]. }
      destruct m as [m|]; [|discriminate]. cbn [option_map] in Er. injection Er as _ _ _ _ Er. now rewrite Er in Hq. }
    rewrite Em in Eme.
    set (loc := token_locations tk) in *. fold cap in E2. set (P := box_block b cap me [] loc) in *.
    destruct (soft_newline w fuel here resolve t4 None (ttype tk) attrs (P :: bst) [] [tline tk] (g_keep g) false (force || more) (g_flag g || title_macros title) None a W4) as (d & E3 & D3).
    { rewrite (word_type _ _ Wk). now destruct b. }
    assert (d = None) as ->.
    { rewrite (word_type _ _ Wk) in D3. destruct d as [d|]; [|reflexivity]. destruct D3 as [D3 _]. destruct (drops_breaks (g_keep g)); now destruct b. }
    exists (tline tk), cap, me, loc. eexists. split; [|split; [|split; [discriminate|split; [exact Et|exact Eme]]]].
    - apply (loop_join w fuel _ _ _ _ _ E1). rewrite (loop_cons w fuel _ _ _ _ E2). exact E3.
    - exists TNewLineChar, attrs, (P :: bst), [tline tk], (force || more), a. split; [reflexivity|]. split; [reflexivity|]. split; [exact A|].
      split; [|split; [apply andb_false_r|split; [|split; constructor]]].
      + cbn [room]. split; [reflexivity|]. split; [reflexivity|]. split; [reflexivity|]. split; [reflexivity|]. exists []. split; reflexivity.
      + apply free_styled. destruct F as [->|F]; [now left|right]. cbn in F |- *. now subst.
  Qed.
  Lemma box_split title b x last ws : box_words title b x last ++ ws = (title_words title ++ [box_word b; newline]) ++ (leaves_words x ++ last_lines last) ++ box_word b :: ws.
  Proof. unfold box_words, last_lines, leaves_words. repeat (rewrite <- app_assoc; cbn [app]). reflexivity. Qed.

  Lemma box_step h g c p title b x last ts : primed (KTop h) g (dress c) (waits (g_keep g) c) p -> piece_ok g c (Boxed title b x last) ->
    are_words (piece_words (Boxed title b x last)) ts -> shows (KTop h) (piece_page c (Boxed title b x last) g) ->
    exists p', loop ts p = Ok p' /\ at_rest (KTop h) (piece_page c (Boxed title b x last) g) p'.
  Proof.
    intros (m & lst & attrs & bst & ol & force & a & dang0 & -> & M & D & L & A & R & Hc & F & N1 & N2) (_ & Hl & Hb & Hq) W C. assert (ol = []) as -> by now destruct R.
    cbn [piece_words] in W. rewrite box_split in W. apply words_split in W as (t1 & t2 & -> & W1 & W). apply words_split in W as (t3 & t4 & -> & W3 & W).
    apply words_cons in W as (tc & t10 & -> & Wc & W). apply words_cons in W as (t11 & t12 & -> & W11 & W). apply words_cons in W as (t13 & t14 & -> & W13 & W).
    inversion W. subst t14. cbn [piece_page] in *. set (h0 := inside (flag_page (title_macros title) g)) in *.
    destruct (box_start title b g m lst attrs bst force dang0 a t1 Hl A (top_parents _ _ _ _ _ R) F) as (n & cap & me & loc & p1 & E1 & R1 & Nl & Et & Eme); auto.
    { intros X. specialize (Hq X). rewrite <- M in Hq. destruct m; auto. }
    rewrite M in Et, Eme. fold h0 in R1.
    destruct (box_body b n _ cap me loc bst a h0 p1 x last t3 tc R1 eq_refl Nl Hb W3 Wc) as (lst2 & attrs2 & force2 & kids & loc' & E2 & Ek & A2 & Tk).
    set (g2 := box_page x last h0) in *. set (B := box_block b cap me kids loc') in *.
    assert (drops_breaks (g_keep g2) = false) as Kd by (unfold g2; rewrite box_drops; exact (held_drops _ Hc)).
    assert (loop (t3 ++ [tc]) p1 = Ok (st (ttype tc) attrs2 (B :: bst) [] [] (g_keep g2) false force2 (g_flag g2) None a)) as E3.
    { rewrite (E2 (st lst2 attrs2 (B :: bst) [] [] (g_keep g2) false force2 (g_flag g2) None a)).
      - f_equal. cst. unfold tstate. cbn -[g2]. now rewrite Kd.
      - unfold push_block_to_stack. cst. now rewrite Kd. }
    destruct (soft_newline w fuel here resolve t11 None (ttype tc) attrs2 (B :: bst) [] [] (g_keep g2) false force2 (g_flag g2) None a W11) as (d2 & E8 & _).
    { rewrite (word_type _ _ Wc). now destruct b. }
    assert (unplaced B = Blk (HParent (box_name b) None (box_fence b) (title_text g (dress c) title)) (worn (title_rest g (dress c) title)) (map snd (g_flow g2)) []) as EB.
    { unfold B, box_block. cbn [unplaced unplaced_head map]. now rewrite Ek, Et, Eme. }
    assert (sound B) as SB.
    { apply sound_unplaced. rewrite EB. split; [reflexivity|]. split; [reflexivity|]. split; [reflexivity|]. cbn [tidy]. rewrite Tk. now destruct b. }
    destruct (blank_settle w fuel here resolve (KTop h) (around g g2) t13 TNewLineChar attrs2 B bst [] false force2 d2 a W13 eq_refl) as (p' & E9 & P9); auto.
    { unfold held. cbn [around g_keep]. now rewrite Kd. }
    { right. now exists h. }
    { rewrite EB. exact C. }
    rewrite EB in P9. exists p'. split; [|exact P9].
    apply (loop_join w fuel _ _ _ _ _ E1). change (t3 ++ tc :: t11 :: [t13]) with (t3 ++ [tc] ++ [t11; t13]). rewrite app_assoc. apply (loop_join w fuel _ _ _ _ _ E3).
    exact (loop_join w fuel [t11] [t13] _ _ _ E8 E9).
  Qed.

  (** *** Tables *)
  Definition table_block (ti : list inline) (me : option metadata) (kids : list block) (loc : list location) : block :=
    Blk (HParent PTable None (bs "|===") ti) me kids loc.
  Lemma table_go t attrs bst ti ol keep a lst ist m il force close dang : is_word grid_word t ->
    token_into w fuel t (tstate here resolve None attrs bst ti ol keep a lst ist m None il false force close dang)
    = parse_delimited_parent_block t (tstate here resolve None attrs bst ti ol keep a lst ist m None il false force close dang).
  Proof.
    intros W. rewrite (step w fuel here resolve None attrs bst ti ol keep a grid_word); [|assumption|now left|discriminate..].
    unfold dispatch. now rewrite (word_type _ _ W).
  Qed.
  Lemma table_from t : is_word grid_word t -> parent_from_token t = Ok (table_block [] None [] (token_locations t)).
  Proof.
    intros W. assert (token_text t = bs "|===") as T by exact (word_text _ _ W).
    unfold parent_from_token. now rewrite (word_type _ _ W), T.
  Qed.
  Lemma open_table t m lst attrs bst ti keep force close dang a : is_word grid_word t -> Forall (fun b => is_parent b = false) bst ->
    exists me, token_into w fuel t (tt m lst attrs bst ti keep force close dang a)
    = Ok (st lst attrs (table_block (match ti with Some x => x | None => [] end) me [] (token_locations t) :: bst) [] [tline t] keep false force close None a)
    /\ option_map unplaced_meta me = worn (option_map unplaced_meta m).
  Proof.
    intros W F. unfold tt. rewrite table_go by assumption. unfold parse_delimited_parent_block. rewrite (table_from t W). cbn [bind]. pst.
    destruct (push_worn here resolve (HParent PTable None (bs "|===") (match ti with Some x => x | None => [] end)) [] (token_locations t)
                None attrs bst None [tline t] keep a lst [] m None false force close None (andb_false_r _) eq_refl) as (me & E & Em).
    exists me. split; [|exact Em]. refine (eq_trans _ E). destruct ti; cst; rewrite (ArticleWhole.no_parent bst F); reflexivity.
  Qed.
  Lemma close_table t ti me acc base tk (gap : bool) rows lst attrs keep force close dang a : is_word grid_word t ->
    tfiles tk = snd here -> tfiles t = snd here -> tline tk <= tline t ->
    Forall (fun b => is_cell b = true) acc -> Forall2 (cell_on (snd here)) (row_lines (S (tline tk) + (if gap then 1 else 0)) rows) (rev acc) ->
    forallb (fun r => match row_cells r with [] => false | _ => true end) rows = true ->
    match option_map unplaced_meta me with Some m => cols_ok m | None => true end = true ->
    match rows, option_map unplaced_meta me with Row [_] _ :: _ :: _, None => false | _, _ => true end = true ->
    exists loc' me', token_into w fuel t (st lst attrs (acc ++ table_block ti me [] (token_locations tk) :: base) [] [tline tk] keep false force close dang a)
      = (let* p := push_block_to_stack (table_block ti me' (rev acc) loc') (st lst attrs base [] [] keep false force close None a) in
         Ok (set_in_cont false p))
      /\ option_map unplaced_meta me' = grid_meta gap rows (option_map unplaced_meta me).
  Proof.
    intros W Fk Ft Lt Fc Fr Hn Hm He. unfold ScriptBlocks.stm at 1. rewrite table_go by assumption. unfold parse_delimited_parent_block. rewrite (table_from t W). cbn [bind]. pst.
    assert (Forall (fun b => is_parent b = false) acc) as F1.
    { eapply Forall_impl; [|exact Fc]. intros [[] ? ? ?]; cbn; congruence. }
    rewrite (ArticleWhole.split_parent acc (table_block ti me [] (token_locations tk)) base F1 eq_refl).
    assert (parent_eqb (table_block ti me [] (token_locations tk)) (table_block [] None [] (token_locations t)) = true) as -> by reflexivity.
    match goal with |- context [add_inlines_to_block_stack ?p] => change p with (st lst attrs (acc ++ base) [] [tline tk] keep false force close None a) end.
    rewrite add_nothing. cbn [bind]. cst.
    assert (block_line (table_block ti me [] (token_locations tk)) = Ok (tline tk)) as -> by reflexivity. cbn [bind].
    rewrite app_length. replace (List.length acc + List.length base <? List.length base) with false by (symmetry; apply Nat.ltb_ge; lia).
    replace (List.length acc + List.length base - List.length base) with (List.length acc + 0) by lia.
    rewrite firstn_app_2, Nat.add_0_r, ScanMain2.skipn_length_app. cbn [firstn]. rewrite app_nil_r.
    assert (anchored (snd here) (tline tk) (reconcile (token_locations tk) (b_locs (table_block [] None [] (token_locations t))))) as A0.
    { apply reconcile_anchored.
      - split; [|now exists (first_location tk), [last_location tk]]. unfold below, token_locations. apply Forall_cons; [|apply Forall_cons; [|constructor]]; cbn; split; auto.
      - cbn [b_locs table_block]. unfold below, token_locations. apply Forall_cons; [|apply Forall_cons; [|constructor]]; cbn; split; auto. }
    destruct (@cells_pushed (snd here) None (bs "|===") ti me (tline tk) (rev acc)) with (k := @nil block) (loc := reconcile (token_locations tk) (b_locs (table_block [] None [] (token_locations t))))
      as (loc' & E & A1); [now apply Forall_rev| |exact A0|].
    { pose proof (row_lines_below rows (S (tline tk) + (if gap then 1 else 0))) as B. revert B. induction Fr as [|x b l k (y & r & Eb & Ly & Bl) _ IH]; intros B; [constructor|].
      inversion B as [|? ? B1 B2]. subst. apply Forall_cons; [|now apply IH]. rewrite Eb. eapply below_weaken; [|exact Bl]. lia. }
    unfold table_block at 1. rewrite E. cbn [bind app is_table b_head].
    destruct (grid_info (bs "|===") ti me (rev acc) loc' (tline tk) gap rows A1 Fr Hn Hm He) as (me' & E' & Em'). rewrite E'. cbn [bind].
    exists loc', me'. split; [reflexivity|exact Em'].
  Qed.
  Lemma cells_alike g rows : map (cell_block (g_keep g) (g_env g)) (grid_cells rows) = map (fun c => Blk (HCell (page_text g (snd c))) None [] []) (grid_cells rows).
  Proof. reflexivity. Qed.
  Lemma table_step h g c p title gap rows ts : found (Grid title gap rows) -> lined (snd here) ts ->
    primed (KTop h) g (dress c) (waits (g_keep g) c) p -> piece_ok g c (Grid title gap rows) ->
    are_words (piece_words (Grid title gap rows)) ts -> shows (KTop h) (piece_page c (Grid title gap rows) g) ->
    exists p', loop ts p = Ok p' /\ at_rest (KTop h) (piece_page c (Grid title gap rows) g) p'.
  Proof.
    intros [Nf Sc] (n & Ln) (m & lst & attrs & bst & ol & force & a & dang0 & -> & M & D & L & A & R & Hc & F & N1 & N2) (_ & Hl & Hg) W C. assert (ol = []) as -> by now destruct R.
    cbn [piece_words] in W. apply words_split in W as (t1 & t2 & -> & W1 & W). apply words_cons in W as (tk & t3 & -> & Wk & W). apply words_cons in W as (t4 & t5 & -> & W4 & W).
    apply words_split in W as (t6 & t7 & -> & W6 & W). apply words_split in W as (t8 & t9 & -> & W8 & W).
    apply words_cons in W as (tc & t10 & -> & Wc & W). apply words_cons in W as (t11 & t12 & -> & W11 & W). apply words_cons in W as (t13 & t14 & -> & W13 & W).
    inversion W. subst t14. cbn [piece_page] in *.
    apply linear_app in Ln as [_ Ln]. cbn [linear] in Ln. destruct Ln as [[Lk Fk] [_ Ln]].
    assert (forall k, next_line k tk = k) as Ek by (intros k; unfold next_line; now rewrite (word_type _ _ Wk)).
    assert (forall k, next_line k t4 = S k) as E4 by (intros k; unfold next_line; now rewrite (word_type _ _ W4)).
    rewrite Ek, E4, <- Lk in Ln. apply linear_app in Ln as [Ln6 Ln]. apply linear_app in Ln as [Ln8 Ln]. cbn [linear] in Ln. destruct Ln as [[Lc Fc] _].
    destruct (label_step title g t1 m lst attrs bst force dang0 a Hl W1 A) as (m1 & l1 & ti & more & d1 & E1 & Et & Em).
    set (cap := match ti with Some x => x | None => [] end) in *.
    destruct (open_table tk m1 l1 attrs bst ti (g_keep g) (force || more) (g_flag g || title_macros title) d1 a Wk (top_parents _ _ _ _ _ R)) as (me & E2 & Eme).
    rewrite Em, M in Eme. fold cap in E2. set (P := table_block cap me [] (token_locations tk)) in *.
    destruct (soft_newline w fuel here resolve t4 None (ttype tk) attrs (P :: bst) [] [tline tk] (g_keep g) false (force || more) (g_flag g || title_macros title) None a W4) as (d & E3 & _).
    { now rewrite (word_type _ _ Wk). }
    assert (exists f6 d6, loop t6 (st TNewLineChar attrs (P :: bst) [] [tline tk] (g_keep g) false (force || more) (g_flag g || title_macros title) d a)
      = Ok (st TNewLineChar attrs (P :: bst) [] [tline tk] (g_keep g) false f6 (g_flag g || title_macros title) d6 a)
      /\ fold_left next_line t6 (S (tline tk)) = S (tline tk) + (if gap then 1 else 0)) as (f6 & d6 & E6 & L6).
    { apply gap_step; auto. }
    rewrite L6 in Ln8, Lc.
    unfold grid_ok in Hg. apply andb_prop in Hg as [Hg H4]. apply andb_prop in Hg as [Hg H3]. apply andb_prop in Hg as [H1 H2].
    assert (exists acc f8 d8, loop t8 (st TNewLineChar attrs (P :: bst) [] [tline tk] (g_keep g) false f6 (g_flag g || title_macros title) d6 a)
      = Ok (st TNewLineChar attrs (acc ++ P :: bst) [] [tline tk] (g_keep g) false f8 (g_flag g || title_macros title || cell_macros (grid_cells rows)) d8 a)
      /\ map unplaced (rev acc) = map (cell_block (g_keep g) (g_env g)) (grid_cells rows) /\ Forall2 (cell_on (snd here)) (row_lines (S (tline tk) + (if gap then 1 else 0)) rows) (rev acc)) as (acc & f8 & d8 & E8 & B8 & O8).
    { destruct Nf as [Nf|Nf].
      - destruct rows as [|r rows]; [|cbn [forallb] in H1; apply andb_prop in H1 as [H1 _]; unfold grid_cells in Nf; cbn [map List.concat] in Nf; destruct (row_cells r); discriminate].
        inversion W8. subst t8. exists [], f6, d6. cbn [grid_cells map List.concat cell_macros existsb app]. rewrite orb_false_r. split; [reflexivity|]. split; [reflexivity|constructor].
      - assert (exists f, fuel = S f) as (f & Ef) by (destruct fuel as [|f]; [lia|now exists f]). rewrite Ef. apply (rows_step w f here resolve rows); auto. }
    assert (Forall (fun b => is_cell b = true) acc) as Fcell.
    { rewrite <- (rev_involutive acc). apply Forall_rev. apply Forall_forall. intros b Hb. rewrite <- is_cell_unplaced.
      apply (in_map unplaced) in Hb. rewrite B8 in Hb. apply in_map_iff in Hb as (x & <- & _). reflexivity. }
    assert (tline tk <= tline tc) as Lt.
    { rewrite Lc. assert (forall l k, k <= fold_left next_line l k) as H; [|etransitivity; [|apply H]; lia].
      induction l as [|x l IH]; intros k; [reflexivity|]. cbn. etransitivity; [|apply IH]. unfold next_line. destruct (ttype x); lia. }
    rewrite <- Eme in H3, H4.
    destruct (close_table tc cap me acc bst tk gap rows TNewLineChar attrs (g_keep g) f8 (g_flag g || title_macros title || cell_macros (grid_cells rows)) d8 a Wc Fk Fc Lt Fcell O8 H1 H3 H4)
      as (loc' & me' & E9 & Em'). fold P in E9.
    set (B := table_block cap me' (rev acc) loc') in *. set (close := g_flag g || title_macros title || cell_macros (grid_cells rows)) in *.
    pose proof (held_drops _ Hc) as Kd.
    assert (loop [tc] (st TNewLineChar attrs (acc ++ P :: bst) [] [tline tk] (g_keep g) false f8 close d8 a) = Ok (st TTable attrs (B :: bst) [] [] (g_keep g) false f8 close None a)) as E10.
    { cbn [parse_loop]. rewrite E9. unfold push_block_to_stack. cst. rewrite Kd. pst. cst. rewrite (word_type _ _ Wc). unfold tstate. cbn. now rewrite Kd. }
    destruct (soft_newline w fuel here resolve t11 None TTable attrs (B :: bst) [] [] (g_keep g) false f8 close None a W11 eq_refl) as (d2 & E11 & _).
    assert (unplaced B = grid_block g (title_text g (dress c) title) (worn (title_rest g (dress c) title)) gap rows) as EB.
    { unfold B, table_block, grid_block. cbn [unplaced unplaced_head]. now rewrite B8, Et, M, Em', Eme. }
    assert (sound B) as SB.
    { apply sound_unplaced. rewrite EB. split; [reflexivity|]. split; [reflexivity|]. split; [reflexivity|]. unfold grid_block. cbn [tidy tidy_head].
      apply andb_true_intro. split; apply forallb_forall; intros x Hx; apply in_map_iff in Hx as (? & <- & _); reflexivity. }
    destruct (blank_settle w fuel here resolve (KTop h) (flag_page (existsb (fun c => macros (snd c)) (grid_cells rows)) (flag_page (title_macros title) g)) t13 TNewLineChar attrs B bst [] false f8 d2 a W13 eq_refl)
      as (p' & E12 & P12); auto.
    { right. now exists h. }
    { rewrite EB. exact C. }
    rewrite EB in P12. exists p'. split; [|exact P12].
    apply (loop_join w fuel _ _ _ _ _ E1). rewrite (loop_cons w fuel _ _ _ _ E2). apply (loop_join w fuel [t4] _ _ _ _ E3). apply (loop_join w fuel _ _ _ _ _ E6). apply (loop_join w fuel _ _ _ _ _ E8).
    apply (loop_join w fuel [tc] _ _ _ _ E10). exact (loop_join w fuel [t11] [t13] _ _ _ E11 E12).
  Qed.

  (** *** Lists whose items are continued *)
  (** an item of a list, with the text of its line still to come or not *)
  Definition item_at (mk : bytes) (x : list inline) (kids : list block) (ist : list inline) (it : block) : Prop :=
    (unplaced it = Blk (HListItem mk []) None [] [] /\ map unplaced_inline (rev ist) = x /\ kids = [])
    \/ (ist = [] /\ unplaced it = Blk (HListItem mk x) None kids []).
  Lemma item_fill mk x kids ist it lst attrs bst ol keep force close dang a : item_at mk x kids ist it -> ist = [] \/ force = false ->
    exists it', add_inlines_to_block_stack (st lst attrs (it :: bst) ist ol keep false force close dang a)
      = Ok (st lst attrs (it' :: bst) [] ol keep false force close dang a) /\ unplaced it' = Blk (HListItem mk x) None kids [].
  Proof.
    intros H F. destruct ist as [|i ist].
    - exists it. split; [apply add_nothing|]. destruct H as [(H & <- & ->)|(_ & H)]; exact H.
    - destruct F as [F| ->]; [discriminate|]. destruct H as [(H & B & ->)|(H & _)]; [|discriminate].
      destruct it as [hi mi ki li]. cbn [unplaced] in H. injection H as Hh Hm Hk. destruct hi; try discriminate Hh.
      cbn in Hh. injection Hh as -> Hx. apply map_eq_nil in Hx as ->. apply map_eq_nil in Hk as ->. destruct mi; [discriminate|].
      exists (Blk (HListItem mk (rev (i :: ist))) None [] li). split.
      + unfold add_inlines_to_block_stack. cst. cbn [takes_inlines b_head]. pst. rewrite ArticleProofs.push_inlines_item. reflexivity.
      + cbn [unplaced unplaced_head option_map map]. now rewrite B.
  Qed.
  Lemma item_close v me lk ls mk x kids ist it lst attrs bst ol keep force close dang a : unplaced ls = Blk (HList v) me lk [] -> item_at mk x kids ist it ->
    exists ls', add_last_list_item_to_list (st lst attrs (it :: ls :: bst) ist ol keep false force close dang a)
      = Ok (st lst attrs (ls' :: bst) [] ol keep false false close dang a)
      /\ unplaced ls' = Blk (HList v) me (lk ++ [Blk (HListItem mk x) None kids []]) [].
  Proof.
    intros Hl Hi. unfold add_last_list_item_to_list.
    match goal with |- context [add_inlines_to_block_stack ?p] => change p with (st lst attrs (it :: ls :: bst) ist ol keep false false close dang a) end.
    destruct (item_fill mk x kids ist it lst attrs (ls :: bst) ol keep false close dang a Hi (or_intror eq_refl)) as (it' & -> & Ei). cbn [bind]. cst.
    assert (is_list_item it' = true) as -> by (destruct (heads_unplaced it') as (_ & <- & _); now rewrite Ei). pst.
    destruct ls as [hl ml kl ll]. cbn [unplaced] in Hl. injection Hl as Hh Hm Hk. destruct hl; try discriminate Hh. injection Hh as ->.
    eexists. split; [reflexivity|]. rewrite unplaced_consolidate. cbn [unplaced unplaced_head]. rewrite map_app, Hk, Hm. cbn [map]. now rewrite Ei.
  Qed.
  Lemma not_parent b hd m k l : unplaced b = Blk hd m k l -> is_parent (Blk hd m k l) = false -> is_parent b = false.
  Proof. intros E. destruct (heads_unplaced b) as (_ & _ & _ & <-). now rewrite E. Qed.
  Lemma worn_none : worn None = None.
  Proof. reflexivity. Qed.
  Lemma bound_step bx v me lk ls mk x kids ist it g ts attrs bst force dang a : unplaced ls = Blk (HList v) me lk [] -> item_at mk x kids ist it ->
    ist = [] \/ force = false -> bound_ok bx g -> drops_breaks (g_keep g) = false -> agrees attrs (g_env g) -> Forall (fun b => is_parent b = false) bst ->
    are_words (bound_words bx) ts ->
    exists it' attrs' force' dang', loop ts (st TNewLineChar attrs (it :: ls :: bst) ist [] (g_keep g) false force (g_flag g) dang a)
        = Ok (st TNewLineChar attrs' (it' :: ls :: bst) [] [] (g_keep (bound_page bx g)) false force' (g_flag (bound_page bx g)) dang' a)
      /\ unplaced it' = Blk (HListItem mk x) None (kids ++ [bound_block bx g]) [] /\ agrees attrs' (g_env (bound_page bx g))
      /\ tidy (bound_block bx g) = true.
  Proof.
    intros Hl Hi Fi H Kd A Fb W. destruct bx as [title b l last]. destruct H as [Ht Hb]. cbn [bound_words] in W.
    apply words_cons in W as (t1 & t0 & -> & W1 & W). apply words_cons in W as (t2 & t3 & -> & W2 & W). rewrite box_split in W.
    apply words_split in W as (t4 & t5 & -> & W4 & W). apply words_split in W as (t6 & t7 & -> & W6 & W). apply words_cons in W as (tc & t8 & -> & Wc & W).
    apply words_cons in W as (t9 & t10 & -> & W9 & W). inversion W. subst t10.
    destruct (item_fill mk x kids ist it TNewLineChar attrs (ls :: bst) [] (g_keep g) force (g_flag g) dang a Hi Fi) as (it1 & E1 & Ei).
    assert (token_into w fuel t1 (st TNewLineChar attrs (it :: ls :: bst) ist [] (g_keep g) false force (g_flag g) dang a)
      = Ok (st TNewLineChar attrs (it1 :: ls :: bst) [] [] (g_keep (continued g)) false true (g_flag g) dang a)) as E2.
    { rewrite (go w fuel here resolve (TBlockContinuation, bs "+")) by (assumption || discriminate). unfold dispatch. rewrite (word_type _ _ W1). cbn [fst].
      unfold parse_block_continuation. rewrite E1. reflexivity. }
    destruct (soft_newline w fuel here resolve t2 None (ttype t1) attrs (it1 :: ls :: bst) [] [] (g_keep (continued g)) false true (g_flag g) dang a W2) as (d & E3 & _).
    { now rewrite (word_type _ _ W1). }
    destruct (box_start title b (continued g) None TNewLineChar attrs (it1 :: ls :: bst) true d a t4 Ht A) as (n & cap & mm & loc & p1 & E4 & R1 & Nl & Et & Em); auto.
    { apply Forall_cons; [exact (not_parent _ _ _ _ _ Ei eq_refl)|]. apply Forall_cons; [exact (not_parent _ _ _ _ _ Hl eq_refl)|exact Fb]. }
    cbn [option_map] in Et, Em.
    assert (title_rest (continued g) None title = None) as Er by (destruct title; [apply rest_none|reflexivity]). rewrite Er in Em. destruct mm; [discriminate|].
    set (h0 := inside (flag_page (title_macros title) (continued g))) in *.
    destruct (box_body b n _ cap None loc (it1 :: ls :: bst) a h0 p1 l last t6 tc R1 eq_refl Nl Hb W6 Wc) as (lst2 & attrs2 & force2 & ks & loc' & E5 & Ek & A2 & Tk).
    set (g2 := box_page l last h0) in *. set (B := box_block b cap None ks loc') in *.
    assert (drops_breaks (g_keep g2) = true) as Kt by (unfold g2; now rewrite box_drops).
    destruct it1 as [hi mi ki li]. cbn [unplaced] in Ei. injection Ei as Hh Hm Hk. destruct hi; try discriminate Hh.
    set (it2 := consolidate_locations (Blk (HListItem marker principal) mi (ki ++ [B]) li)).
    assert (loop (t6 ++ [tc]) p1 = Ok (st (ttype tc) attrs2 (it2 :: ls :: bst) [] [] (mkManner (keeps_breaks (g_keep g2)) false) false force2 (g_flag g2) None a)) as E6.
    { rewrite (E5 (st lst2 attrs2 (it2 :: ls :: bst) [] [] (mkManner (keeps_breaks (g_keep g2)) false) false force2 (g_flag g2) None a)).
      - reflexivity.
      - unfold push_block_to_stack. cst. rewrite Kt. reflexivity. }
    destruct (soft_newline w fuel here resolve t9 None (ttype tc) attrs2 (it2 :: ls :: bst) [] [] (mkManner (keeps_breaks (g_keep g2)) false) false force2 (g_flag g2) None a W9) as (d2 & E7 & _).
    { rewrite (word_type _ _ Wc). now destruct b. }
    assert (unplaced B = bound_block (Bound title b l last) g) as EB.
    { unfold B, box_block, bound_block. cbn [unplaced unplaced_head map option_map]. fold h0. fold g2. now rewrite Ek, Et. }
    exists it2, attrs2, force2, d2. split; [|split; [|split]].
    - rewrite (loop_cons w fuel _ _ _ _ E2). apply (loop_join w fuel [t2] _ _ _ _ E3). apply (loop_join w fuel _ _ _ _ _ E4).
      change (t6 ++ tc :: [t9]) with (t6 ++ [tc] ++ [t9]). rewrite app_assoc. rewrite (loop_join w fuel _ _ _ _ _ E6 E7).
      cbn [bound_page]. fold h0. fold g2. cbn [resumed g_keep g_flag]. now rewrite Kd.
    - unfold it2. rewrite unplaced_consolidate. cbn [unplaced]. rewrite Hh, Hm, map_app, Hk. cbn [map]. now rewrite EB.
    - exact A2.
    - unfold bound_block. fold h0. fold g2. cbn [tidy]. rewrite Tk. now destruct b.
  Qed.
  Lemma bounds_loop l : forall g v me lk ls mk x kids ist it ts attrs bst force dang a, unplaced ls = Blk (HList v) me lk [] -> item_at mk x kids ist it ->
    (l <> [] -> ist = [] \/ force = false) -> bounds_ok l g -> drops_breaks (g_keep g) = false -> agrees attrs (g_env g) -> Forall (fun b => is_parent b = false) bst ->
    forallb tidy kids = true -> are_words (List.concat (map bound_words l)) ts ->
    exists ist' it' attrs' force' dang', loop ts (st TNewLineChar attrs (it :: ls :: bst) ist [] (g_keep g) false force (g_flag g) dang a)
        = Ok (st TNewLineChar attrs' (it' :: ls :: bst) ist' [] (g_keep (bounds_page l g)) false force' (g_flag (bounds_page l g)) dang' a)
      /\ item_at mk x (kids ++ bound_blocks l g) ist' it' /\ agrees attrs' (g_env (bounds_page l g))
      /\ forallb tidy (kids ++ bound_blocks l g) = true.
  Proof.
    induction l as [|bx l IH]; intros g v me lk ls mk x kids ist it ts attrs bst force dang a Hl Hi Fi H Kd A Fb Tk W.
    - inversion W. subst ts. cbn [bound_blocks]. rewrite app_nil_r. exists ist, it, attrs, force, dang. auto.
    - destruct H as [H1 H2]. cbn [map List.concat] in W. apply words_split in W as (t1 & t2 & -> & W1 & W2).
      destruct (bound_step bx v me lk ls mk x kids ist it g t1 attrs bst force dang a Hl Hi (Fi ltac:(discriminate)) H1 Kd A Fb W1) as (it1 & at1 & f1 & d1 & E1 & Ei & A1 & T1).
      destruct (IH (bound_page bx g) v me lk ls mk x (kids ++ [bound_block bx g]) [] it1 t2 at1 bst f1 d1 a Hl) as (i2 & it2 & at2 & f2 & d2 & E2 & I2 & A2 & T2); auto.
      { right. auto. }
      { now rewrite bound_drops. }
      { rewrite forallb_app, Tk. cbn [forallb]. now rewrite T1. }
      rewrite <- app_assoc in I2, T2. exists i2, it2, at2, f2, d2. split; [|split; [exact I2|split; [exact A2|exact T2]]].
      exact (loop_join w fuel _ _ _ _ _ E1 E2).
  Qed.
  Lemma bounds_flow l : forall g, g_open (bounds_page l g) = g_open g /\ g_flow (bounds_page l g) = g_flow g.
  Proof. unfold bounds_page. induction l as [|[? ? ? ?] l IH]; intros g; [auto|]. cbn [fold_left]. destruct (IH (bound_page (Bound title b l0 last) g)) as [-> ->]. auto. Qed.
  Lemma item_flow x g : g_open (item_page x g) = g_open g /\ g_flow (item_page x g) = g_flow g.
  Proof. unfold item_page. now destruct (bounds_flow (snd x) (flag_page (macros (snd (fst x))) g)) as [-> ->]. Qed.
  Lemma items_flow l : forall g, g_open (items_page l g) = g_open g /\ g_flow (items_page l g) = g_flow g.
  Proof. unfold items_page. induction l as [|x l IH]; intros g; [auto|]. cbn [fold_left]. destruct (IH (item_page x g)) as [-> ->]. apply item_flow. Qed.
  Lemma room_same k ol bst a g g' : g_open g' = g_open g -> g_flow g' = g_flow g -> room k ol bst a g -> room k ol bst a g'.
  Proof. intros E1 E2. unfold room. destruct k; now rewrite E1, E2. Qed.
  Lemma trim_callout d : forallb is_digit d = true -> trim ("<" :: d ++ bs "> ") = "<" :: d ++ bs ">".
  Proof.
    intros F. assert (graphic "<" /\ graphic ">") as [G1 G2] by (split; split; vm_compute; discriminate).
    destruct (graphic_facts _ G1) as [C1 C2]. destruct (graphic_facts _ G2) as [D1 D2].
    assert (chars ("<" :: d ++ bs "> ") = (chars ("<" :: d) ++ [[">"]]) ++ [[SP]]) as E.
    { change ("<" :: d ++ bs "> ") with ("<" :: d ++ [">"] ++ [SP]). rewrite app_assoc. change ("<" :: (d ++ [">"]) ++ [SP]) with ((("<" :: d) ++ [">"]) ++ [SP]).
      now rewrite !chars_snoc. }
    unfold trim. rewrite E. destruct (chars_head "<" d) as (x & xs & Ec).
    assert (drop_while is_ws ((chars ("<" :: d) ++ [[">"]]) ++ [[SP]]) = (chars ("<" :: d) ++ [[">"]]) ++ [[SP]]) as ->.
    { rewrite Ec. cbn [app drop_while]. now rewrite C2. }
    rewrite rev_app_distr. cbn [rev app drop_while]. replace (is_ws [SP]) with true by reflexivity.
    rewrite rev_app_distr. cbn [rev app drop_while]. rewrite D2. cbn [rev]. rewrite rev_involutive, <- chars_snoc by assumption. apply unchars_chars.
  Qed.
  Lemma bullet_trim b t : is_word (bullet_word b) t -> bullet_fits b = true -> trim (lexeme t) = bullet_mark b.
  Proof. intros (_ & -> & _) F. destruct b; try reflexivity. now apply trim_callout. Qed.
  Definition bullet_item (b : bullet) : token -> pstate -> result pstate :=
    match bullet_variant b with LUnordered => parse_unordered_list_item | _ => parse_ordered_list_item end.
  Lemma bullet_go b t me lst attrs bst ist ol keep il force close dang a : is_word (bullet_word b) t ->
    token_into w fuel t (stm me lst attrs bst ist ol keep il force close dang a) = bullet_item b t (stm me lst attrs bst ist ol keep il force close dang a).
  Proof. intros W. rewrite (go w fuel here resolve (bullet_word b)) by (assumption || now destruct b). unfold dispatch. rewrite (word_type _ _ W). now destruct b. Qed.
  Lemma bullet_kind b v mk x kids ist it : bullet_variant b = v -> mk = bullet_mark b -> item_at mk x kids ist it ->
    match v with LUnordered => is_unordered_list_item it = true | _ => is_ordered_list_item it = true end.
  Proof.
    intros <- -> H. assert (exists y, b_head it = HListItem (bullet_mark b) y) as (y & Ey).
    { destruct it as [hi mi ki li]. destruct H as [(H & _)|(_ & H)]; cbn [unplaced] in H; injection H as Hh _ _; destruct hi; try discriminate Hh; injection Hh as -> _; cbn; eauto. }
    unfold is_unordered_list_item, is_ordered_list_item. rewrite Ey. now destruct b.
  Qed.
  Lemma item_blocks_tidy x g : forallb tidy (bound_blocks (snd x) (flag_page (macros (snd (fst x))) g)) = true -> tidy (item_block x g) = true.
  Proof. intros H. unfold item_block. cbn [tidy tidy_head]. exact H. Qed.
  Lemma threads_loop h rest : forall ts t g v me lk ls b0 x kids it attrs bst ist force dang a,
    are_words (List.concat (map item_words rest)) ts -> is_word newline t -> items_ok rest g ->
    Forall (fun x => bullet_variant (fst (fst x)) = v) rest -> bullet_variant b0 = v ->
    unplaced ls = Blk (HList v) me lk [] -> item_at (bullet_mark b0) x kids ist it -> forallb tidy lk = true -> forallb tidy kids = true ->
    agrees attrs (g_env g) -> room (KTop h) [] bst a g -> held [] (g_keep g) -> flat (g_flow g) ->
    forall b, b = Blk (HList v) me (lk ++ Blk (HListItem (bullet_mark b0) x) None kids [] :: item_blocks rest g) [] ->
    shows (KTop h) (land b (items_page rest g)) ->
    exists p', loop (ts ++ [t]) (st TNewLineChar attrs (it :: ls :: bst) ist [] (g_keep g) false force (g_flag g) dang a) = Ok p'
      /\ at_rest (KTop h) (land b (items_page rest g)) p'.
  Proof.
    induction rest as [|[[bu i] bs0] rest IH]; intros ts t g v me lk ls b0 x kids it attrs bst ist force dang a W Wt F Fv Hv Hl Hi Tl Tk A R Hc N1 b Eb C.
    - inversion W. subst ts. cbn [app parse_loop item_blocks items_page fold_left] in *.
      assert (is_list_item it = true) as Hit.
      { destruct (heads_unplaced it) as (_ & <- & _). destruct Hi as [(-> & _)|(_ & ->)]; reflexivity. }
      rewrite blank_item by (assumption || reflexivity).
      destruct (item_close v me lk ls _ x kids ist it TNewLineChar attrs bst [] (g_keep g) force (g_flag g) None a Hl Hi) as (ls' & E & Hl'). rewrite E. cbn [bind].
      match goal with |- context [add_inlines_to_block_stack ?p] => change p with (st TNewLineChar attrs (ls' :: bst) [] [] (g_keep g) false false (g_flag g) None a) end.
      rewrite add_nothing. cbn [bind].
      assert (unplaced ls' = b) as El by (rewrite Eb; exact Hl').
      assert (sound b) as Sb.
      { rewrite Eb. split; [reflexivity|]. split; [reflexivity|]. split; [reflexivity|]. cbn [tidy tidy_head andb]. rewrite forallb_app, Tl. cbn [forallb tidy tidy_head andb]. now rewrite Tk. }
      assert (sound ls') as S by (apply sound_unplaced; now rewrite El).
      rewrite <- El in *.
      destruct (settle here resolve (KTop h) TNewLineChar attrs ls' bst [] (g_keep g) false a g R S (flat_land _ _ N1 Sb) C) as (bst' & a' & E' & R').
      rewrite E'. cbn [bind]. rewrite set_last_st, (word_type _ _ Wt). eexists. split; [reflexivity|].
      apply rest_land; auto; try reflexivity. now apply flat_land.
    - destruct F as [(Hb & Hf & Hs & Hbs) F2]. destruct Hv. apply Forall_cons_iff in Fv as [V1 V2]. cbn [fst snd] in *. cbn [map List.concat] in W.
      apply words_split in W as (t1 & t2 & -> & W1 & W2). unfold item_words in W1. cbn [fst snd] in W1. apply words_cons in W1 as (tk & t3 & -> & Wk & W1).
      rewrite app_assoc in W1. apply words_split in W1 as (t4 & t5 & -> & W4 & W5). apply words_split in W4 as (t6 & t7 & -> & W6 & W7). apply words_cons in W7 as (tn & t8 & -> & Wn & W8). inversion W8. subst t8.
      destruct (item_close _ me lk ls _ x kids ist it TNewLineChar attrs bst [] (g_keep g) force (g_flag g) None a Hl Hi) as (ls' & E & Hl').
      pose proof (bullet_kind b0 _ _ x kids ist it eq_refl eq_refl Hi) as Ho.
      set (it' := Blk (HListItem (bullet_mark bu) []) None [] (token_locations tk)).
      assert (bullet_item bu tk (st TNewLineChar attrs (it :: ls :: bst) ist [] (g_keep g) false force (g_flag g) dang a)
        = Ok (st TNewLineChar attrs (it' :: ls' :: bst) [] [] (g_keep g) false false (g_flag g) None a)) as E0.
      { unfold bullet_item. rewrite V1. destruct (bullet_variant b0); unfold parse_ordered_list_item, parse_unordered_list_item, new_list_item; rewrite (bullet_trim bu tk Wk Hb); cst; rewrite Ho;
          match goal with |- context [add_last_list_item_to_list ?p] => change p with (st TNewLineChar attrs (it :: ls :: bst) ist [] (g_keep g) false force (g_flag g) None a) end;
          rewrite E; cbn [bind]; unfold push_block_to_stack; cst; rewrite (held_drops _ Hc); reflexivity. }
      destruct (line_loop0 w fuel here resolve i t6 tn (ttype tk) attrs (g_env g) (it' :: ls' :: bst) [] (g_keep g) false false (g_flag g) a A W6 Hf Wn) as (i1 & d1 & E1 & B1 & Ni).
      destruct (bounds_loop bs0 (flag_page (macros i) g) (bullet_variant b0) me _ ls' (bullet_mark bu) (page_text g i) [] i1 it' t5 attrs bst (false || styled i) d1 a Hl')
        as (i2 & it2 & at2 & f2 & d2 & E2 & I2 & A2 & T2); auto.
      { left. auto. }
      { exact (held_drops _ Hc). }
      { exact (top_parents _ _ _ _ _ R). }
      cbn [app] in I2, T2.
      destruct (item_flow (bu, i, bs0) g) as [G1 G2].
      destruct (IH t2 t (item_page (bu, i, bs0) g) (bullet_variant b0) me (lk ++ [Blk (HListItem (bullet_mark b0) x) None kids []]) ls' bu (page_text g i) _ it2 at2 bst i2 f2 d2 a W2 Wt F2 V2 V1 Hl' I2)
        with (b := b) as (p' & E3 & P3); auto.
      { rewrite forallb_app, Tl. cbn [forallb tidy tidy_head andb]. now rewrite Tk. }
      { exact (room_same _ _ _ _ _ _ G1 G2 R). }
      { unfold held. rewrite item_drops. exact Hc. }
      { now rewrite G2. }
      { rewrite Eb, <- app_assoc. reflexivity. }
      exists p'. split; [|exact P3]. cbn [app]. rewrite (loop_cons w fuel _ _ _ _ (eq_trans (bullet_go bu tk _ _ _ _ _ _ _ _ _ _ _ _ Wk) E0)).
      rewrite <- !app_assoc. rewrite (app_assoc t6 [tn]). apply (loop_join w fuel _ _ _ _ _ E1). exact (loop_join w fuel _ _ _ _ _ E2 E3).
  Qed.
  Lemma threads_step h g c p first rest ts : primed (KTop h) g (dress c) (waits (g_keep g) c) p -> piece_ok g c (Threaded first rest) ->
    are_words (piece_words (Threaded first rest)) ts -> shows (KTop h) (piece_page c (Threaded first rest) g) ->
    exists p', loop ts p = Ok p' /\ at_rest (KTop h) (piece_page c (Threaded first rest) g) p'.
  Proof.
    intros (m & lst & attrs & bst & ol & force & a & dang & -> & M & D & L & A & R & Hc & F & N1 & N2) (_ & (Hi & Hr) & Hco & Hv) W C. assert (ol = []) as -> by now destruct R.
    destruct first as [bu i]. cbn [fst snd] in *. destruct Hi as (Hb & Hf & _ & _). cbn [fst snd] in *. cbn [piece_words] in W. unfold item_words at 1 in W. cbn [fst snd map List.concat app] in W.
    apply words_cons in W as (tk & t1 & -> & Wk & W). apply words_split in W as (t2 & t3 & -> & W2 & W). apply words_split in W as (t4 & t5 & -> & W4 & W).
    apply words_cons in W as (t6 & t7 & -> & W6 & W). inversion W. subst t7.
    apply words_split in W2 as (t8 & t9 & -> & W8 & W9). apply words_cons in W9 as (tn & t10 & -> & Wn & W10). inversion W10. subst t10.
    set (it := Blk (HListItem (bullet_mark bu) []) None [] (token_locations tk)).
    assert (exists ls, bullet_item bu tk (stm m lst attrs bst [] [] (g_keep g) false force (g_flag g) dang a)
            = Ok (st lst attrs (it :: ls :: bst) [] [] (g_keep g) false force (g_flag g) None a)
            /\ unplaced ls = Blk (HList (bullet_variant bu)) (list_meta bu (dress c)) [] []) as (ls & E & Els).
    { pose proof (room_no_item _ _ _ _ _ R N1) as H. unfold bullet_item. rewrite <- M.
      assert (match bst with [] => false | b :: _ => is_ordered_list_item b end = false) as No by (destruct bst as [|[[] ? ? ?] ?]; try reflexivity; destruct H; discriminate).
      assert (match bst with [] => false | b :: _ => is_unordered_list_item b end = false) as Nu by (destruct bst as [|[[] ? ? ?] ?]; try reflexivity; destruct H; discriminate).
      destruct bu as [| |d]; cbn [bullet_variant list_meta]; unfold parse_ordered_list_item, parse_unordered_list_item, new_list_item; rewrite (bullet_trim _ tk Wk Hb); try rewrite (word_type _ _ Wk); cst.
      - rewrite No. replace (tt_eqb (fst (bullet_word Dot)) TCodeCalloutListItem) with false by reflexivity. unfold push_block_to_stack, new_list. pst. rewrite (held_drops _ Hc). destruct m as [m|]; cbn [option_map bind]; pst; [|rewrite (held_drops _ Hc); eexists; split; reflexivity].
        match goal with |- context [add_metadata (Blk ?h None ?k ?lo) m] => destruct (meta_added h m k lo eq_refl) as (x & -> & Ex) end. pst. rewrite (held_drops _ Hc).
        exists x. split; [reflexivity|exact Ex].
      - rewrite Nu. unfold push_block_to_stack, new_list. pst. rewrite (held_drops _ Hc). destruct m as [m|]; cbn [option_map bind]; pst; [|rewrite (held_drops _ Hc); eexists; split; reflexivity].
        match goal with |- context [add_metadata (Blk ?h None ?k ?lo) m] => destruct (meta_added h m k lo eq_refl) as (x & -> & Ex) end. pst. rewrite (held_drops _ Hc).
        exists x. split; [reflexivity|exact Ex].
      - rewrite No. subst c. cbn in M. destruct m; [discriminate|]. cbn [tt_eqb fst bullet_word].
        assert (match bst with [] => false | b :: _ => is_source_block b end = false) as Ns.
        { destruct R as (_ & [(_ & -> & _)|(_ & s & ? & ? & ? & ? & ? & ? & -> & Es & _)] & _); [reflexivity|]. destruct s as [[] ? ? ?]; try discriminate Es. reflexivity. }
        replace (tt_eqb TCodeCalloutListItem TCodeCalloutListItem) with true by reflexivity.
        destruct bst as [|b1 bst]; [|rewrite Ns]; cbn [bind]; unfold push_block_to_stack; pst; rewrite (held_drops _ Hc); pst; rewrite (held_drops _ Hc); eexists; split; reflexivity. }
    destruct (line_loop0 w fuel here resolve i t8 tn (ttype tk) attrs (g_env g) (it :: ls :: bst) [] (g_keep g) false force (g_flag g) a A W8 Hf Wn) as (i1 & d1 & E1 & B1 & Ni).
    destruct (threads_loop h rest t4 t6 (flag_page (macros i) g) _ _ [] ls bu (page_text g i) [] it attrs bst i1 (force || styled i) d1 a W4 W6 Hr Hv eq_refl Els)
      with (b := Blk (HList (bullet_variant bu)) (list_meta bu (dress c)) (item_blocks ((bu, i, []) :: rest) g) []) as (p' & E2 & P2); auto.
    { left. auto. }
    exists p'. split; [|exact P2]. rewrite (loop_cons w fuel _ _ _ _ (eq_trans (bullet_go bu tk _ _ _ _ _ _ _ _ _ _ _ _ Wk) E)).
    exact (loop_join w fuel _ _ _ _ _ E1 E2).
  Qed.

  Lemma leaf_flow c x g : exists r, g_flow (leaf_page c x g) = g_flow g ++ r.
  Proof. destruct x as [|? ?|[|[[] ?] ?]| | | | | |]; cbn [leaf_page]; try (exists []; now rewrite app_nil_r); rewrite land_flow; cbn [flag_page keeping g_flow]; eauto. Qed.
  Lemma piece_flow c x g : exists r, g_flow (piece_page c x g) = g_flow g ++ r.
  Proof.
    destruct x; cbn [piece_page].
    - apply leaf_flow.
    - rewrite land_flow. rewrite (proj2 (items_flow _ _)). eauto.
    - cbn [g_flow]. eauto.
    - cbn [g_flow]. eauto.
    - cbn [place g_flow]. eauto.
    - cbn [place flag_page g_flow]. eauto.
    - rewrite land_flow. cbn [around g_flow]. eauto.
    - rewrite land_flow. cbn [flag_page g_flow]. eauto.
  Qed.
  Lemma pieces_flow l : forall g, exists r, g_flow (pieces_page l g) = g_flow g ++ r.
  Proof.
    induction l as [|x l IH]; intros g; [exists []; now rewrite app_nil_r|]. destruct (IH (piece_page (fst x) (snd x) g)) as (r & E).
    destruct (piece_flow (fst x) (snd x) g) as (r0 & E0).
    exists (r0 ++ r). unfold pieces_page in *. cbn [fold_left]. now rewrite E, E0, app_assoc.
  Qed.
  Lemma piece_step h g p c x ts : at_rest (KTop h) g p -> piece_ok g c x -> found x -> are_words (decor_words c ++ piece_words x) ts ->
    (forall title gap rows, x = Grid title gap rows -> lined (snd here) ts) -> shows (KTop h) (piece_page c x g) ->
    exists p', loop ts p = Ok p' /\ at_rest (KTop h) (piece_page c x g) p'.
  Proof.
    intros R H Hf W Ln C. destruct x as [x|first rest|n t|v l|v|title target alt|title b l last|title gap rows].
    1:{ destruct H as (H1 & H2 & H3). apply leaf_step; auto. intros l ->. right. eauto. }
    all: apply words_split in W as (t0 & t1 & -> & W0 & W1).
    all: destruct (decors_step w fuel here resolve (KTop h) g p c t0 R (proj1 H) W0) as (p0 & E0 & P0).
    - destruct (threads_step h g c p0 first rest t1) as (p' & E' & P'); auto.
      exists p'. split; [|exact P']. exact (loop_join w fuel _ _ _ _ _ E0 E').
    - destruct (heading_step h g c p0 n t t1) as (p' & E' & P'); auto; [cbn in C; now apply clear_prefix in C|].
      exists p'. split; [|exact P']. exact (loop_join w fuel _ _ _ _ _ E0 E').
    - destruct (alert_step h g c p0 v l t1) as (p' & E' & P'); auto; [apply H|].
      exists p'. split; [|exact P']. exact (loop_join w fuel _ _ _ _ _ E0 E').
    - destruct H as [_ ->]. destruct (rule_step h g p0 v t1) as (p' & E' & P'); auto; [rewrite waits_nil in P0; now apply primed_rest|].
      exists p'. split; [|exact P']. exact (loop_join w fuel _ _ _ _ _ E0 E').
    - destruct (picture_step h g c p0 title target alt t1) as (p' & E' & P'); auto.
      exists p'. split; [|exact P']. exact (loop_join w fuel _ _ _ _ _ E0 E').
    - destruct (box_step h g c p0 title b l last t1) as (p' & E' & P'); auto.
      exists p'. split; [|exact P']. exact (loop_join w fuel _ _ _ _ _ E0 E').
    - destruct (table_step h g c p0 title gap rows t1) as (p' & E' & P'); auto; [specialize (Ln _ _ _ eq_refl); now apply lined_app in Ln|].
      exists p'. split; [|exact P']. exact (loop_join w fuel _ _ _ _ _ E0 E').
  Qed.
  Lemma pieces_step h l : forall g p ts, at_rest (KTop h) g p -> pieces_ok g l -> Forall (fun x => found (snd x)) l ->
    are_words (List.concat (map (fun x => decor_words (fst x) ++ piece_words (snd x)) l)) ts -> lined (snd here) ts -> clear 0 (g_flow (pieces_page l g)) = true ->
    exists p', loop ts p = Ok p' /\ at_rest (KTop h) (pieces_page l g) p'.
  Proof.
    induction l as [|[c x] l IH]; intros g p ts R F Hf W Ln C.
    - inversion W. subst. exists p. auto.
    - destruct F as [F1 F2]. inversion Hf as [|? ? H1 H2]. subst. cbn [map List.concat] in W. apply words_split in W as (t1 & t2 & -> & W1 & W2). apply lined_app in Ln as [Ln1 Ln2].
      destruct (piece_step h g p c x t1 R F1 H1 W1 (fun _ _ _ _ => Ln1)) as (p1 & E1 & R1).
      { cbn [shows]. destruct (pieces_flow l (piece_page c x g)) as (r & E). unfold pieces_page in C, E. cbn [fold_left fst snd] in C. rewrite E in C.
        now apply clear_prefix in C. }
      destruct (IH (piece_page c x g) p1 t2 R1) as (p2 & E2 & R2); auto.
      exists p2. split; [|exact R2]. exact (loop_join w fuel _ _ _ _ _ E1 E2).
  Qed.

  (** *** The title of the document *)
  Lemma header_no_macros l : forallb header_word (text_words l) = true -> macros l = false.
  Proof.
    unfold text_words, macros. induction l as [|x l IH]; [reflexivity|]. cbn [map List.concat existsb]. rewrite forallb_app.
    intros [H1 H2]%andb_prop. rewrite (IH H2), orb_false_r. destruct x; try reflexivity; cbn in H1; discriminate.
  Qed.
  Lemma header_newline hd t lst attrs ist keep force close dang a il : is_word newline t -> tt_eqb lst TNewLineChar || tt_eqb lst TEof = false ->
    exists dang', loop [t] (tstate here resolve hd attrs [] None [] keep a lst ist None None il false force close dang)
      = Ok (tstate here resolve hd attrs [] None [] keep a TNewLineChar ist None None false false force close dang').
  Proof.
    intros W H. cbn [parse_loop]. rewrite (step w fuel here resolve hd attrs [] None [] keep a newline); [|assumption|now right|discriminate|discriminate].
    unfold dispatch. rewrite (word_type _ _ W). cbn [fst newline]. unfold parse_new_line_char. pst. rewrite H. cbn [orb].
    destruct (drops_breaks keep || clears_newline_after lst); eexists; reflexivity.
  Qed.
  Lemma entries_loop l : forall ts, are_words (List.concat (map (fun x => [entry_word (fst x) (snd x); newline]) l)) ts ->
    Forall (fun x => simple_line (Entry (fst x) (snd x))) l ->
    forall hd attrs e ist keep force close dang a, agrees attrs e ->
    exists attrs' dang', loop ts (tstate here resolve hd attrs [] None [] keep a TNewLineChar ist None None false false force close dang)
      = Ok (tstate here resolve hd attrs' [] None [] keep a TNewLineChar ist None None false false force close dang')
      /\ agrees attrs' (fold_left (fun e x => set_env e (fst x) (snd x)) l e).
  Proof.
    induction l as [|x l IH]; intros ts W F hd attrs e ist keep force close dang a A.
    - inversion W. subst. exists attrs, dang. auto.
    - inversion F as [|? ? F1 F2]. subst. cbn [map List.concat app] in W. apply words_cons in W as (t1 & t2 & -> & W1 & W). apply words_cons in W as (t3 & t4 & -> & W3 & W).
      pose proof (entry_token w fuel here resolve (fst x) (snd x) t1 hd TNewLineChar attrs [] ist [] keep false force close dang a F1 W1) as E1.
      destruct (header_newline hd t3 (ttype t1) (minsert (fst x) (snd x) attrs) ist keep force close dang a false W3) as (d & E3).
      { now rewrite (word_type _ _ W1). }
      destruct (IH t4 W F2 hd (minsert (fst x) (snd x) attrs) (set_env e (fst x) (snd x)) ist keep force close d a) as (a1 & d1 & E4 & A4).
      { now apply agrees_insert. }
      exists a1, d1. split; [|exact A4]. rewrite (loop_cons w fuel _ _ _ _ E1). exact (loop_join w fuel [t3] t4 _ _ _ E3 E4).
  Qed.
  Definition start_words (d : script) : list word :=
    match sc_title d with
    | Some (t, l) =>
        head_word 0 :: text_words t ++ [newline]
        ++ List.concat (map (fun x => [entry_word (fst x) (snd x); newline]) l) ++ [newline]
    | None => []
    end.
  Lemma fresh_parser : snd here = [] -> set_asg new_asg (new_parser (fst here) resolve) = st TEof [] [] [] [] plainly false false false None new_asg.
  Proof. intros E. unfold ScriptBlocks.stm, tstate. now rewrite E. Qed.
  Hypothesis Hh0 : snd here = [].
  Lemma start_rest d : sc_title d = None -> at_rest (KTop None) (first_page d) (set_asg new_asg (new_parser (fst here) resolve)).
  Proof.
    intros E. rewrite (fresh_parser Hh0). exists TEof, [], [], [], false, new_asg. split; [reflexivity|]. split; [reflexivity|].
    split; [unfold first_page, title_env; rewrite E; intros n; reflexivity|].
    split; [|split; [reflexivity|split; [now right|split; constructor]]]. cbn. split; [reflexivity|]. split; [|reflexivity]. left. auto.
  Qed.
  Lemma title_step d ts : script_ok d -> are_words (start_words d) ts ->
    match ts with t :: _ => first_location t = mkLoc 1 1 [] | [] => True end ->
    exists p', loop ts (set_asg new_asg (new_parser (fst here) resolve)) = Ok p' /\ at_rest (KTop (script_title d)) (first_page d) p'.
  Proof.
    intros (H & _) W L. unfold start_words, script_title in *. pose proof (start_rest d) as Sr. destruct (sc_title d) as [[t l]|] eqn:Et.
    2:{ inversion W. subst. eexists. split; [reflexivity|]. now apply Sr. }
    destruct H as (Ht & Hh & Hl). cbn [option_map fst].
    apply words_cons in W as (tk & t1 & -> & Wk & W). apply words_split in W as (t2 & t3 & -> & W2 & W). apply words_cons in W as (t4 & t5 & -> & W4 & W).
    apply words_split in W as (t6 & t7 & -> & W6 & W). apply words_cons in W as (t8 & t9 & -> & W8 & W). inversion W. subst t9.
    set (hd := Some (mkHeader [] (token_locations tk))).
    assert (token_into w fuel tk (set_asg new_asg (new_parser (fst here) resolve))
      = Ok (tstate here resolve hd [] [] None [] plainly new_asg TEof [] None None true false false false None)) as E0.
    { rewrite (fresh_parser Hh0). rewrite (go w fuel here resolve (head_word 0)) by (assumption || discriminate). unfold dispatch. rewrite (word_type _ _ Wk). cbn [fst head_word].
      unfold parse_title. cst. cbn in L. rewrite L. reflexivity. }
    destruct (text_step w fuel here resolve hd [] [] None [] plainly new_asg no_env (fun n => eq_refl) t t2 (ttype tk) None true false false None false W2)
      as (l1 & i1 & m1 & il1 & d1 & E1 & S & B & M & N & _); auto.
    { split; [now right|now left]. }
    { reflexivity. }
    cbn [option_map] in M, B. rewrite rest_none in M. destruct m1; [discriminate|].
    cbn [orb] in E1. rewrite (header_no_macros t Hh) in E1.
    destruct (header_newline hd t4 l1 [] i1 plainly (styled t) false d1 new_asg il1 W4) as (d2 & E2); [apply S|].
    destruct (entries_loop l t6 W6 Hl hd [] no_env i1 plainly (styled t) false d2 new_asg (fun n => eq_refl)) as (at3 & d3 & E3 & A3).
    assert (exists a', loop [t8] (tstate here resolve hd at3 [] None [] plainly new_asg TNewLineChar i1 None None false false (styled t) false d3)
      = Ok (st TNewLineChar at3 [] [] [] plainly false (styled t) false None a')
      /\ a_blocks a' = [] /\ heading_of a' = Some (text_inlines plainly no_env None false t)) as (a' & E4 & Eb & Eh).
    { cbn [parse_loop]. rewrite (step w fuel here resolve hd at3 [] None [] plainly new_asg newline); [|assumption|now right|discriminate|discriminate].
      unfold dispatch. rewrite (word_type _ _ W8). cbn [fst newline]. unfold parse_new_line_char. pst. unfold hd.
      unfold check_and_move_header, add_inlines_to_block_stack. pst. destruct i1 as [|i i1]; [congruence|]. pst. cbn [hd_title app].
      destruct (rev (i :: i1)) as [|j js] eqn:Er; [now apply (f_equal (@List.length _)) in Er; rewrite rev_length in Er|].
      eexists. split; [reflexivity|]. split; [reflexivity|]. cbn -[text_inlines map]. f_equal.
      rewrite <- B, <- map_rev. cbn [rev] in Er |- *. now rewrite Er. }
    exists (st TNewLineChar at3 [] [] [] plainly false (styled t) false None a'). split.
    - rewrite (loop_cons w fuel _ _ _ _ E0). apply (loop_join w fuel _ _ _ _ _ E1). apply (loop_join w fuel [t4] _ _ _ _ E2).
      exact (loop_join w fuel _ [t8] _ _ _ E3 E4).
    - exists TNewLineChar, at3, [], [], (styled t), a'. split; [reflexivity|]. split; [reflexivity|].
      split; [unfold first_page, title_env; rewrite Et; exact A3|].
      split; [|split; [reflexivity|split; [now right|split; constructor]]]. cbn. split; [reflexivity|]. split; [left; rewrite Eb; auto|auto].
  Qed.

  (** *** The end *)
  Lemma end_flush h lst attrs bst keep force close dang a g : room (KTop h) [] bst a g -> flat (g_flow g) -> clear 0 (g_flow g) = true ->
    forall il, exists a', flush_to 0 (st lst attrs bst [] [] keep il force close dang a) = Ok (st lst attrs [] [] [] keep il force close dang a')
      /\ map unplaced (a_blocks a') = outline (g_flow g) /\ heading_of a' = h.
  Proof.
    intros (_ & H & Ht) F C il. pose proof H as H0. destruct H as [(_ & -> & E)|(Eo & s & i & t & lv & sm & pre & leaves & -> & _)].
    - exists a. split; [reflexivity|]. auto.
    - rewrite Eo in H0. destruct (finish_section s (a_blocks a) (g_flow g) a H0 eq_refl F C) as (a' & E & Eb & Eh).
      exists a'. split; [|split; [exact Eb|unfold heading_of in *; now rewrite Eh]].
      unfold flush_to. cst. cbn [List.length flush_blocks]. pst. cbn [List.length Nat.leb].
      unfold add_last_block_to_graph. pst. unfold take_metadata. pst. unfold p_asg_push. pst. rewrite E. reflexivity.
  Qed.
  Lemma end_para h m lst attrs bst ist x keep il force close dang a g : room (KTop h) [] bst a g -> flat (g_flow g) ->
    held [] keep -> free (KTop h) force bst -> map unplaced_inline (rev ist) = x -> ist <> [] -> Forall located ist ->
    clear 0 (g_flow (place (wrapped (option_map unplaced_meta m) x) g)) = true ->
    exists a', (let* p := add_inlines_to_block_stack (stm m lst attrs bst ist [] keep il force close dang a) in flush_to 0 p)
      = Ok (st lst attrs [] [] [] keep il force close dang a')
      /\ map unplaced (a_blocks a') = outline (g_flow (place (wrapped (option_map unplaced_meta m) x) g)) /\ heading_of a' = h.
  Proof.
    intros R F Hc Fr B N Lo C. destruct (add_para here resolve (KTop h) m lst attrs bst ist x [] keep il force close dang a g B N (or_intror (conj eq_refl Lo)) Hc R Fr) as (b & -> & Eb). cbn [bind].
    assert (sound b) as Sb by (apply sound_unplaced; rewrite Eb; apply sound_wrapped).
    destruct (deliver here resolve h lst attrs b bst [] keep il force close dang a g R Sb) as (bst' & a1 & _ & E & R').
    rewrite Eb in R'.
    assert (flat (g_flow (place (wrapped (option_map unplaced_meta m) x) g))) as F'.
    { cbn [place g_flow]. apply flat_app. split; [assumption|]. apply Forall_cons; [|constructor]. apply sound_settled. apply sound_wrapped. }
    destruct (end_flush h lst attrs bst' keep force close dang a1 _ R' F' C il) as (a2 & E2 & R2).
    exists a2. split; [|exact R2]. rewrite <- E2.
    assert (add_last_block_to_graph (st lst attrs (b :: bst) [] [] keep il force close dang a)
      = add_last_to_block_stack_or_graph (st lst attrs (b :: bst) [] [] keep il force close dang a)) as Eq.
    { unfold add_last_block_to_graph, add_last_to_block_stack_or_graph. cst. reflexivity. }
    assert (List.length bst' = List.length bst) as El.
    { destruct R as (_ & R & _), R' as (_ & R' & _). cbn [place g_open] in R'.
      destruct R as [(O1 & -> & _)|(O1 & s & ? & ? & ? & ? & ? & ? & -> & _)]; destruct R' as [(O2 & -> & _)|(O2 & s2 & ? & ? & ? & ? & ? & ? & -> & _)]; congruence || reflexivity. }
    unfold flush_to. cst. cbn [List.length flush_blocks]. pst. cbn [List.length Nat.leb].
    match goal with |- (let* p := add_last_block_to_graph ?q in _) = _ => change q with (st lst attrs (b :: bst) [] [] keep il force close dang a) end.
    rewrite Eq, E. cbn [bind]. cst. rewrite El. reflexivity.
  Qed.
  Definition last_words (d : script) : list word :=
    match sc_last d with Some (c, (l, ended)) => decor_words c ++ text_words l ++ (if ended then [newline] else []) | None => [] end.
  Lemma end_step d p ts te : at_rest (KTop (script_title d)) (pieces_page (sc_pieces d) (first_page d)) p -> script_ok d ->
    are_words (last_words d) ts -> is_word (TEof, []) te ->
    exists p1 p2, loop (ts ++ [te]) p = Ok p1 /\ (let* p := add_inlines_to_block_stack p1 in flush_to 0 p) = Ok p2
      /\ map unplaced (a_blocks (p_asg p2)) = outline (g_flow (script_page d)) /\ heading_of (p_asg p2) = script_title d.
  Proof.
    intros R (_ & _ & Hl & C) W We. unfold last_words, script_page in *.
    set (g := pieces_page (sc_pieces d) (first_page d)) in *.
    assert (forall m lst attrs bst ist keep il force close dang a, loop [te] (stm m lst attrs bst ist [] keep il force close dang a)
      = Ok (stm m TEof attrs bst ist [] keep il force close dang a)) as Eof.
    { intros m lst0 attrs bst ist keep il force0 close dang a. cbn [parse_loop]. rewrite (go w fuel here resolve (TEof, [])) by (assumption || discriminate).
      unfold dispatch. rewrite (word_type _ _ We). cbn [fst bind]. reflexivity. }
    destruct (sc_last d) as [[c [l e]]|].
    - apply words_split in W as (t0 & t' & -> & W0 & W). apply words_split in W as (t1 & t2 & -> & W1 & W2). destruct Hl as [Hc Hl].
      destruct (decors_step w fuel here resolve _ g p c t0 R Hc W0) as (p0 & E0 & P0).
      destruct P0 as (m & lst & attrs & bst & ol & force & a & dang & -> & M & D & L & A & R0 & Hh & F & N1 & N2). assert (ol = []) as -> by now destruct R0.
      assert (exists m' lst' ist' il' force' close' dang', loop (t1 ++ t2) (stm m lst attrs bst [] [] (g_keep g) false force (g_flag g) dang a)
        = Ok (stm m' lst' attrs bst ist' [] (g_keep g) il' (force || force') close' dang' a)
        /\ map unplaced_inline (rev ist') = text_inlines (g_keep g) (g_env g) (dress c) (waits (g_keep g) c) l
        /\ option_map unplaced_meta m' = text_rest (g_keep g) (g_env g) (dress c) (waits (g_keep g) c) l /\ ist' <> [] /\ Forall located ist')
        as (m1 & l1 & i1 & il1 & f1 & c1 & d1 & E1 & B1 & M1 & Ni & Lo).
      { rewrite <- M. destruct e.
        - apply words_cons in W2 as (t3 & t4 & -> & W3 & W4). inversion W4. subst.
          destruct (line_loop w fuel here resolve l t1 t3 m lst attrs (g_env g) bst [] (g_keep g) false force (g_flag g) dang (waits (g_keep g) c) a A W1 Hl D W3) as (i1 & m1 & d1 & E1 & H1).
          exists m1, TNewLineChar, i1, false, (styled l), (g_flag g || macros l), d1. auto.
        - inversion W2. subst. rewrite app_nil_r.
          destruct (text_loop w fuel here resolve l t1 m lst attrs (g_env g) bst [] (g_keep g) false force (g_flag g) dang (waits (g_keep g) c) a A W1 Hl D) as (l1 & i1 & m1 & il1 & d1 & E1 & S & H1 & H2 & H3 & H4 & _).
          exists m1, l1, i1, il1, (styled l), (g_flag g || macros l), d1. auto. }
      unfold page_para in C |- *. rewrite <- M1 in C |- *.
      destruct (end_para (script_title d) m1 TEof attrs bst i1 _ (g_keep g) il1 (force || f1) c1 d1 a g R0 N1 Hh (free_styled _ _ _ _ F) B1 Ni Lo C) as (a' & E2 & R2).
      eexists _, _. split; [|split; [exact E2|exact R2]].
      rewrite <- app_assoc. apply (loop_join w fuel _ _ _ _ _ E0). exact (loop_join w fuel _ [te] _ _ _ E1 (Eof _ _ _ _ _ _ _ _ _ _ _)).
    - destruct R as (lst & attrs & bst & ol & force & a & -> & L & A & R & Hc & F & N1 & N2). assert (ol = []) as -> by now destruct R.
      inversion W. subst ts. cbn [app].
      destruct (end_flush (script_title d) TEof attrs bst (g_keep g) force (g_flag g) None a g R N1 C false) as (a' & E2 & R2).
      eexists _, _. split; [exact (Eof _ _ _ _ _ _ _ _ _ _ _)|]. rewrite add_nothing. cbn [bind]. split; [exact E2|]. exact R2.
  Qed.

  Theorem script_graph_at src d : utf8 src -> script_ok d ->
    (resolve = true -> Forall (fun t => w_canon w (path_join (fst here) t) <> None) (pictures d)) ->
    (cells d = [] \/ 0 < fuel) -> written src d ->
    exists g, parse w fuel (fst here) resolve src = Ok g
      /\ map unplaced (a_blocks g) = script_blocks d /\ heading_of g = script_title d.
  Proof.
    intros U H Hp Hf [K Kc]. pose proof (laid_words [] _ _ _ K 1 1) as W.
    assert (scan_with src [] = Ok (laid [] 1 1 (script_words d))) as S.
    { apply (proj2 (scan_is_grammar src [] U _)). eauto. }
    apply VerbatimProofs.scan_is_stream in S.
    assert (script_words d = start_words d ++ List.concat (map (fun x => decor_words (fst x) ++ piece_words (snd x)) (sc_pieces d)) ++ last_words d ++ [(TEof, [])]) as E by reflexivity.
    assert (match laid [] 1 1 (script_words d) with t :: _ => ttype t = TEof \/ first_location t = mkLoc 1 1 [] | [] => True end) as L.
    { clear. destruct (script_words d) as [|[ty l] ks]; [exact I|]. cbn. destruct ty; cbn; auto. }
    assert (lined (snd here) (laid [] 1 1 (script_words d))) as Ln by (exists 1; rewrite Hh0; apply laid_linear).
    remember (laid [] 1 1 (script_words d)) as ts eqn:Ets. clear Ets. rewrite E in W.
    apply words_split in W as (t1 & t2 & -> & W1 & W). apply words_split in W as (t3 & t4 & -> & W3 & W). apply words_split in W as (t5 & t6 & -> & W5 & W).
    apply words_cons in W as (te & t7 & -> & We & W). inversion W. subst t7.
    apply lined_app in Ln as [_ Ln]. apply lined_app in Ln as [Ln _].
    destruct (title_step d t1 H W1) as (p1 & E1 & R1).
    { destruct t1 as [|t t1]; [exact I|]. cbn in L. destruct L as [L|L]; [|exact L]. unfold start_words in W1. destruct (sc_title d) as [[]|]; [|inversion W1].
      apply words_cons in W1 as (? & ? & [= <- <-] & Wt & _). rewrite (word_type _ _ Wt) in L. discriminate. }
    pose proof H as (_ & H2 & _ & C).
    destruct (pieces_step (script_title d) (sc_pieces d) (first_page d) p1 t3 R1 H2) as (p2 & E2 & R2).
    { apply Forall_forall. intros [c x] Hx. destruct x as [| | | | |title target alt| |title gap rows]; cbn; auto.
      - intros Er. rewrite Hh0. specialize (Hp Er). rewrite Forall_forall in Hp. apply Hp.
        unfold pictures. apply in_concat. exists [target]. split; [|now left]. apply in_map_iff. exists (c, Picture title target alt). auto.
      - assert (incl (grid_cells rows) (cells d)) as Hi.
        { intros y Hy. unfold cells. apply in_concat. exists (grid_cells rows). split; [|exact Hy]. apply in_map_iff. exists (c, Grid title gap rows). auto. }
        split; [|apply Forall_forall; intros y Hy; rewrite Forall_forall in Kc; apply Kc; auto]. destruct Hf as [Hf|Hf]; [left|now right].
        rewrite Hf in Hi. destruct (grid_cells rows) as [|y l]; [reflexivity|]. destruct (Hi y (or_introl eq_refl)). }
    { exact W3. }
    { exact Ln. }
    { unfold script_page in C.
      destruct (sc_last d) as [[c [l e]]|]; [|exact C]. cbn [place g_flow] in C. now apply clear_prefix in C. }
    destruct (end_step d p2 t5 te R2 H W5 We) as (p3 & p4 & E3 & E4 & Eb & Eh).
    pose proof (loop_join w fuel _ _ _ _ _ E1 (loop_join w fuel _ _ _ _ _ E2 E3)) as El.
    pose proof (ends_steps w fuel (fst here) resolve _ _ _ El E4) as St.
    unfold parse, parse_with. rewrite S. cbn [fst snd].
    rewrite El. cbn [bind].
    destruct (add_inlines_to_block_stack p3) as [p5| | | |]; try discriminate E4. cbn [bind] in E4 |- *. rewrite E4. cbn [bind].
    eexists. split; [reflexivity|]. rewrite (consolidated w _ St), Eb. split; [reflexivity|exact Eh].
  Qed.
End Pieces.
Theorem script_graph w fuel origin resolve src d : utf8 src -> script_ok d ->
  (resolve = true -> Forall (fun t => w_canon w (path_join origin t) <> None) (pictures d)) ->
  (cells d = [] \/ 0 < fuel) -> written src d ->
  exists g, parse w fuel origin resolve src = Ok g
    /\ map unplaced (a_blocks g) = script_blocks d /\ heading_of g = script_title d.
Proof. exact (script_graph_at w fuel (origin, []) resolve eq_refl src d). Qed.
