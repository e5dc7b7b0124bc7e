(** * What the parser makes of blocks in blocks *)
From Verif Require ArticleProofs ArticleWhole ScanMain2 VerbatimProofs.
From Verif Require Import Base World Location Token Scanner Meta Inline Block Asg Parser SpecScan SpecLex SpecDoc SpecArticle
  DocGraph GraphLemmas ArticleGraph ScanWhole ScriptWords ScriptText ScriptLocs ScriptDecor ScriptGraph ScriptBlocks ScriptRefs ScriptCells ScriptWhole SpecScript SpecNest.
Local Open Scope char_scope.
Local Open Scope nat_scope.
Local Arguments reconcile : simpl never.
Local Arguments token_locations : simpl never.
Local Arguments token_text : simpl never.
Local Arguments consolidate_locations : simpl never.
Local Arguments last_opt : simpl never.
Local Arguments push_block : simpl never.

(** ** Blocks that stand on one another *)
Definition carries (h : head) (nb : block) : bool :=
  match h with
  | HList _ => is_list_item nb
  | HDList => is_dlist_item nb
  | HListItem _ _ | HDListItem _ _ => true
  | HParent n _ _ _ => negb (is_list_item nb) && negb (parent_name_beq n PTable)
  | _ => false
  end.
Fixpoint packed (b : block) (bst : list block) : block :=
  match bst with [] => b | Blk h m k l :: r => packed (Blk h m (k ++ [b]) l) r end.
Fixpoint stands (b : block) (bst : list block) : bool :=
  match bst with [] => negb (is_section b) | Blk h m k l :: r => carries h b && stands (Blk h m (k ++ [b]) l) r end.
Lemma carry h m k l b : carries (unplaced_head h) (unplaced b) = true ->
  takes_block (Blk h m k l) b = true
  /\ exists b', push_block (Blk h m k l) b = Ok b' /\ unplaced b' = Blk (unplaced_head h) (option_map unplaced_meta m) (map unplaced k ++ [unplaced b]) [].
Proof.
  intros H. destruct (heads_unplaced b) as (_ & E1 & E2 & _).
  assert (forall l', unplaced (consolidate_locations (Blk h m (k ++ [b]) l')) = Blk (unplaced_head h) (option_map unplaced_meta m) (map unplaced k ++ [unplaced b]) []) as U.
  { intros l'. rewrite unplaced_consolidate. cbn [unplaced]. now rewrite map_app. }
  destruct h; cbn [carries unplaced_head] in H; try discriminate H; cbn [takes_block b_head push_block].
  - rewrite E1 in H. split; [exact H|]. eexists. split; [reflexivity|apply U].
  - split; [reflexivity|]. eexists. split; [reflexivity|apply U].
  - rewrite E2 in H. split; [exact H|]. eexists. split; [reflexivity|apply U].
  - split; [reflexivity|]. eexists. split; [reflexivity|apply U].
  - rewrite E1 in H. apply andb_prop in H as [H1 H2]. apply negb_true_iff in H1, H2. split; [reflexivity|].
    unfold push_block. rewrite H1, H2. cbn [andb bind]. eexists. split; [reflexivity|apply U].
Qed.

Section Nest.
  Variables (w : world) (fuel : nat) (origin : bytes) (resolve : bool).
  Notation here := (origin, @nil bytes).
  Notation stm := (stm here resolve).
  Notation st := (stm None).
  Notation loop := (parse_loop w fuel).
  Ltac cst := unfold ScriptBlocks.stm; pst.
  Notation start := (st TEof [] [] [] [] plainly false false false None new_asg).

  Lemma flush_tower lst attrs ol keep il force close dang : forall bst b a, stands (unplaced b) (map unplaced bst) = true ->
    exists a', flush_blocks (List.length (b :: bst)) 0 (st lst attrs (b :: bst) [] ol keep il force close dang a)
      = Ok (st lst attrs [] [] ol keep il force close dang a')
      /\ map unplaced (a_blocks a') = map unplaced (a_blocks a) ++ [packed (unplaced b) (map unplaced bst)].
  Proof.
    induction bst as [|[h m k l] r IH]; intros b a H.
    - cbn [map stands packed] in *. cbn [List.length flush_blocks]. cst. cbn [List.length Nat.leb]. unfold add_last_block_to_graph. pst. unfold take_metadata. pst.
      unfold p_asg_push, asg_push_block. pst.
      assert (is_section (consolidate_locations b) = false) as ->.
      { destruct (heads_unplaced b) as (E & _). destruct (heads_unplaced (consolidate_locations b)) as (E' & _). rewrite unplaced_consolidate in E'. rewrite <- E'. now apply negb_true_iff in H. }
      pst. eexists. split; [reflexivity|]. cbn [a_blocks]. rewrite map_app. cbn [map]. now rewrite unplaced_consolidate.
    - cbn [map unplaced stands packed] in H. apply andb_prop in H as [H1 H2].
      destruct (carry h m k l b H1) as (T & b' & Eb & Ub).
      cbn [map unplaced packed]. rewrite <- Ub in *. destruct (IH b' a H2) as (a' & E & Ea). exists a'. split; [|exact Ea].
      rewrite <- E. change (List.length (b :: Blk h m k l :: r)) with (S (List.length (b' :: r))).
      remember (List.length (b' :: r)) as n eqn:En. cbn [flush_blocks]. cst.
      replace (List.length (b :: Blk h m k l :: r) <=? 0) with false by reflexivity.
      unfold add_last_block_to_graph. pst. unfold take_metadata. pst. rewrite T, Eb. pst. reflexivity.
  Qed.
  Lemma eof_go t m lst attrs bst ist ol keep il force close dang a : is_word eof t ->
    loop [t] (stm m lst attrs bst ist ol keep il force close dang a) = Ok (stm m TEof attrs bst ist ol keep il force close dang a).
  Proof.
    intros W. cbn [parse_loop]. rewrite (go w fuel here resolve eof) by (assumption || discriminate). unfold dispatch. rewrite (word_type _ _ W). reflexivity.
  Qed.

  (** ** Documents given by their tokens *)
  Lemma words_stream src ws : utf8 src -> tokenised [] src ws ->
    exists ts, are_words ws ts /\ parse w fuel origin resolve src
      = (let* p := loop ts start in let* p := add_inlines_to_block_stack p in let* p := flush_to 0 p in Ok (asg_consolidate (p_asg p))).
  Proof.
    intros U K. pose proof (laid_words [] _ _ _ K 1 1) as W. exists (laid [] 1 1 ws). split; [exact W|].
    assert (scan_with src [] = Ok (laid [] 1 1 ws)) as S.
    { apply (proj2 (scan_is_grammar src [] U _)). eauto. }
    apply VerbatimProofs.scan_is_stream in S. unfold parse, parse_with. rewrite S. cbn [fst snd].
    change (set_asg new_asg (new_parser origin resolve)) with start.
    destruct (loop (laid [] 1 1 ws) start) as [p| | | |]; try reflexivity. cbn [bind].
    destruct (add_inlines_to_block_stack p) as [q| | | |]; try reflexivity. cbn [bind]. now destruct (flush_to 0 q).
  Qed.
  Lemma words_graph src ws X : utf8 src -> tokenised [] src ws ->
    (forall ts, are_words ws ts -> exists p1 p2, loop ts start = Ok p1 /\ (let* p := add_inlines_to_block_stack p1 in flush_to 0 p) = Ok p2
       /\ map unplaced (a_blocks (p_asg p2)) = X) ->
    exists g, parse w fuel origin resolve src = Ok g /\ map unplaced (a_blocks g) = referred X.
  Proof.
    intros U K H. destruct (words_stream src ws U K) as (ts & W & E). destruct (H ts W) as (p1 & p2 & E1 & E2 & Eb).
    pose proof (ends_steps w fuel origin resolve _ _ _ E1 E2) as St.
    rewrite E, E1. cbn [bind]. destruct (add_inlines_to_block_stack p1) as [p3| | | |]; try discriminate E2. cbn [bind] in E2 |- *. rewrite E2. cbn [bind].
    eexists. split; [reflexivity|]. now rewrite (consolidated w _ St), Eb.
  Qed.
  Lemma words_fail src ws e : utf8 src -> tokenised [] src ws ->
    (forall ts, are_words ws ts -> (let* p := loop ts start in add_inlines_to_block_stack p) = Err e) ->
    parse w fuel origin resolve src = Err e.
  Proof.
    intros U K H. destruct (words_stream src ws U K) as (ts & W & E). specialize (H ts W). rewrite E.
    destruct (loop ts start) as [p| | | |]; try discriminate H; cbn [bind] in *; [now rewrite H|congruence].
  Qed.

  (** ** A delimited block in another *)
  Lemma parent_other b1 b2 ti m k l t : b1 <> b2 -> parent_eqb (box_block b1 ti m k l) (box_block b2 [] None [] t) = false.
  Proof. intros N. now destruct b1, b2. Qed.
  (** a fence opens a new block if the last delimited block is of another kind *)
  Lemma open_over b b0 t ti m k l above base lst attrs ol keep force close dang a : is_word (box_word b) t -> b0 <> b ->
    Forall (fun b => is_parent b = false) above -> held (tline t :: ol) keep ->
    token_into w fuel t (st lst attrs (above ++ box_block b0 ti m k l :: base) [] ol keep false force close dang a)
    = Ok (st lst attrs (box_block b [] None [] (token_locations t) :: above ++ box_block b0 ti m k l :: base) [] (tline t :: ol) keep false force close None a).
  Proof.
    intros W N F Hh. unfold ScriptBlocks.stm at 1. rewrite (box_go w fuel here resolve b) by (assumption || auto). unfold parse_delimited_parent_block. rewrite (box_from b t W). cbn [bind]. pst.
    rewrite (ArticleWhole.split_parent above (box_block b0 ti m k l) base F eq_refl). rewrite (parent_other b0 b) by assumption.
    unfold push_block_to_stack. pst. now rewrite andb_false_r.
  Qed.

  Lemma nest_parse b1 b2 l src : b1 <> b2 -> text_fits plainly false l = true -> utf8 src -> tokenised [] src (nest_words b1 b2 l) ->
    exists g, parse w fuel origin resolve src = Ok g /\ map unplaced (a_blocks g) = nest_made b1 b2 l.
  Proof.
    intros N F U K. apply (words_graph src _ _ U K). intros ts W. unfold nest_words in W. clear K U src.
    cbn [app] in W. apply words_cons in W as (f1 & ts1 & -> & W1 & W). apply words_cons in W as (n1 & ts2 & -> & V1 & W).
    apply words_cons in W as (f2 & ts3 & -> & W2 & W). apply words_cons in W as (n2 & ts4 & -> & V2 & W).
    apply words_split in W as (tx & ts5 & -> & Wx & W). apply words_cons in W as (n3 & ts6 & -> & V3 & W).
    apply words_cons in W as (f3 & ts7 & -> & W3 & W). apply words_cons in W as (n4 & ts8 & -> & V4 & W).
    apply words_cons in W as (f4 & ts9 & -> & W4 & W). apply words_cons in W as (n5 & ts10 & -> & V5 & W).
    apply words_cons in W as (te & ts11 & -> & We & W). inversion W. subst ts11. clear W.
    assert (forall b t, is_word (box_word b) t -> tt_eqb (ttype t) TNewLineChar || tt_eqb (ttype t) TEof = false) as Lf.
    { intros b t Wb. rewrite (word_type _ _ Wb). now destruct b. }
    destruct (open_box w fuel here resolve b1 f1 None TEof [] [] None plainly false false None new_asg W1 (Forall_nil _)) as (me & E1 & Em); [auto|].
    cbn in Em. destruct me; [discriminate|]. clear Em.
    destruct (soft_newline w fuel here resolve n1 None (ttype f1) [] [box_block b1 [] None [] (token_locations f1)] [] [tline f1] plainly false false false None new_asg V1 (Lf _ _ W1)) as (d1 & E2 & _).
    assert (forall ol, held ol plainly) as Hp by (intros []; reflexivity).
    pose proof (open_over b2 b1 f2 [] None [] (token_locations f1) [] [] TNewLineChar [] [tline f1] plainly false false d1 new_asg W2 N (Forall_nil _) (Hp _)) as E3. cbn [app] in E3.
    set (B1 := box_block b1 [] None [] (token_locations f1)) in *.
    destruct (soft_newline w fuel here resolve n2 None (ttype f2) [] [box_block b2 [] None [] (token_locations f2); B1] [] [tline f2; tline f1] plainly false false false None new_asg V2 (Lf _ _ W2)) as (d2 & E4 & P4).
    assert (clears_newline_after (ttype f2) = true) as Cl by (rewrite (word_type _ _ W2); now destruct b2).
    rewrite Cl in P4. cbn in P4. destruct d2; [destruct P4; discriminate|]. clear P4.
    destruct (line_loop0 w fuel here resolve l tx n3 TNewLineChar [] no_env [box_block b2 [] None [] (token_locations f2); B1] [tline f2; tline f1] plainly false false false new_asg) as (ist & d3 & E5 & Bx & Ni); auto.
    { intros n. reflexivity. }
    cbn [orb] in E5.
    destruct (new_para here resolve None TNewLineChar [] [B1] ist _ [tline f2; tline f1] plainly false (styled l) (macros l) None new_asg Bx (or_introl eq_refl) (Hp _)) as (P & EP & UP).
    assert (add_inlines_to_block_stack (st TNewLineChar [] [B1] ist [tline f2; tline f1] plainly false (styled l) (macros l) None new_asg)
            = Ok (st TNewLineChar [] [P; B1] [] [tline f2; tline f1] plainly false (styled l) (macros l) None new_asg)) as EP'.
    { rewrite <- EP. unfold add_inlines_to_block_stack. cst. destruct ist as [|i ist]; [congruence|]. reflexivity. }
    assert (is_parent P = false /\ is_section P = false /\ is_list_item P = false) as (P1 & P2 & P3).
    { destruct (heads_unplaced P) as (<- & <- & _ & <-). rewrite UP. auto. }
    destruct (close_box w fuel here resolve b2 f3 [] None [P] [B1] (token_locations f2) (tline f2) [tline f1] ist TNewLineChar [] plainly (styled l) (macros l) d3 new_asg W3) with (acc1 := @nil block)
      as (loc & E6); auto.
    { unfold token_locations. discriminate. }
    { right. exists P, []. split; [reflexivity|exact EP']. }
    { destruct ist; [congruence|reflexivity]. }
    set (B2 := box_block b2 [] None [P] loc).
    assert (token_into w fuel f3 (st TNewLineChar [] [box_block b2 [] None [] (token_locations f2); B1] ist [tline f2; tline f1] plainly false (styled l) (macros l) d3 new_asg)
            = Ok (st TNewLineChar [] [B2; B1] [] [tline f1] plainly false (styled l) (macros l) None new_asg)) as E6' by exact E6.
    clear E6.
    destruct (soft_newline w fuel here resolve n4 None (ttype f3) [] [B2; B1] [] [tline f1] plainly false (styled l) (macros l) None new_asg V4 (Lf _ _ W3)) as (d4 & E7 & _).
    pose proof (open_over b1 b2 f4 [] None [P] loc [] [B1] TNewLineChar [] [tline f1] plainly (styled l) (macros l) d4 new_asg W4 (not_eq_sym N) (Forall_nil _) (Hp _)) as E8. cbn [app] in E8. fold B2 in E8.
    set (B3 := box_block b1 [] None [] (token_locations f4)) in *.
    destruct (soft_newline w fuel here resolve n5 None (ttype f4) [] [B3; B2; B1] [] [tline f4; tline f1] plainly false (styled l) (macros l) None new_asg V5 (Lf _ _ W4)) as (d5 & E9 & _).
    pose proof (eof_go te None TNewLineChar [] [B3; B2; B1] [] [tline f4; tline f1] plainly false (styled l) (macros l) d5 new_asg We) as E10.
    destruct (flush_tower TEof [] [tline f4; tline f1] plainly false (styled l) (macros l) d5 [B2; B1] B3 new_asg) as (a' & E11 & Ea).
    { destruct b1, b2; reflexivity. }
    eexists _, _. split; [|split].
    - rewrite (loop_cons w fuel _ _ _ _ E1). apply (loop_join w fuel [n1] _ _ _ _ E2). rewrite (loop_cons w fuel _ _ _ _ E3).
      apply (loop_join w fuel [n2] _ _ _ _ E4). change (tx ++ [n3; f3; n4; f4; n5; te]) with (tx ++ [n3] ++ [f3; n4; f4; n5; te]). rewrite app_assoc.
      apply (loop_join w fuel _ _ _ _ _ E5). rewrite (loop_cons w fuel _ _ _ _ E6'). apply (loop_join w fuel [n4] _ _ _ _ E7). rewrite (loop_cons w fuel _ _ _ _ E8).
      apply (loop_join w fuel [n5] _ _ _ _ E9). exact E10.
    - rewrite add_nothing. cbn [bind]. exact E11.
    - refine (eq_trans Ea _). subst B1 B2 B3. cbn [packed map unplaced box_block unplaced_head option_map app a_blocks new_asg]. rewrite UP. reflexivity.
  Qed.

  (** ** Items *)
  Lemma bullet_open bu tk lst attrs bst ist keep force close dang a : is_word (bullet_word bu) tk -> bullet_fits bu = true -> drops_breaks keep = false ->
    match bst with
    | b :: _ => match bullet_variant bu with LUnordered => is_unordered_list_item b | _ => is_ordered_list_item b end = false /\ is_source_block b = false
    | [] => True
    end ->
    exists it ls, token_into w fuel tk (st lst attrs bst ist [] keep false force close dang a)
      = Ok (st lst attrs (it :: ls :: bst) ist [] keep false force close None a)
      /\ unplaced it = entry bu [] [] /\ unplaced ls = listed bu [].
  Proof.
    intros Wk Hb Kd H. rewrite (bullet_go w fuel here resolve bu) by assumption.
    exists (Blk (HListItem (bullet_mark bu) []) None [] (token_locations tk)).
    destruct bu as [| |d]; cbn [bullet_variant] in H; unfold bullet_item; cbn [bullet_variant]; unfold parse_ordered_list_item, parse_unordered_list_item, new_list_item;
      rewrite (bullet_trim _ tk Wk Hb); try rewrite (word_type _ _ Wk); cst.
    - replace (match bst with [] => false | b :: _ => is_ordered_list_item b end) with false by (destruct bst; [reflexivity|now destruct H as [-> _]]).
      replace (tt_eqb (fst (bullet_word Dot)) TCodeCalloutListItem) with false by reflexivity.
      unfold push_block_to_stack, new_list. pst. rewrite Kd. pst. rewrite Kd. eexists. split; [reflexivity|]. split; reflexivity.
    - replace (match bst with [] => false | b :: _ => is_unordered_list_item b end) with false by (destruct bst; [reflexivity|now destruct H as [-> _]]).
      unfold push_block_to_stack, new_list. pst. rewrite Kd. pst. rewrite Kd. eexists. split; [reflexivity|]. split; reflexivity.
    - replace (match bst with [] => false | b :: _ => is_ordered_list_item b end) with false by (destruct bst; [reflexivity|now destruct H as [-> _]]).
      replace (tt_eqb (fst (bullet_word (Callout d))) TCodeCalloutListItem) with true by reflexivity.
      destruct bst as [|b1 bst]; [|destruct H as [_ H]; rewrite H]; cbn [bind]; unfold push_block_to_stack; pst; rewrite Kd; pst; rewrite Kd;
        eexists; (split; [reflexivity|]; split; reflexivity).
  Qed.
  Lemma item_more mk x kids ist it lst attrs bst ol keep close dang a : unplaced it = Blk (HListItem mk x) None kids [] ->
    exists it', add_inlines_to_block_stack (st lst attrs (it :: bst) ist ol keep false false close dang a)
      = Ok (st lst attrs (it' :: bst) [] ol keep false false close dang a)
      /\ unplaced it' = Blk (HListItem mk (x ++ map unplaced_inline (rev ist))) None kids [].
  Proof.
    intros H. destruct ist as [|i ist]; [exists it; split; [apply add_nothing|]; now rewrite app_nil_r|].
    destruct it as [hi mi ki li]. cbn [unplaced] in H. injection H as Hh Hm Hk. destruct hi; try discriminate Hh. cbn in Hh. injection Hh as -> <-. destruct mi; [discriminate|].
    exists (Blk (HListItem mk (principal ++ rev (i :: ist))) None ki li). split.
    - unfold add_inlines_to_block_stack. cst. cbn [takes_inlines b_head]. pst. rewrite ArticleProofs.push_inlines_item. reflexivity.
    - cbn [unplaced unplaced_head option_map]. now rewrite Hk, map_app.
  Qed.
  Lemma item_ends v me lk ls mk x kids ist it lst attrs bst ol keep force close dang a : unplaced ls = Blk (HList v) me lk [] -> unplaced it = Blk (HListItem mk x) None kids [] ->
    exists ls', add_last_list_item_to_list (st lst attrs (it :: ls :: bst) ist ol keep false force close dang a)
      = Ok (st lst attrs (ls' :: bst) [] ol keep false false close dang a)
      /\ unplaced ls' = Blk (HList v) me (lk ++ [Blk (HListItem mk (x ++ map unplaced_inline (rev ist))) None kids []]) [].
  Proof.
    intros Hl Hi. unfold add_last_list_item_to_list.
    match goal with |- context [add_inlines_to_block_stack ?p] => change p with (st lst attrs (it :: ls :: bst) ist ol keep false false close dang a) end.
    destruct (item_more mk x kids ist it lst attrs (ls :: bst) ol keep close dang a Hi) as (it' & -> & Ei). cbn [bind]. cst.
    assert (is_list_item it' = true) as -> by (destruct (heads_unplaced it') as (_ & <- & _); now rewrite Ei). pst.
    destruct ls as [hl ml kl ll]. cbn [unplaced] in Hl. injection Hl as Hh Hm Hk. destruct hl; try discriminate Hh. injection Hh as ->.
    eexists. split; [reflexivity|]. rewrite unplaced_consolidate. cbn [unplaced unplaced_head]. rewrite map_app, Hk, Hm. cbn [map]. now rewrite Ei.
  Qed.
  Lemma bullet_soft b t : is_word (bullet_word b) t -> tt_eqb (ttype t) TNewLineChar || tt_eqb (ttype t) TEof = false.
  Proof. intros W. rewrite (word_type _ _ W). now destruct b. Qed.

  (** ** A continued item *)
  Lemma attached_loop b x y ts : are_words (attached b x y) ts -> bullet_fits b = true -> text_fits plainly false x = true -> styled x = false ->
    text_fits dropping false y = true ->
    exists it ls ist close dang, loop ts start = Ok (st TNewLineChar [] [it; ls] ist [] dropping false true close dang new_asg)
      /\ unplaced it = entry b (text x) [] /\ unplaced ls = listed b [] /\ map unplaced_inline (rev ist) = loose y /\ ist <> [].
  Proof.
    intros W Hb Fx Sx Fy. unfold attached, item in W. cbn [app] in W. rewrite <- app_assoc in W. cbn [app] in W. apply words_cons in W as (tk & t1 & -> & Wk & W). apply words_split in W as (tx & t2 & -> & Wx & W).
    apply words_cons in W as (n1 & t3 & -> & V1 & W). apply words_cons in W as (tp & t4 & -> & Wp & W). apply words_cons in W as (n2 & t5 & -> & V2 & W).
    apply words_split in W as (ty & t6 & -> & Wy & W). apply words_cons in W as (n3 & t7 & -> & V3 & W). inversion W. subst t7. clear W.
    destruct (bullet_open b tk TEof [] [] [] plainly false false None new_asg Wk Hb eq_refl Logic.I) as (it & ls & E1 & Ui & Ul).
    destruct (line_loop0 w fuel here resolve x tx n1 (ttype tk) [] no_env [it; ls] [] plainly false false false new_asg) as (ist & d1 & E2 & Bx & Ni); auto.
    { intros n. reflexivity. }
    cbn [orb] in E2. rewrite Sx in E2.
    destruct (item_more _ _ _ ist it TNewLineChar [] [ls] [] plainly (macros x) d1 new_asg Ui) as (it1 & E3 & Ui1).
    assert (token_into w fuel tp (st TNewLineChar [] [it; ls] ist [] plainly false false (macros x) d1 new_asg)
      = Ok (st TNewLineChar [] [it1; ls] [] [] dropping false true (macros x) d1 new_asg)) as E4.
    { rewrite (go w fuel here resolve plus) by (assumption || discriminate). unfold dispatch. rewrite (word_type _ _ Wp). cbn [fst plus].
      unfold parse_block_continuation. rewrite E3. reflexivity. }
    destruct (soft_newline w fuel here resolve n2 None (ttype tp) [] [it1; ls] [] [] dropping false true (macros x) d1 new_asg V2) as (d2 & E5 & P5).
    { now rewrite (word_type _ _ Wp). }
    cbn in P5. destruct d2; [destruct P5; discriminate|]. clear P5.
    destruct (line_loop0 w fuel here resolve y ty n3 TNewLineChar [] no_env [it1; ls] [] dropping false true (macros x) new_asg) as (iy & d3 & E6 & By & Nj); auto.
    { intros n. reflexivity. }
    exists it1, ls, iy, (macros x || macros y), d3. split; [|split; [|split; [exact Ul|split; [exact By|exact Nj]]]].
    - rewrite (loop_cons w fuel _ _ _ _ E1). change (tx ++ n1 :: tp :: n2 :: ty ++ [n3]) with (tx ++ [n1] ++ tp :: n2 :: ty ++ [n3]). rewrite app_assoc.
      apply (loop_join w fuel _ _ _ _ _ E2). rewrite (loop_cons w fuel _ _ _ _ E4). apply (loop_join w fuel [n2] _ _ _ _ E5). exact E6.
    - rewrite Ui1, Bx. reflexivity.
  Qed.
  Lemma attach_end_parse b x y src : bullet_fits b = true -> text_fits plainly false x = true -> styled x = false -> text_fits dropping false y = true ->
    utf8 src -> tokenised [] src (attach_end b x y) ->
    exists g, parse w fuel origin resolve src = Ok g /\ map unplaced (a_blocks g) = attach_meant b x y.
  Proof.
    intros Hb Fx Sx Fy U K. apply (words_graph src _ _ U K). intros ts W. unfold attach_end in W. apply words_split in W as (t1 & t2 & -> & W1 & W).
    apply words_cons in W as (te & t3 & -> & We & W). inversion W. subst t3.
    destruct (attached_loop b x y t1 W1 Hb Fx Sx Fy) as (it & ls & ist & close & dang & E & Ui & Ul & By & Ni).
    pose proof (eof_go te None TNewLineChar [] [it; ls] ist [] dropping false true close dang new_asg We) as E1.
    destruct it as [hi mi ki li]. cbn [unplaced] in Ui. injection Ui as Hh Hm Hk. destruct hi; try discriminate Hh. apply map_eq_nil in Hk as ->.
    assert (exists it', add_inlines_to_block_stack (st TEof [] [Blk (HListItem marker principal) mi [] li; ls] ist [] dropping false true close dang new_asg)
      = Ok (st TEof [] [it'; ls] [] [] dropping false true close dang new_asg) /\ unplaced it' = entry b (text x) [para None (loose y)]) as (it' & E2 & Ui').
    { unfold add_inlines_to_block_stack. cst. destruct ist as [|i ist]; [congruence|]. cbn [takes_inlines b_head]. pst. unfold new_paragraph. pst.
      rewrite ArticleProofs.push_inlines_leaf. pst. cbn [drops_breaks dropping andb]. unfold push_block. cbn [bind].
      eexists. split; [reflexivity|]. rewrite unplaced_consolidate. cbn [unplaced app map unplaced_head option_map]. rewrite By, Hm.
      cbn [unplaced_head] in Hh. rewrite Hh. reflexivity. }
    destruct (flush_tower TEof [] [] dropping false true close dang [ls] it' new_asg) as (a' & E3 & Ea).
    { cbn [map]. rewrite Ui', Ul. reflexivity. }
    eexists _, _. split; [exact (loop_join w fuel _ _ _ _ _ E E1)|]. split.
    - rewrite E2. cbn [bind]. exact E3.
    - refine (eq_trans Ea _). cbn [map]. rewrite Ui', Ul. reflexivity.
  Qed.
  Lemma apart lst attrs bst b l ol keep il force close dang a : unplaced l = Blk (HList bst) (b_meta (unplaced l)) (b_kids (unplaced l)) [] -> is_section b = false -> is_list_item b = false ->
    exists a', flush_to 0 (st lst attrs [b; l] [] ol keep il force close dang a) = Ok (st lst attrs [] [] ol keep il force close dang a')
      /\ map unplaced (a_blocks a') = map unplaced (a_blocks a) ++ [unplaced b; unplaced l].
  Proof.
    intros Hl Hs Hi. unfold flush_to. cst. cbn [List.length flush_blocks]. pst. cbn [List.length Nat.leb]. unfold add_last_block_to_graph. pst. unfold take_metadata. pst.
    assert (takes_block l b = false) as ->.
    { destruct l as [hl ml kl ll]. cbn [unplaced] in Hl. injection Hl as Hh. destruct hl; try discriminate Hh. exact Hi. }
    unfold p_asg_push, asg_push_block. pst.
    assert (forall x, is_section x = false -> is_section (consolidate_locations x) = false) as Sc.
    { intros x H. destruct (heads_unplaced x) as (E & _). destruct (heads_unplaced (consolidate_locations x)) as (E' & _). rewrite unplaced_consolidate in E'. congruence. }
    rewrite (Sc b Hs). pst. cbn [List.length flush_blocks a_blocks a_ids a_attrs a_header a_docid a_loc]. pst. cbn [List.length Nat.leb a_blocks a_ids a_attrs a_header a_docid a_loc].
    rewrite (Sc l) by (destruct (heads_unplaced l) as (<- & _); now rewrite Hl). pst.
    eexists. split; [reflexivity|]. cbn [a_blocks]. rewrite !map_app. cbn [map]. rewrite !unplaced_consolidate, <- app_assoc. reflexivity.
  Qed.
  Lemma attach_more_parse b b' x y z src : bullet_fits b = true -> bullet_fits b' = true -> bullet_variant b' = bullet_variant b ->
    text_fits plainly false x = true -> styled x = false -> text_fits dropping false y = true -> text_fits plainly false z = true ->
    utf8 src -> tokenised [] src (attach_more b b' x y z) ->
    exists g, parse w fuel origin resolve src = Ok g /\ map unplaced (a_blocks g) = attach_more_made b b' x y z.
  Proof.
    intros Hb Hb' Hv Fx Sx Fy Fz U K. apply (words_graph src _ _ U K). intros ts W. unfold attach_more in W. apply words_split in W as (t1 & t2 & -> & W1 & W).
    unfold item in W. cbn [app] in W. rewrite <- app_assoc in W. apply words_cons in W as (tk & t3 & -> & Wk & W). apply words_split in W as (tz & t4 & -> & Wz & W). apply words_cons in W as (n1 & t5 & -> & V1 & W).
    apply words_cons in W as (te & t6 & -> & We & W). inversion W. subst t6.
    destruct (attached_loop b x y t1 W1 Hb Fx Sx Fy) as (it & ls & ist & close & dang & E & Ui & Ul & By & Ni).
    destruct (item_ends _ _ _ ls _ _ _ ist it TNewLineChar [] [] [] dropping true close None new_asg Ul Ui) as (ls1 & E1 & Ul1). rewrite By in Ul1. cbn [app] in Ul1.
    pose proof (bullet_kind b _ _ (text x) [] [] it eq_refl eq_refl (or_intror (conj eq_refl Ui))) as Ho.
    assert (exists ls2, token_into w fuel tk (st TNewLineChar [] [it; ls] ist [] dropping false true close dang new_asg)
      = Ok (st TNewLineChar [] [ls2] [] [] plainly false false close None new_asg) /\ unplaced ls2 = listed b [entry b (text x ++ loose y) []; entry b' [] []]) as (ls2 & E2 & Ul2).
    { rewrite (bullet_go w fuel here resolve b') by assumption. destruct ls1 as [hl ml kl ll]. cbn [unplaced] in Ul1. injection Ul1 as Hh Hm Hk. destruct hl; try discriminate Hh. injection Hh as ->.
      unfold bullet_item. rewrite Hv.
      destruct (bullet_variant b) eqn:Ev; unfold parse_ordered_list_item, parse_unordered_list_item, new_list_item; rewrite (bullet_trim b' tk Wk Hb'); cst; rewrite Ho;
        match goal with |- context [add_last_list_item_to_list ?p] => change p with (st TNewLineChar [] [it; ls] ist [] dropping false true close None new_asg) end;
        rewrite E1; cbn [bind]; unfold push_block_to_stack; cst; cbn [dropping drops_breaks andb]; unfold push_block; cbn [bind];
        (eexists; split; [reflexivity|]; rewrite unplaced_consolidate; cbn [unplaced unplaced_head]; rewrite map_app, Hk, Hm; unfold listed; rewrite Ev; reflexivity). }
    destruct (line_loop0 w fuel here resolve z tz n1 (ttype tk) [] no_env [ls2] [] plainly false false close new_asg) as (iz & d1 & E3 & Bz & Nz); auto.
    { intros n. reflexivity. }
    cbn [orb] in E3.
    pose proof (eof_go te None TNewLineChar [] [ls2] iz [] plainly false (styled z) (close || macros z) d1 new_asg We) as E4.
    destruct (new_para here resolve None TEof [] [ls2] iz _ [] plainly false (styled z) (close || macros z) d1 new_asg Bz (or_introl eq_refl) eq_refl) as (P & EP & UP).
    assert (add_inlines_to_block_stack (st TEof [] [ls2] iz [] plainly false (styled z) (close || macros z) d1 new_asg)
            = Ok (st TEof [] [P; ls2] [] [] plainly false (styled z) (close || macros z) d1 new_asg)) as EP'.
    { rewrite <- EP. unfold add_inlines_to_block_stack. cst. destruct iz as [|i iz]; [congruence|].
      replace (takes_inlines ls2) with false; [reflexivity|]. destruct ls2 as [hl ml kl ll]. cbn [unplaced] in Ul2. injection Ul2 as Hh. destruct hl; try discriminate Hh. reflexivity. }
    destruct (apart TEof [] (bullet_variant b) P ls2 [] plainly false (styled z) (close || macros z) d1 new_asg) as (a' & E5 & Ea).
    { rewrite Ul2. reflexivity. }
    { destruct (heads_unplaced P) as (<- & _). now rewrite UP. }
    { destruct (heads_unplaced P) as (_ & <- & _). now rewrite UP. }
    eexists _, _. split; [|split].
    - apply (loop_join w fuel _ _ _ _ _ E). rewrite (loop_cons w fuel _ _ _ _ E2). change (tz ++ n1 :: [te]) with (tz ++ [n1] ++ [te]). rewrite app_assoc.
      exact (loop_join w fuel _ _ _ _ _ E3 E4).
    - rewrite EP'. cbn [bind]. exact E5.
    - refine (eq_trans Ea _). rewrite UP, Ul2. reflexivity.
  Qed.
  Lemma orphan lst attrs ist il force close dang a : ist <> [] -> add_inlines_to_block_stack (st lst attrs [] ist [] dropping il force close dang a) = Err EBlockContinuation.
  Proof.
    intros N. unfold add_inlines_to_block_stack. cst. destruct ist; [congruence|]. unfold new_paragraph. pst. rewrite ArticleProofs.push_inlines_leaf. reflexivity.
  Qed.
  Lemma attach_after_parse b x y z rest src : bullet_fits b = true -> text_fits plainly false x = true -> styled x = false -> text_fits dropping false y = true ->
    text_fits dropping false z = true -> rest = [eof] \/ (exists r, rest = newline :: r) ->
    utf8 src -> tokenised [] src (attach_after b x y z rest) ->
    parse w fuel origin resolve src = Err EBlockContinuation.
  Proof.
    intros Hb Fx Sx Fy Fz Hr U K. apply (words_fail src _ _ U K). intros ts W. unfold attach_after in W. apply words_split in W as (t1 & t2 & -> & W1 & W).
    cbn [app] in W. apply words_cons in W as (n1 & t3 & -> & V1 & W). apply words_split in W as (tz & t4 & -> & Wz & W). apply words_cons in W as (n2 & t5 & -> & V2 & Wr).
    destruct (attached_loop b x y t1 W1 Hb Fx Sx Fy) as (it & ls & ist & close & dang & E & Ui & Ul & By & Ni).
    destruct (item_ends _ _ _ ls _ _ _ ist it TNewLineChar [] [] [] dropping true close None new_asg Ul Ui) as (ls1 & E1 & Ul1).
    assert (exists a1, loop [n1] (st TNewLineChar [] [it; ls] ist [] dropping false true close dang new_asg)
      = Ok (st TNewLineChar [] [] [] [] dropping false true close None a1)) as (a1 & E2).
    { cbn [parse_loop]. rewrite blank_item; [|assumption|reflexivity|destruct (heads_unplaced it) as (_ & <- & _); now rewrite Ui].
      rewrite E1. cbn [bind].
      match goal with |- context [add_inlines_to_block_stack ?p] => change p with (st TNewLineChar [] [ls1] [] [] dropping false false close None new_asg) end.
      rewrite add_nothing. cbn [bind]. unfold blank_tail. cst.
      assert (is_section ls1 = false) as Hs by (destruct (heads_unplaced ls1) as (<- & _); now rewrite Ul1). rewrite Hs. pst.
      unfold add_to_block_stack_or_graph, take_metadata. pst. unfold p_asg_push, asg_push_block. pst.
      assert (is_section (consolidate_locations ls1) = false) as ->.
      { destruct (heads_unplaced ls1) as (X & _). destruct (heads_unplaced (consolidate_locations ls1)) as (X' & _). rewrite unplaced_consolidate in X'. congruence. }
      pst. rewrite andb_false_r. rewrite (word_type _ _ V1). eexists. reflexivity. }
    destruct (line_loop0 w fuel here resolve z tz n2 TNewLineChar [] no_env [] [] dropping false true close a1) as (iz & d1 & E3 & Bz & Nz); auto.
    { intros n. reflexivity. }
    cbn [orb] in E3.
    assert (forall t, loop (t1 ++ n1 :: tz ++ n2 :: t) start = loop t (st TNewLineChar [] [] iz [] dropping false true (close || macros z) d1 a1)) as Ej.
    { intros t. change (n1 :: tz ++ n2 :: t) with ([n1] ++ tz ++ [n2] ++ t). rewrite !app_assoc, <- (app_assoc _ tz).
      assert (loop ((t1 ++ [n1]) ++ tz ++ [n2]) start = Ok (st TNewLineChar [] [] iz [] dropping false true (close || macros z) d1 a1)) as Ek.
      { rewrite <- app_assoc. exact (loop_join w fuel _ _ _ _ _ E (loop_join w fuel [n1] _ _ _ _ E2 E3)). }
      exact (loop_app w fuel _ _ _ _ Ek). }
    rewrite Ej. destruct Hr as [->|(r & ->)].
    - apply words_cons in Wr as (te & t6 & -> & We & W). inversion W. subst t6. rewrite eof_go by assumption. cbn [bind]. now apply orphan.
    - apply words_cons in Wr as (n3 & t6 & -> & V3 & W). cbn [parse_loop]. rewrite blank_newline; [|assumption|reflexivity|exact Logic.I]. rewrite orphan by assumption. reflexivity.
  Qed.

  (** ** Lists in lists *)
  Lemma calm_line ws : forallb not_newline ws = true -> forall b, calm_in b ws = true.
  Proof. induction ws as [|x ws IH]; intros H b; [reflexivity|]. cbn in *. apply andb_prop in H as [H1 H2]. unfold calm_at. rewrite H1. cbn. now apply IH. Qed.
  Lemma after_line ws : forallb not_newline ws = true -> forall b, b = false \/ ws <> [] -> after_words b ws = false.
  Proof.
    induction ws as [|x ws IH]; intros H b Hb; [now destruct Hb|]. cbn in *. apply andb_prop in H as [H1 H2]. apply IH; [exact H2|]. left. now rewrite H1.
  Qed.
  Lemma line_words l : one_line l = true -> forallb not_newline (text_words l) = true.
  Proof. exact (fun H => H). Qed.
  Lemma speaks_words l : speaks l = true -> text_words l <> [].
  Proof.
    destruct l as [|x l]; [discriminate|]. intros _. unfold text_words. cbn [map List.concat]. intros X. apply app_eq_nil in X as [X _].
    destruct x; try discriminate X. cbn [element_words] in X. now apply app_cons_not_nil in X || (symmetry in X; now apply app_cons_not_nil in X).
  Qed.
  Lemma elements_front attrs e bst l r : agrees attrs e -> r <> [] -> forall ts b lst ist il force close dang wait waits after noted linked,
    are_words (text_words l) ts -> calm_in b (text_words l) = true -> paced b lst ->
    fits plainly waits after noted linked (l ++ r) = true -> fine after noted linked close (map unplaced_inline ist) -> pending wait dang ->
    exists lst' ist' il' dang' waits' after' noted' linked',
      loop ts (st lst attrs bst ist [] plainly il force close dang new_asg)
        = Ok (st lst' attrs bst ist' [] plainly il' (force || styled l) (close || macros l) dang' new_asg)
      /\ paced (after_words b (text_words l)) lst'
      /\ map unplaced_inline ist' = fst (fst (fold_left (write plainly e) l (map unplaced_inline ist, wait, None)))
      /\ pending (snd (fst (fold_left (write plainly e) l (map unplaced_inline ist, wait, None)))) dang'
      /\ fits plainly waits' after' noted' linked' r = true /\ fine after' noted' linked' (close || macros l) (map unplaced_inline ist').
  Proof.
    intros A N. induction l as [|x l IH]; intros ts b lst ist il force close dang wait waits after noted linked W Cm Pc F Fn P.
    - inversion W. subst. exists lst, ist, il, dang, waits, after, noted, linked. cbn. rewrite !orb_false_r. auto 8.
    - unfold text_words in *. cbn [map List.concat app] in *. apply words_split in W as (t1 & t2 & -> & W1 & W2). apply calm_in_app in Cm as [C1 C2]. apply fits_cons in F as [F1 F2].
      destruct F2 as [[_ F2]|[Hu F2]]; [destruct l; [destruct r; [congruence|discriminate]|discriminate]|].
      destruct (element_step w fuel here resolve None attrs bst None [] plainly new_asg e A x t1 b lst ist None il force close dang wait waits after noted linked W1)
        as (l1 & i1 & m1 & il1 & d1 & E1 & Pc1 & B1 & P1 & M1 & Fn1 & _); auto.
      { split; now left. }
      { discriminate. }
      assert (forall s, snd s = None -> snd (write plainly e s x) = None) as Mn.
      { intros [[k wt] me] H. cbn in H. subst me. destruct x; cbn [write fst snd]; try rewrite fold_draft; reflexivity. }
      cbn [option_map] in *. specialize (Mn (map unplaced_inline ist, wait, None) eq_refl). specialize (Fn1 Hu).
      cbn [fold_left]. destruct (write plainly e (map unplaced_inline ist, wait, None) x) as [[k1 w1] me1]. cbn [fst snd] in *. subst me1. destruct m1; [discriminate|].
      rewrite <- B1 in Fn1.
      destruct (IH t2 (after_words b (element_words x)) l1 i1 il1 (force || styled [x]) (close || macros [x]) d1 w1 _ _ _ _ W2 C2 Pc1 F2 Fn1 P1)
        as (l2 & i2 & il2 & d2 & v1 & v2 & v3 & v4 & E2 & Pc2 & R1 & R2 & R3 & R4).
      rewrite B1 in R1, R2.
      replace (force || styled (x :: l)) with ((force || styled [x]) || styled l) by (cbn [styled existsb]; rewrite orb_false_r; now rewrite orb_assoc).
      replace (close || macros (x :: l)) with ((close || macros [x]) || macros l) by (cbn [macros existsb]; rewrite orb_false_r; now rewrite orb_assoc).
      exists l2, i2, il2, d2, v1, v2, v3, v4. rewrite after_words_app. split; [exact (loop_join w fuel _ _ _ _ _ E1 E2)|]. auto 8.
  Qed.
  Definition tops (l : list (bullet * list element)) : list block := List.concat (map (fun x => [entry (fst x) [] []; listed (fst x) []]) (rev l)).
  Lemma tops_cons x l : tops (x :: l) = tops l ++ [entry (fst x) [] []; listed (fst x) []].
  Proof. unfold tops. cbn [rev]. rewrite map_app, concat_app. reflexivity. Qed.
  Definition heads_over (bst : list block) (b : bullet) : Prop :=
    match bst with [] => True | x :: _ => exists b0, unplaced x = entry b0 [] [] /\ bullet_variant b0 <> bullet_variant b end.
  Lemma heads_other b0 b it : unplaced it = entry b0 [] [] -> bullet_variant b0 <> bullet_variant b ->
    match bullet_variant b with LUnordered => is_unordered_list_item it | _ => is_ordered_list_item it end = false /\ is_source_block it = false.
  Proof.
    intros H N. destruct it as [hi mi ki li]. cbn [unplaced] in H. injection H as Hh _ _. destruct hi; try discriminate Hh. cbn in Hh. injection Hh as -> _.
    unfold is_unordered_list_item, is_ordered_list_item, is_source_block. cbn [b_head]. destruct b0, b; cbn [bullet_variant] in *; try congruence; split; reflexivity.
  Qed.
  Lemma sunk_loop e : (forall n, mget n ([] : list (bytes * bytes)) = e n) -> forall l ts lst bst ist force close dang waits after noted linked,
    l <> [] -> are_words (List.concat (map (fun x => item (fst x) (snd x)) l)) ts -> alternating l -> heads_over bst (fst (hd (Dot, []) l)) ->
    Forall (fun x => bullet_fits (fst x) = true) l -> Forall (fun x => one_line (snd x) = true /\ speaks (snd x) = true) l ->
    fits plainly waits after noted linked (List.concat (map snd l)) = true -> fine after noted linked close (map unplaced_inline ist) ->
    exists bst' ist' close' dang',
      loop ts (st lst [] bst ist [] plainly false force close dang new_asg)
        = Ok (st TNewLineChar [] bst' ist' [] plainly false (force || styled (List.concat (map snd l))) close' dang' new_asg)
      /\ map unplaced bst' = tops l ++ map unplaced bst
      /\ map unplaced_inline ist' = fst (fst (fold_left (write plainly e) (List.concat (map snd l)) (map unplaced_inline ist, false, None))).
  Proof.
    intros A. induction l as [|[b i] l IH]; intros ts lst bst ist force close dang waits after noted linked Nl W Alt Hh Fb Ft F Fn; [congruence|]. clear Nl.
    apply Forall_cons_iff in Fb as [Hb Fb]. apply Forall_cons_iff in Ft as [[Hl Hs] Ft]. cbn [fst snd map List.concat hd] in *.
    apply words_split in W as (t1 & t2 & -> & W1 & W2). unfold item in W1. apply words_cons in W1 as (tk & t3 & -> & Wk & W1).
    apply words_split in W1 as (tx & t4 & -> & Wx & W1). apply words_cons in W1 as (n1 & t5 & -> & V1 & W1). inversion W1. subst t5.
    destruct (bullet_open b tk lst [] bst ist plainly force close dang new_asg Wk Hb eq_refl) as (it & ls & E1 & Ui & Ul).
    { destruct bst as [|x bst]; [exact Logic.I|]. destruct Hh as (b0 & H0 & H1). exact (heads_other b0 b x H0 H1). }
    assert (text_words i <> []) as Nw by now apply speaks_words.
    pose proof (line_words i Hl) as Lw.
    assert (fold_left (write plainly e) i (map unplaced_inline ist, false, None) = (fst (fst (fold_left (write plainly e) i (map unplaced_inline ist, false, None))), false, None)) as Ed.
    { pose proof (draft_rest plainly e i Hl (map unplaced_inline ist) None) as D1.
      assert (forall s, snd s = None -> snd (fold_left (write plainly e) i s) = None) as Mn.
      { clear. induction i as [|x l IH]; intros s H; [exact H|]. cbn [fold_left]. apply IH. destruct s as [[k wait] me]. cbn in H. subst me.
        destruct x; cbn [write fst snd]; try rewrite fold_draft; reflexivity. }
      specialize (Mn (map unplaced_inline ist, false, None) eq_refl). destruct (fold_left (write plainly e) i (map unplaced_inline ist, false, None)) as [[k1 w1] m1]. cbn [fst snd] in *. now subst. }
    assert (exists l1 i1 il1 d1 waits' after' noted' linked', loop tx (st (ttype tk) [] (it :: ls :: bst) ist [] plainly false force close None new_asg)
        = Ok (st l1 [] (it :: ls :: bst) i1 [] plainly il1 (force || styled i) (close || macros i) d1 new_asg)
      /\ steady l1 /\ map unplaced_inline i1 = fst (fst (fold_left (write plainly e) i (map unplaced_inline ist, false, None)))
      /\ (l <> [] -> fits plainly waits' after' noted' linked' (List.concat (map snd l)) = true /\ fine after' noted' linked' (close || macros i) (map unplaced_inline i1)))
      as (l1 & i1 & il1 & d1 & v1 & v2 & v3 & v4 & E2 & S2 & B2 & R2).
    { destruct l as [|[b1 i1] l].
      - cbn [map List.concat] in F. rewrite app_nil_r in F.
        destruct (elements_step w fuel here resolve None [] (it :: ls :: bst) None [] plainly new_asg e A i tx true (ttype tk) ist None false force close None false waits after noted linked Wx)
          as (l1 & i1 & m1 & il1 & d1 & E2 & Pc & B1 & _ & M1); auto.
        { split; now left. }
        { now apply calm_line. }
        { discriminate. }
        { reflexivity. }
        { discriminate. }
        cbn [option_map] in *. rewrite Ed in M1. cbn [snd] in M1. destruct m1; [discriminate|].
        rewrite after_line in Pc by auto. exists l1, i1, il1, d1, false, false, false, false. split; [exact E2|]. split; [now apply Pc|]. split; [exact B1|congruence].
      - destruct (elements_front [] e (it :: ls :: bst) i (List.concat (map snd ((b1, i1) :: l))) A) with (ts := tx) (b := true) (lst := ttype tk) (ist := ist) (il := false) (force := force) (close := close)
          (dang := @None token) (wait := false) (waits := waits) (after := after) (noted := noted) (linked := linked)
          as (l1 & j1 & il1 & d1 & v1 & v2 & v3 & v4 & E2 & Pc & B1 & _ & R3 & R4); auto.
        { cbn [map List.concat snd]. apply Forall_cons_iff in Ft as [[_ Hs1] _]. destruct i1; [discriminate|discriminate]. }
        { now apply calm_line. }
        { discriminate. }
        { reflexivity. }
        rewrite after_line in Pc by auto. exists l1, j1, il1, d1, v1, v2, v3, v4. split; [exact E2|]. split; [now apply Pc|]. split; [exact B1|]. intros _. split; assumption. }
    destruct (soft_newline w fuel here resolve n1 None l1 [] (it :: ls :: bst) i1 [] plainly il1 (force || styled i) (close || macros i) d1 new_asg V1 (proj1 S2)) as (d2 & E3 & _).
    assert (loop (tk :: tx ++ [n1]) (st lst [] bst ist [] plainly false force close dang new_asg)
      = Ok (st TNewLineChar [] (it :: ls :: bst) i1 [] plainly false (force || styled i) (close || macros i) d2 new_asg)) as E4.
    { rewrite (loop_cons w fuel _ _ _ _ E1). exact (loop_join w fuel _ _ _ _ _ E2 E3). }
    rewrite fold_left_app, Ed, <- B2, tops_cons. cbn [fst snd].
    replace (force || styled (i ++ List.concat (map snd l))) with ((force || styled i) || styled (List.concat (map snd l))) by (unfold styled; now rewrite existsb_app, orb_assoc).
    destruct l as [|x l].
    - inversion W2. subst t2. rewrite app_nil_r. cbn [map List.concat fold_left styled existsb fst snd]. rewrite orb_false_r.
      exists (it :: ls :: bst), i1, (close || macros i), d2. split; [exact E4|]. split; [cbn [map]; now rewrite Ui, Ul|reflexivity].
    - destruct (R2 ltac:(discriminate)) as [R3 R4]. destruct Alt as [Al1 Al2].
      destruct (IH t2 TNewLineChar (it :: ls :: bst) i1 (force || styled i) (close || macros i) d2 v1 v2 v3 v4 ltac:(discriminate) W2 Al2) as (bst' & ist' & c' & d' & E5 & Eb & Ei); auto.
      { exists b. auto. }
      exists bst', ist', c', d'. split; [exact (loop_join w fuel _ _ _ _ _ E4 E5)|]. split; [|exact Ei].
      rewrite Eb, <- app_assoc. cbn [map app]. now rewrite Ui, Ul.
  Qed.
  Fixpoint deep (l : list (bullet * list element)) (x : list inline) : block :=
    match l with
    | [] => para None []
    | [y] => listed (fst y) [entry (fst y) x []]
    | y :: r => listed (fst y) [entry (fst y) [] [deep r x]]
    end.
  Lemma tops_tail l : l <> [] -> exists b r, tops l = entry b [] [] :: r.
  Proof. induction l as [|x l IH]; [congruence|]. intros _. rewrite tops_cons. destruct l as [|y l]; [eexists _, _; reflexivity|]. destruct IH as (b & r & ->); [discriminate|]. eexists _, _. reflexivity. Qed.
  Lemma deep_tower x l : l <> [] -> forall b r s, tops l = entry b [] [] :: r ->
    packed (entry b x []) (r ++ s) = packed (deep l x) s /\ stands (entry b x []) (r ++ s) = stands (deep l x) s.
  Proof.
    induction l as [|y l IH]; [congruence|]. intros _ b r s H. rewrite tops_cons in H. destruct l as [|z l].
    - cbn in H. injection H as Hb <-. assert (entry b x [] = entry (fst y) x []) as -> by (unfold entry; now rewrite Hb).
      cbn [app packed stands deep]. unfold listed. cbn [packed stands carries is_list_item b_head entry andb app]. split; reflexivity.
    - destruct (tops_tail (z :: l) ltac:(discriminate)) as (b' & r' & E). rewrite E in H. cbn [app] in H. injection H as Hb <-.
      assert (entry b x [] = entry b' x []) as -> by (unfold entry; now rewrite Hb).
      destruct (IH ltac:(discriminate) b' r' ([entry (fst y) [] []; listed (fst y) []] ++ s) E) as [I1 I2]. rewrite <- app_assoc, I1, I2.
      cbn [app packed stands carries entry listed andb]. change (deep (y :: z :: l) x) with (listed (fst y) [entry (fst y) [] [deep (z :: l) x]]). split; reflexivity.
  Qed.
  Lemma deep_sunk x l : l <> [] -> [deep l x] = sunk l (map (fun _ => []) (tl l) ++ [x]).
  Proof.
    induction l as [|y l IH]; [congruence|]. intros _. destruct l as [|z l]; [reflexivity|]. specialize (IH ltac:(discriminate)). cbn [tl] in IH |- *.
    transitivity [listed (fst y) [entry (fst y) [] [deep (z :: l) x]]]; [reflexivity|]. rewrite IH. reflexivity.
  Qed.
  Lemma sunk_parse l src : l <> [] -> alternating l -> Forall (fun x => bullet_fits (fst x) = true) l -> Forall (fun x => one_line (snd x) = true /\ speaks (snd x) = true) l ->
    text_fits plainly false (List.concat (map snd l)) = true -> styled (List.concat (map snd l)) = false ->
    utf8 src -> tokenised [] src (sunk_words l) ->
    exists g, parse w fuel origin resolve src = Ok g /\ map unplaced (a_blocks g) = sunk_made l.
  Proof.
    intros Nl Alt Fb Ft F Hs U K. apply (words_graph src _ _ U K). intros ts W. unfold sunk_words in W. apply words_split in W as (t1 & t2 & -> & W1 & W).
    apply words_cons in W as (te & t3 & -> & We & W). inversion W. subst t3.
    unfold text_fits in F. apply andb_prop in F as [F _]. apply andb_prop in F as [F _].
    destruct (sunk_loop no_env (fun n => eq_refl) l t1 TEof [] [] false false None false false false false Nl W1 Alt Logic.I Fb Ft F) as (bst & ist & close & dang & E & Eb & Ei).
    { unfold fine, no_macro. cbn. auto. }
    cbn [orb] in E. rewrite Hs in E. cbn [map] in Eb, Ei. rewrite app_nil_r in Eb.
    assert (map unplaced_inline (rev ist) = text (List.concat (map snd l))) as Bi by (rewrite map_rev, Ei; reflexivity).
    destruct (tops_tail l Nl) as (b & r & Et). rewrite Et in Eb. destruct bst as [|it bst]; [discriminate|]. cbn [map] in Eb.
    assert (unplaced it = entry b [] [] /\ map unplaced bst = r) as [Ui Ur] by (now injection Eb).
    pose proof (eof_go te None TNewLineChar [] (it :: bst) ist [] plainly false false close dang new_asg We) as E1.
    destruct (item_more _ _ _ ist it TEof [] bst [] plainly close dang new_asg Ui) as (it' & E2 & Ui'). rewrite Bi in Ui'. cbn [app] in Ui'.
    destruct (deep_tower (text (List.concat (map snd l))) l Nl b r [] Et) as [D1 D2]. rewrite !app_nil_r in D1, D2.
    destruct (flush_tower TEof [] [] plainly false false close dang bst it' new_asg) as (a' & E3 & Ea).
    { rewrite Ui', Ur. unfold entry in D2. rewrite D2. destruct l as [|y [|]]; [congruence|reflexivity|reflexivity]. }
    eexists _, _. split; [exact (loop_join w fuel _ _ _ _ _ E E1)|]. split.
    - rewrite E2. cbn [bind]. exact E3.
    - refine (eq_trans Ea _). rewrite Ui', Ur. unfold entry in D1. rewrite D1. cbn [packed map a_blocks new_asg app]. now rewrite deep_sunk.
  Qed.

  (** ** A description of two lines *)
  Lemma two_parse t b x y t' b' z src : two_fit t x y t' z = true -> utf8 src -> tokenised [] src (two_words t b x y t' b' z) ->
    exists g, parse w fuel origin resolve src = Ok g /\ map unplaced (a_blocks g) = two_made t x y t' z.
  Proof.
    intros F U K. unfold two_fit in F. apply andb_prop in F as [F F4]. apply andb_prop in F as [F F3]. apply andb_prop in F as [F1 F2].
    set (d := mkScript None [([], Part (Terms [(t, b, x); (y ++ Bit Newline :: t', b', z)]))] None).
    assert (g_flow (script_page d) = [(false, described [(text t, kept x); (kept (y ++ Bit Newline :: t'), kept z)])]) as Ef.
    { unfold script_page. cbn [d sc_pieces sc_last pieces_page fold_left piece_page leaf_page fst snd]. unfold land. cbn [flag_page SpecScript.keeping first_page g_open g_flag dress].
      rewrite andb_false_r, rest_none. reflexivity. }
    destruct (script_graph w fuel origin resolve src d U) as (g & E & Eb & _).
    - split; [exact Logic.I|]. split; [|split; [exact Logic.I|now rewrite Ef]]. split; [|exact Logic.I]. split; [split; [constructor|discriminate]|]. split; [|discriminate].
      split; [reflexivity|]. split; [reflexivity|]. split; [exact F1|]. split; [exact F2|]. split; [exact F3|]. exact F4.
    - constructor.
    - now left.
    - split; [|constructor]. replace (script_words d) with (two_words t b x y t' b' z); [exact K|].
      unfold two_words, script_words, text_words, eof. cbn [d sc_title sc_pieces sc_last map List.concat fst snd decor_words piece_words leaf_words app]. unfold text_words.
      rewrite map_app, concat_app. cbn [map List.concat element_words bit_word app]. repeat (rewrite <- app_assoc; cbn [app]). reflexivity.
    - exists g. split; [exact E|]. rewrite Eb. unfold script_blocks. rewrite Ef. reflexivity.
  Qed.
End Nest.

(** ** What is made is not what is meant *)
Lemma nest_never b1 b2 l : nest_made b1 b2 l <> nest_meant b1 b2 l.
Proof. unfold nest_made, nest_meant, referred. cbn. intros H. injection H as H. discriminate H. Qed.
Lemma attach_more_never b b' x y z : attach_more_made b b' x y z <> attach_more_meant b b' x y z.
Proof. unfold attach_more_made, attach_more_meant, referred. cbn. discriminate. Qed.
Lemma sunk_never x y l : speaks (snd x) = true -> sunk_made (x :: y :: l) <> sunk_meant (x :: y :: l).
Proof.
  intros S H. unfold sunk_made, sunk_meant, referred in H. cbn in H. injection H as H _. unfold text, text_inlines in H.
  pose proof (speaks_some plainly no_env (snd x) ([], false, None) (or_intror S)) as N. unfold text_draft in H.
  destruct (fst (fst (fold_left (write plainly no_env) (snd x) ([], false, None)))) as [|i k]; [congruence|].
  cbn [rev] in H. rewrite map_app in H. destruct (map _ (rev k)); discriminate H.
Qed.
