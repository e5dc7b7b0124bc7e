(** * The blank line after the last block: what the parser makes of documents without it *)
From Verif Require ArticleProofs ArticleWhole ScanMain2 VerbatimProofs.
From Verif Require Import Base World Location Token Scanner Meta Inline Block Asg Parser SpecScan SpecLex SpecDoc SpecArticle
  DocGraph GraphLemmas ArticleGraph ScanWhole ScriptWords ScriptText ScriptLocs ScriptDecor ScriptGraph ScriptBlocks ScriptCells ScriptRefs ScriptWhole SpecScript SpecEnd.
Local Open Scope char_scope.
Local Open Scope nat_scope.
Local Arguments reconcile : simpl never.
Local Arguments token_locations : simpl never.
Local Arguments token_text : simpl never.
Local Arguments consolidate_locations : simpl never.
Local Arguments last_opt : simpl never.
Local Arguments push_block : simpl never.
Local Arguments takes_block : simpl never.
Local Arguments asg_push_block : simpl never.

(** ** Emptying the stack *)
Definition sink (b : block) (r : list block) (a : asg) : result (list block * asg) :=
  match r with
  | l :: r' => if takes_block l b then let* l' := push_block l b in Ok (l' :: r', a) else let* a' := asg_push_block a b in Ok (r, a')
  | [] => let* a' := asg_push_block a b in Ok ([], a')
  end.
Lemma sink_length b r a x : sink b r a = Ok x -> List.length (fst x) = List.length r.
Proof.
  unfold sink. destruct r as [|l r].
  - destruct (asg_push_block a b); cbn; congruence || (intros [= <-]; reflexivity).
  - destruct (takes_block l b); [destruct (push_block l b)|destruct (asg_push_block a b)]; cbn; congruence || (intros [= <-]; reflexivity).
Qed.
Fixpoint drain (n : nat) (bst : list block) (a : asg) : result asg :=
  match bst with
  | [] => Ok a
  | b :: r => match n with O => Hang | S n => let* x := sink b r a in drain n (fst x) (snd x) end
  end.
Definition drained (bst : list block) (a : asg) : result asg := drain (List.length bst) bst a.
Lemma drained_cons b r a x : sink b r a = Ok x -> drained (b :: r) a = drained (fst x) (snd x).
Proof. intros E. unfold drained. cbn [List.length drain]. rewrite E. cbn [bind]. now rewrite (sink_length _ _ _ _ E). Qed.

Section Ends.
  Variables (w : world) (fuel : nat) (here : bytes * list bytes) (resolve : bool).
  Notation stm := (stm here resolve).
  Notation st := (stm None).
  Notation loop := (parse_loop w fuel).
  Notation at_rest := (at_rest here resolve).
  Notation primed := (primed here resolve).
  Ltac cst := unfold ScriptBlocks.stm; pst.

  Lemma sink_last lst attrs b r keep il force close dang a :
    add_last_block_to_graph (st lst attrs (b :: r) [] [] keep il force close dang a)
    = let* x := sink b r a in Ok (st lst attrs (fst x) [] [] keep il force close dang (snd x)).
  Proof.
    unfold add_last_block_to_graph, take_metadata, sink, p_asg_push. cst. destruct r as [|l r].
    - destruct (asg_push_block a b); reflexivity.
    - destruct (takes_block l b); [destruct (push_block l b)|destruct (asg_push_block a b)]; reflexivity.
  Qed.
  Lemma sink_to lst attrs b r keep il force close dang a :
    add_to_block_stack_or_graph b (st lst attrs r [] [] keep il force close dang a)
    = let* x := sink b r a in Ok (st lst attrs (fst x) [] [] keep il force close dang (snd x)).
  Proof.
    unfold add_to_block_stack_or_graph, take_metadata, sink, p_asg_push. cst. destruct r as [|l r].
    - destruct (asg_push_block a b); reflexivity.
    - destruct (takes_block l b); [destruct (push_block l b)|destruct (asg_push_block a b)]; reflexivity.
  Qed.
  Lemma sink_top lst attrs b r keep il force close dang a :
    add_last_to_block_stack_or_graph (st lst attrs (b :: r) [] [] keep il force close dang a)
    = let* x := sink b r a in Ok (st lst attrs (fst x) [] [] keep il force close dang (snd x)).
  Proof.
    unfold add_last_to_block_stack_or_graph, take_metadata, sink, p_asg_push. cst. destruct r as [|l r].
    - destruct (asg_push_block a b); reflexivity.
    - destruct (takes_block l b); [destruct (push_block l b)|destruct (asg_push_block a b)]; reflexivity.
  Qed.
  Lemma flush_drain n : forall lst attrs bst keep il force close dang a,
    flush_blocks n 0 (st lst attrs bst [] [] keep il force close dang a)
    = let* a' := drain n bst a in Ok (st lst attrs [] [] [] keep il force close dang a').
  Proof.
    induction n as [|n IH]; intros lst attrs bst keep il force close dang a; destruct bst as [|b r]; try reflexivity.
    cbn [flush_blocks drain]. replace (List.length (p_bstack (st lst attrs (b :: r) [] [] keep il force close dang a)) <=? 0) with false by reflexivity.
    rewrite sink_last. destruct (sink b r a) as [x| | | |]; cbn [bind]; try reflexivity. apply IH.
  Qed.
  Definition ends (p : pstate) : result pstate := let* p := add_inlines_to_block_stack p in flush_to 0 p.
  Lemma ends_drained m lst attrs bst bst1 ist keep il force close dang a :
    add_inlines_to_block_stack (stm m lst attrs bst ist [] keep il force close dang a) = Ok (st lst attrs bst1 [] [] keep il force close dang a) ->
    ends (stm m lst attrs bst ist [] keep il force close dang a) = let* a' := drained bst1 a in Ok (st lst attrs [] [] [] keep il force close dang a').
  Proof. intros E. unfold ends. rewrite E. cbn [bind]. unfold flush_to. exact (flush_drain _ _ _ _ _ _ _ _ _ _). Qed.

  (** ** The blank line delivers what the end of the document delivers too *)
  Lemma blank_drains lst attrs bst keep force close a p : drops_breaks keep = false ->
    blank_tail (st lst attrs bst [] [] keep false force close None a) = Ok p ->
    exists bst' close' a', p = st lst attrs bst' [] [] keep false true close' None a' /\ drained bst' a' = drained bst a.
  Proof.
    intros Kd. unfold blank_tail. cst. destruct bst as [|b r].
    { intros [= <-]. exists [], close, a. split; reflexivity. }
    destruct (negb (is_section b)); cbn [andb].
    - match goal with |- context [add_to_block_stack_or_graph b ?q] => change q with (st lst attrs r [] [] keep false true close None a) end.
      rewrite sink_to. destruct (sink b r a) as [x| | | |] eqn:E; cbn [bind]; try discriminate. cst.
      rewrite (drained_cons _ _ _ _ E).
      destruct (close && negb (empty (fst x))) eqn:Ec.
      + apply andb_prop in Ec as [-> Ec]. destruct (fst x) as [|b1 r1] eqn:Ex; [discriminate|].
        match goal with |- context [add_last_to_block_stack_or_graph ?q] => change q with (st lst attrs (b1 :: r1) [] [] keep false true true None (snd x)) end.
        rewrite sink_top. destruct (sink b1 r1 (snd x)) as [y| | | |] eqn:E2; cbn [bind]; try discriminate. intros [= <-].
        exists (fst y), false, (snd y). split; [reflexivity|]. now rewrite (drained_cons _ _ _ _ E2).
      + intros [= <-]. exists (fst x), close, (snd x). split; reflexivity.
    - unfold push_block_to_stack. pst. rewrite Kd. intros [= <-]. exists (b :: r), close, a. split; reflexivity.
  Qed.

  (** the state before the blank line *)
  Definition settling (m : option metadata) lst attrs bst ist keep force close a : Prop :=
    (exists bst1, no_item bst
       /\ forall d, add_inlines_to_block_stack (stm m lst attrs bst ist [] keep false force close d a) = Ok (st lst attrs bst1 [] [] keep false force close d a))
    \/ (m = None /\ exists it it' ls r, bst = it :: ls :: r /\ is_list_item it || is_dlist_item it = true /\ is_list_item it' || is_dlist_item it' = true
          /\ takes_block ls it' = true
          /\ forall f d, f = false \/ f = force ->
               add_inlines_to_block_stack (st lst attrs bst ist [] keep false f close d a) = Ok (st lst attrs (it' :: ls :: r) [] [] keep false f close d a)).
  Definition short_state (q : pstate) : Prop :=
    exists m lst attrs bst ist keep force close dang a, q = stm m lst attrs bst ist [] keep false force close dang a
      /\ ended lst /\ drops_breaks keep = false /\ settling m lst attrs bst ist keep force close a.
  Lemma short_end q t p : short_state q -> is_word newline t -> loop [t] q = Ok p ->
    forall r, ends p = Ok r -> exists r', ends q = Ok r' /\ p_asg r' = p_asg r.
  Proof.
    intros (m & lst & attrs & bst & ist & keep & force & close & dang & a & -> & L & Kd & S) Wt E r Er.
    cbn [parse_loop] in E. destruct S as [(bst1 & Ni & Ea)|(-> & it & it' & ls & r0 & -> & Hi & Hi' & Tk & Ea)].
    - rewrite blank_newline, Ea in E by assumption. cbn [bind] in E.
      destruct (blank_tail (st lst attrs bst1 [] [] keep false force close None a)) as [p0| | | |] eqn:Eb; try discriminate. cbn [bind] in E.
      destruct (blank_drains _ _ _ _ _ _ _ _ Kd Eb) as (bst' & close' & a' & -> & Ed). injection E as <-. rewrite set_last_st in Er.
      rewrite (ends_drained _ _ _ _ bst' _ _ _ _ _ _ _ (add_nothing _ _ _ _ _ _ _ _ _ _ _ _ _)) in Er. rewrite Ed in Er.
      rewrite (ends_drained _ _ _ _ bst1 _ _ _ _ _ _ _ (Ea _)). destruct (drained bst1 a) as [a2| | | |]; try discriminate. cbn [bind] in *. injection Er as <-.
      eexists. split; reflexivity.
    - assert (token_into w fuel t (st lst attrs (it :: ls :: r0) ist [] keep false force close dang a)
        = (let* p := add_last_list_item_to_list (st lst attrs (it :: ls :: r0) ist [] keep false force close None a) in
           let* p := add_inlines_to_block_stack (set_in_span false p) in blank_tail p)) as Et.
      { apply orb_prop in Hi as [Hi|Hi]; [now apply blank_item|now apply blank_term]. }
      rewrite Et in E. clear Et. unfold add_last_list_item_to_list in E.
      change (set_force_new false (st lst attrs (it :: ls :: r0) ist [] keep false force close None a)) with (st lst attrs (it :: ls :: r0) ist [] keep false false close None a) in E.
      rewrite (Ea false None (or_introl eq_refl)) in E. cbn [bind] in E.
      destruct (push_block ls it') as [ls'| | | |] eqn:Ep.
      2-5: exfalso; revert E; cst; rewrite Hi', Ep; cbn [bind]; discriminate.
      assert ((let p := st lst attrs (it' :: ls :: r0) [] [] keep false false close None a in
               match p_bstack p with
               | [] => Panic
               | item :: r => let p := set_bstack r p in
                   if is_list_item item || is_dlist_item item then match r with l :: r' => let* l' := push_block l item in Ok (set_bstack (l' :: r') p) | [] => Ok p end
                   else push_block_to_stack item p
               end) = Ok (st lst attrs (ls' :: r0) [] [] keep false false close None a)) as Eq.
      { cst. rewrite Hi', Ep. reflexivity. }
      cbv zeta in Eq. cbv zeta in E. rewrite Eq in E. clear Eq. cbn [bind] in E.
      change (set_in_span false (st lst attrs (ls' :: r0) [] [] keep false false close None a)) with (st lst attrs (ls' :: r0) [] [] keep false false close None a) in E.
      rewrite add_nothing in E. cbn [bind] in E.
      destruct (blank_tail (st lst attrs (ls' :: r0) [] [] keep false false close None a)) as [p0| | | |] eqn:Eb; try discriminate. cbn [bind] in E.
      destruct (blank_drains _ _ _ _ _ _ _ _ Kd Eb) as (bst' & close' & a' & -> & Ed). injection E as <-. rewrite set_last_st in Er.
      rewrite (ends_drained _ _ _ _ bst' _ _ _ _ _ _ _ (add_nothing _ _ _ _ _ _ _ _ _ _ _ _ _)) in Er. rewrite Ed in Er.
      rewrite (ends_drained _ _ _ _ (it' :: ls :: r0) _ _ _ _ _ _ _ (Ea force dang (or_intror eq_refl))).
      assert (sink it' (ls :: r0) a = Ok (ls' :: r0, a)) as Es by (unfold sink; rewrite Tk, Ep; reflexivity).
      rewrite (drained_cons _ _ _ _ Es). cbn [fst snd].
      destruct (drained (ls' :: r0) a) as [a2| | | |]; try discriminate. cbn [bind] in *. injection Er as <-.
      eexists. split; reflexivity.
  Qed.

  Lemma short_idle lst attrs bst keep force close dang a : ended lst -> drops_breaks keep = false -> no_item bst ->
    short_state (st lst attrs bst [] [] keep false force close dang a).
  Proof.
    intros L Kd N. exists None, lst, attrs, bst, [], keep, force, close, dang, a. split; [reflexivity|]. split; [assumption|]. split; [assumption|].
    left. exists bst. split; [assumption|]. intros d. apply add_nothing.
  Qed.
  Lemma new_para_dang m lst attrs bst ist keep il force close d a : drops_breaks keep = false ->
    new_paragraph (stm m lst attrs bst ist [] keep il force close d a)
    = (let* p := new_paragraph (stm m lst attrs bst ist [] keep il force close None a) in Ok (set_dangling d p)).
  Proof.
    intros Kd. unfold new_paragraph, push_block_to_stack. cst. rewrite !Kd. destruct (push_inlines _ (rev ist)) as [para| | | |]; cbn [bind andb]; try reflexivity. pst. 
    destruct m as [m|]; [|reflexivity].
    destruct (match rev ist with [] => _ | _ => _ end) as [|l0 ?]; cbn [bind]; [reflexivity|].
    destruct (match m_type m with Some AQuote => true | _ => false end).
    - destruct (push_block (Blk (HParent PQuote None [] []) None [] []) para) as [q| | | |]; cbn [bind]; try reflexivity.
      destruct (add_metadata q m); reflexivity.
    - destruct (add_metadata para m); reflexivity.
  Qed.
  Lemma fresh_para m lst attrs bst ist x keep force close a : drops_breaks keep = false ->
    map unplaced_inline (rev ist) = x -> ist <> [] -> Forall located ist ->
    force = true \/ match bst with [] => True | b :: _ => takes_inlines b = false end ->
    exists bst1, forall d, add_inlines_to_block_stack (stm m lst attrs bst ist [] keep false force close d a) = Ok (st lst attrs bst1 [] [] keep false force close d a).
  Proof.
    intros Kd B Ne Lo F. assert (held [] keep) as Hc by (unfold held; now rewrite Kd).
    destruct (new_para here resolve m lst attrs bst ist x [] keep false force close None a B (or_intror (conj eq_refl (conj Ne Lo))) Hc) as (b & E & _).
    exists (b :: bst). intros d.
    assert (add_inlines_to_block_stack (stm m lst attrs bst ist [] keep false force close d a) = new_paragraph (stm m lst attrs bst ist [] keep false force close d a)) as ->.
    { unfold add_inlines_to_block_stack. cst. destruct ist as [|i ist]; [congruence|]. destruct bst as [|b0 bst]; [reflexivity|].
      destruct F as [->|F]; [|rewrite F]; cbn [negb andb]; [now rewrite andb_false_r|reflexivity]. }
    rewrite new_para_dang, E by assumption. reflexivity.
  Qed.
  Lemma room_free h ol bst a g force : room (KTop h) ol bst a g -> free (KTop h) force bst -> force = true \/ match bst with [] => True | b :: _ => takes_inlines b = false end.
  Proof. intros _ [F|F]; [now left|right]. cbn in F. now subst. Qed.

  Lemma short_text h g me wait p l ts t : primed (KTop h) g me wait p -> text_fits (g_keep g) wait l = true ->
    are_words (text_words l) ts -> is_word newline t -> exists q, loop (ts ++ [t]) p = Ok q /\ short_state q.
  Proof.
    intros (m & lst & attrs & bst & ol & force & a & dang & -> & <- & D & L & A & R & Hc & F & N1 & N2) Hf W Wt. assert (ol = []) as -> by now destruct R.
    destruct (line_loop w fuel here resolve l ts t m lst attrs (g_env g) bst [] (g_keep g) false force (g_flag g) dang wait a A W Hf D Wt) as (i1 & m1 & d1 & E1 & B1 & M1 & Ni & Lo).
    eexists. split; [exact E1|]. pose proof (held_drops _ Hc) as Kd.
    destruct (fresh_para m1 TNewLineChar attrs bst i1 _ (g_keep g) (force || styled l) (g_flag g || macros l) a Kd B1 Ni Lo) as (bst1 & E2).
    { exact (room_free _ _ _ _ _ _ R (free_styled _ _ _ _ F)). }
    exists m1, TNewLineChar, attrs, bst, i1, (g_keep g), (force || styled l), (g_flag g || macros l), d1, a. split; [reflexivity|]. split; [reflexivity|]. split; [assumption|].
    left. exists bst1. split; [exact (room_no_item _ _ _ _ _ R N1)|exact E2].
  Qed.

  (** *** Lists *)
  Lemma short_item v me lk ls mk x kids ist it attrs bst keep force close dang a : unplaced ls = Blk (HList v) me lk [] -> item_at mk x kids ist it ->
    ist = [] \/ force = false -> drops_breaks keep = false -> short_state (st TNewLineChar attrs (it :: ls :: bst) ist [] keep false force close dang a).
  Proof.
    intros Hl Hi F Kd. exists None, TNewLineChar, attrs, (it :: ls :: bst), ist, keep, force, close, dang, a. split; [reflexivity|]. split; [reflexivity|]. split; [assumption|].
    right. split; [reflexivity|].
    assert (exists it', is_list_item it' = true /\ forall f d, f = false \/ f = force ->
      add_inlines_to_block_stack (st TNewLineChar attrs (it :: ls :: bst) ist [] keep false f close d a) = Ok (st TNewLineChar attrs (it' :: ls :: bst) [] [] keep false f close d a)) as (it' & Hi' & Ea).
    { destruct ist as [|i ist].
      - exists it. split; [|intros; apply add_nothing]. destruct (heads_unplaced it) as (_ & <- & _). destruct Hi as [(-> & _)|(_ & ->)]; reflexivity.
      - destruct Hi as [(H & B & ->)|(H & _)]; [|discriminate].
        destruct it as [hi mi ki li]. cbn [unplaced] in H. injection H as Hh Hm Hk. destruct hi; try discriminate Hh.
        exists (Blk (HListItem marker (principal ++ rev (i :: ist))) mi ki li). split; [reflexivity|]. intros f d Hf.
        assert (f = false) as -> by (destruct F as [F| ->]; [discriminate|now destruct Hf]).
        unfold add_inlines_to_block_stack. cst. cbn [takes_inlines b_head]. pst. rewrite ArticleProofs.push_inlines_item. reflexivity. }
    exists it, it', ls, bst. split; [reflexivity|]. split; [|split; [now rewrite Hi'|split; [|exact Ea]]].
    - destruct (heads_unplaced it) as (_ & <- & _). destruct Hi as [(-> & _)|(_ & ->)]; reflexivity.
    - destruct ls as [hl ml kl ll]. cbn [unplaced] in Hl. injection Hl as Hh _ _. destruct hl; try discriminate Hh. exact Hi'.
  Qed.
  Definition tail_fits (rest : list (bullet * list element * list bound)) : bool :=
    match rev rest with [] => false | (_, t, []) :: _ => negb (styled t) | _ => true end.
  Lemma tail_cons x y r : tail_fits (x :: y :: r) = tail_fits (y :: r).
  Proof. unfold tail_fits. cbn [rev]. destruct (rev r ++ [y]) as [|z l] eqn:E; [destruct (rev r); discriminate|reflexivity]. Qed.
  Lemma short_threads rest : forall ts g v me lk ls b0 x kids it attrs bst ist force dang a,
    are_words (List.concat (map item_words rest)) ts -> items_ok rest g ->
    Forall (fun x => bullet_variant (fst (fst x)) = v) rest -> bullet_variant b0 = v ->
    unplaced ls = Blk (HList v) me lk [] -> item_at (bullet_mark b0) x kids ist it ->
    agrees attrs (g_env g) -> Forall (fun b => is_parent b = false) bst -> drops_breaks (g_keep g) = false -> tail_fits rest = true ->
    exists q, loop ts (st TNewLineChar attrs (it :: ls :: bst) ist [] (g_keep g) false force (g_flag g) dang a) = Ok q /\ short_state q.
  Proof.
    induction rest as [|[[bu i] bs0] rest IH]; intros ts g v me lk ls b0 x kids it attrs bst ist force dang a W F Fv Hv Hl Hi A Fb Kd Tf.
    - discriminate.
    - destruct F as [(Hb & Hf & Hs & Hbs) F2]. destruct Hv. apply Forall_cons_iff in Fv as [V1 V2]. cbn [fst snd] in *. cbn [map List.concat] in W.
      apply words_split in W as (t1 & t2 & -> & W1 & W2). unfold item_words in W1. cbn [fst snd] in W1. apply words_cons in W1 as (tk & t3 & -> & Wk & W1).
      rewrite app_assoc in W1. apply words_split in W1 as (t4 & t5 & -> & W4 & W5). apply words_split in W4 as (t6 & t7 & -> & W6 & W7). apply words_cons in W7 as (tn & t8 & -> & Wn & W8). inversion W8. subst t8.
      destruct (item_close here resolve _ me lk ls _ x kids ist it TNewLineChar attrs bst [] (g_keep g) force (g_flag g) None a Hl Hi) as (ls' & E & Hl').
      pose proof (bullet_kind b0 _ _ x kids ist it eq_refl eq_refl Hi) as Ho.
      set (it' := Blk (HListItem (bullet_mark bu) []) None [] (token_locations tk)).
      assert (bullet_item bu tk (st TNewLineChar attrs (it :: ls :: bst) ist [] (g_keep g) false force (g_flag g) dang a)
        = Ok (st TNewLineChar attrs (it' :: ls' :: bst) [] [] (g_keep g) false false (g_flag g) None a)) as E0.
      { unfold bullet_item. rewrite V1. destruct (bullet_variant b0); unfold parse_ordered_list_item, parse_unordered_list_item, new_list_item; rewrite (bullet_trim bu tk Wk Hb); cst; rewrite Ho;
          match goal with |- context [add_last_list_item_to_list ?p] => change p with (st TNewLineChar attrs (it :: ls :: bst) ist [] (g_keep g) false force (g_flag g) None a) end;
          rewrite E; cbn [bind]; unfold push_block_to_stack; cst; rewrite Kd; reflexivity. }
      destruct (line_loop0 w fuel here resolve i t6 tn (ttype tk) attrs (g_env g) (it' :: ls' :: bst) [] (g_keep g) false false (g_flag g) a A W6 Hf Wn) as (i1 & d1 & E1 & B1 & Ni).
      destruct (bounds_loop w fuel here resolve bs0 (flag_page (macros i) g) (bullet_variant b0) me _ ls' (bullet_mark bu) (page_text g i) [] i1 it' t5 attrs bst (false || styled i) d1 a Hl')
        as (i2 & it2 & at2 & f2 & d2 & E2 & I2 & A2 & T2); auto.
      { left. auto. }
      cbn [app] in I2, T2.
      assert (exists q, loop t2 (st TNewLineChar at2 (it2 :: ls' :: bst) i2 [] (g_keep (bounds_page bs0 (flag_page (macros i) g))) false f2 (g_flag (bounds_page bs0 (flag_page (macros i) g))) d2 a) = Ok q /\ short_state q) as (q & E3 & Sq).
      { destruct rest as [|y rest].
        - inversion W2. subst t2. eexists. split; [reflexivity|].
          apply (short_item _ _ _ _ _ _ _ _ _ _ _ _ _ _ _ _ Hl' I2).
          + unfold tail_fits in Tf. cbn [rev app] in Tf. destruct bs0 as [|b1 bs0].
            * right. inversion W5. subst t5. cbn [parse_loop orb] in E2. apply negb_true_iff in Tf. rewrite Tf in E2. cbn [bounds_page fold_left] in E2. injection E2 as _ _ _ E2 _. now symmetry.
            * left. destruct I2 as [(_ & _ & I2)|(I2 & _)]; [discriminate|exact I2].
          + rewrite bounds_drops. exact Kd.
        - rewrite tail_cons in Tf.
          exact (IH t2 (item_page (bu, i, bs0) g) (bullet_variant b0) me _ ls' bu (page_text g i) _ it2 at2 bst i2 f2 d2 a W2 F2 V2 V1 Hl' I2 A2 Fb (eq_trans (item_drops (bu, i, bs0) g) Kd) Tf). }
      exists q. split; [|exact Sq]. cbn [app]. rewrite (loop_cons w fuel _ _ _ _ (eq_trans (bullet_go w fuel here resolve bu tk _ _ _ _ _ _ _ _ _ _ _ _ Wk) E0)).
      rewrite <- !app_assoc. rewrite (app_assoc t6 [tn]). apply (loop_join w fuel _ _ _ _ _ E1). exact (loop_join w fuel _ _ _ _ _ E2 E3).
  Qed.

  (** *** Description lists *)
  Lemma last_cons {A} (l : list A) : forall a x, last (a :: l) x = last l a.
  Proof. induction l as [|b l IH]; intros a x; [reflexivity|]. change (last (b :: l) x = last (b :: l) a). now rewrite !IH. Qed.

  Lemma short_terms r : forall ts x g me kids ls te it attrs bst a,
    are_words (text_words x ++ newline :: terms_words r) ts -> terms_ok (g_keep g) (g_env g) x r = true ->
    is_terms me kids ls -> is_term te it -> keeps_breaks (g_keep g) = true -> drops_breaks (g_keep g) = false ->
    agrees attrs (g_env g) -> styled (last (map snd r) x) = false ->
    exists q, loop ts (st TDescriptionListMarker attrs (it :: ls :: bst) [] [] (g_keep g) false false (g_flag g) None a) = Ok q /\ short_state q.
  Proof.
    induction r as [|[[t1 below] y] r IH]; intros ts x g me kids ls te it attrs bst a W F Hl Hi Kb Kd A Hs.
    - cbn [terms_words map List.concat] in W. apply words_split in W as (t2 & t3 & -> & W2 & W3). apply words_cons in W3 as (t4 & t5 & -> & W4 & W5). inversion W5. subst t5.
      cbn [terms_ok] in F. cbn [map last] in Hs.
      destruct (line_loop0 w fuel here resolve x t2 t4 TDescriptionListMarker attrs (g_env g) (it :: ls :: bst) [] (g_keep g) false false (g_flag g) a A W2 F W4) as (i1 & d1 & E1 & B1 & Ni).
      eexists. split; [exact E1|]. rewrite Hs. cbn [orb].
      assert (is_dlist_item it = true) as Hit by (destruct (heads_unplaced it) as (_ & _ & <- & _); now rewrite Hi).
      exists None, TNewLineChar, attrs, (it :: ls :: bst), i1, (g_keep g), false, (g_flag g || macros x), d1, a. split; [reflexivity|]. split; [reflexivity|]. split; [assumption|].
      right. split; [reflexivity|]. unfold is_term in Hi. destruct it as [hi mi ki li]. cbn [unplaced] in Hi. injection Hi as Hh Hm Hk.
      destruct hi as [| | | |t0 p0| | | | |]; try discriminate Hh.
      exists (Blk (HDListItem t0 p0) mi ki li), (Blk (HDListItem t0 (p0 ++ rev i1)) mi ki li), ls, bst. split; [reflexivity|]. split; [reflexivity|]. split; [reflexivity|]. split.
      + unfold is_terms in Hl. destruct ls as [hl ml kl ll]. cbn [unplaced] in Hl. injection Hl as Hh' _ _. destruct hl; try discriminate Hh'. reflexivity.
      + intros f d Hf. assert (f = false) as -> by now destruct Hf. unfold add_inlines_to_block_stack. cst. destruct i1 as [|i i1]; [congruence|].
        cbn [takes_inlines b_head]. pst. rewrite push_inlines_term. reflexivity.
    - unfold terms_words in W. cbn [map List.concat fst snd] in W. fold (terms_words r) in W.
      replace (text_words x ++ newline :: (text_words t1 ++ term_word below :: text_words y ++ [newline]) ++ terms_words r)
        with (text_words (x ++ Bit Newline :: t1) ++ term_word below :: text_words y ++ newline :: terms_words r) in W.
      2:{ unfold text_words. rewrite map_app, concat_app. cbn [map List.concat element_words bit_word app]. repeat (rewrite <- app_assoc; cbn [app]). reflexivity. }
      apply words_split in W as (t2 & t3 & -> & W2 & W). apply words_cons in W as (tm & t4 & -> & Wm & W).
      cbn [terms_ok] in F. apply andb_prop in F as [F Ft]. apply andb_prop in F as [Fx Fu]. apply andb_prop in Ft as [Ft Fy].
      apply andb_prop in Ft as [Ft Ff]. apply andb_prop in Ft as [F1 Fo].
      destruct (text_loop w fuel here resolve (x ++ Bit Newline :: t1) t2 None TDescriptionListMarker attrs (g_env g) (it :: ls :: bst) [] (g_keep g) false false (g_flag g) None false a A W2 Ff eq_refl)
        as (l1 & i1 & m1 & il1 & d1 & E1 & _ & B1 & M1 & Ni & _ & Il & D1).
      cbn [option_map] in M1, B1, D1. rewrite rest_none in M1. destruct m1; [discriminate|]. rewrite (Il eq_refl) in E1.
      unfold text_inlines in B1. rewrite (draft_line (g_keep g) (g_env g) x t1 Kb Kd Fx F1 Fo) in B1, D1. cbn [fst snd] in B1, D1. rewrite rev_involutive in B1. destruct d1 as [d1|]; [destruct D1; discriminate|].
      destruct (split_newline _ _ _ B1 Fu) as (la & lb & Es & Ba & Bb).
      destruct (add_term here resolve te it l1 attrs (ls :: bst) (rev la) (page_text g x) [] (g_keep g) (g_flag g || macros (x ++ Bit Newline :: t1)) None a Hi) as (it1 & Ea & Ua); [now rewrite rev_involutive|].
      assert (exists ls' it', token_into w fuel tm (st l1 attrs (it :: ls :: bst) i1 [] (g_keep g) false (false || styled (x ++ Bit Newline :: t1)) (g_flag g || macros (x ++ Bit Newline :: t1)) None a)
          = Ok (st l1 attrs (it' :: ls' :: bst) [] [] (g_keep g) false false (g_flag g || macros (x ++ Bit Newline :: t1)) None a)
          /\ is_terms me (kids ++ [term_block te (page_text g x)]) ls' /\ is_term (page_text g t1) it') as (ls' & it' & E2 & Hl' & Hi').
      { rewrite (term_go w fuel here resolve below) by assumption. unfold parse_description_list_term. cst. rewrite Es.
        match goal with |- context [add_inlines_to_block_stack ?p] => change p with (st l1 attrs (it :: ls :: bst) (rev la) [] (g_keep g) false false (g_flag g || macros (x ++ Bit Newline :: t1)) None a) end.
        rewrite Ea. cst. rewrite app_nil_r, rev_involutive.
        assert (is_dlist_item it1 = true) as Hd by (destruct (heads_unplaced it1) as (_ & _ & <- & _); now rewrite Ua). rewrite Hd.
        unfold add_last_list_item_to_list. cst. unfold add_inlines_to_block_stack. cst. rewrite Hd, orb_true_r.
        unfold is_terms in *. destruct ls as [hl ml kl ll]. cbn [unplaced] in Hl. injection Hl as Hh Hm' Hk. destruct hl; try discriminate Hh.
        unfold push_block. pst. unfold push_block_to_stack. pst. rewrite Kd. pst.
        eexists _, (new_dlist_item lb (token_locations tm)). split; [unfold stm, tstate; cbn; rewrite Kb; reflexivity|]. split.
        - rewrite unplaced_consolidate. cbn [unplaced unplaced_head]. rewrite map_app, Hk, Hm'. cbn [map]. now rewrite Ua.
        - unfold is_term, new_dlist_item, page_text. cbn. now rewrite Bb. }
      destruct (IH t4 y (flag_page (macros (x ++ Bit Newline :: t1)) g) me _ ls' (page_text g t1) it' attrs bst a W Fy Hl' Hi' Kb Kd A) as (q & E3 & Sq).
      { rewrite <- Hs. cbn [map snd]. now rewrite last_cons. }
      exists q. split; [|exact Sq]. apply (loop_join w fuel _ _ _ _ _ E1). cbn [app]. rewrite (loop_cons w fuel _ _ _ _ E2), (word_type _ _ Wm). exact E3.
  Qed.
  Lemma short_dlist h g me p t1 below x r ts : primed (KTop h) g me false p -> drops_breaks (g_keep g) = false ->
    text_fits (g_keep g) false t1 = true -> one_line t1 = true -> unbroken (text_inlines (g_keep g) (g_env g) me false t1) = true ->
    terms_ok (g_keep (keeping g)) (g_env g) x r = true ->
    are_words (leaf_words (Terms ((t1, below, x) :: r))) ts -> styled (last (map snd r) x) = false ->
    exists q, loop ts p = Ok q /\ short_state q.
  Proof.
    intros (m & lst & attrs & bst & ol & force & a & dang & -> & <- & D & L & A & R & Hc & F & N1 & N2) Kd F1 F2 F3 F4 W Hs. assert (ol = []) as -> by now destruct R.
    destruct dang; [destruct D; discriminate|]. clear D.
    cbn [leaf_words map List.concat fst snd] in W. fold (terms_words r) in W. repeat (rewrite <- app_assoc in W; cbn [app] in W). apply words_split in W as (t2 & t3 & -> & W2 & W).
    apply words_cons in W as (tm & t4 & -> & Wm & W).
    destruct (text_loop w fuel here resolve t1 t2 m lst attrs (g_env g) bst [] (g_keep g) false force (g_flag g) None false a A W2 F1 eq_refl)
      as (l1 & i1 & m1 & il1 & d1 & E1 & _ & B1 & M1 & Ni & _ & Il & D1).
    rewrite (Il eq_refl) in E1. unfold text_draft in D1. rewrite (draft_rest _ _ _ F2) in D1. destruct d1; [destruct D1; discriminate|].
    assert (exists ls it, token_into w fuel tm (stm m1 l1 attrs bst i1 [] (g_keep g) false (force || styled t1) (g_flag g || macros t1) None a)
        = Ok (st l1 attrs (it :: ls :: bst) [] [] (g_keep (keeping g)) false false (g_flag g || macros t1) None a)
        /\ is_terms (worn (text_rest (g_keep g) (g_env g) (option_map unplaced_meta m) false t1)) [] ls
        /\ is_term (text_inlines (g_keep g) (g_env g) (option_map unplaced_meta m) false t1) it) as (ls & it & E2 & Hl & Hi).
    { rewrite (term_go w fuel here resolve below) by assumption. unfold parse_description_list_term. cst. rewrite split_whole by (rewrite B1; exact F3). cst.
      pose proof (room_no_item _ _ _ _ _ R N1) as H.
      replace (match bst with [] => false | b :: _ => is_dlist_item b end) with false by (destruct bst as [|[[] ? ? ?] ?]; try reflexivity; destruct H; discriminate).
      match goal with |- context [push_block_to_stack (new_dlist ?l) ?p] =>
        change p with (tstate here resolve None attrs bst None [] (g_keep g) a l1 [] m1 None false false false (g_flag g || macros t1) None);
        destruct (push_worn here resolve HDList [] l None attrs bst None [] (g_keep g) a l1 [] m1 None false false (g_flag g || macros t1) None Hc eq_refl) as (me & E & Me);
        change (new_dlist l) with (Blk HDList None [] l); rewrite E end.
      cst. unfold push_block_to_stack. pst. rewrite Hc. pst.
      eexists _, (new_dlist_item (rev i1) (token_locations tm)). split; [reflexivity|]. split.
      - unfold is_terms. cbn [unplaced unplaced_head map]. now rewrite Me, M1.
      - unfold is_term, new_dlist_item. cbn. now rewrite B1. }
    destruct (short_terms r t4 x (flag_page (macros t1) (keeping g)) _ [] ls _ it attrs bst a W F4 Hl Hi eq_refl Kd A Hs) as (q & E3 & Sq).
    exists q. split; [|exact Sq]. apply (loop_join w fuel _ _ _ _ _ E1). cbn [app]. rewrite (loop_cons w fuel _ _ _ _ E2), (word_type _ _ Wm). exact E3.
  Qed.

  (** *** Verbatim blocks, comments, settings *)
  Lemma short_fenced h g me wait p v l ts : primed (KTop h) g me wait p -> fenced_fits v (g_env g) l = true ->
    are_words (leaf_words (Fenced v l)) ts -> exists q, loop ts p = Ok q /\ short_state q.
  Proof.
    intros (m & lst & attrs & bst & ol & force & a & dang & -> & <- & D & L & A & R & Hc & F & N1 & N2) Fok W. assert (ol = []) as -> by now destruct R.
    cbn [leaf_words] in W. apply words_cons in W as (t1 & t2 & -> & W1 & W). apply words_split in W as (t3 & t4 & -> & W3 & W).
    apply words_cons in W as (t5 & t6 & -> & W5 & W). apply words_cons in W as (t7 & t8 & -> & W7 & W). inversion W. subst t8.
    set (ty := fst (fence_word v)). assert (fence_type ty) as Ft by (destruct v; cbn; tauto).
    assert (holds_words ty (g_env g) l = true) as Hw by (destruct v; exact Fok).
    assert (fence_word v = (ty, fence v)) as Ef by (now destruct v). rewrite Ef in W1, W5.
    destruct (open_fence w fuel here resolve ty (fence v) t1 m lst attrs bst [] (g_keep g) force (g_flag g) dang a Hc Ft W1) as (m1 & E1 & M1).
    set (loc := token_locations t1) in *.
    destruct (body_loop w fuel here resolve ty (g_env g) l Hw t3 (ttype t1) attrs (fence_block ty (fence v) [] m1 loc :: bst) [] [] (g_keep g) false (g_flag g) a wait dang W3 D A Logic.I) as (l3 & i3 & d3 & E3 & B3).
    set (B := fence_block ty (fence v) (rev i3) m1 (reconcile loc (token_locations t5))).
    assert (token_into w fuel t5 (vt here resolve l3 attrs (fence_block ty (fence v) [] m1 loc :: bst) i3 [] (g_keep g) false (g_flag g) a (Some ty) d3)
      = Ok (st l3 attrs (B :: bst) [] [] (g_keep g) false false (g_flag g) d3 a)) as E5.
    { rewrite (close_token w fuel here resolve ty (fence v)) by assumption. unfold dispatch. rewrite (word_type _ _ W5). cbn [fst].
      assert (parse_delimited_leaf_block t5 (vt here resolve l3 attrs (fence_block ty (fence v) [] m1 loc :: bst) i3 [] (g_keep g) false (g_flag g) a (Some ty) d3)
        = Ok (st l3 attrs (B :: bst) [] [] (g_keep g) false false (g_flag g) d3 a)) as E.
      { unfold parse_delimited_leaf_block, vt. pst. unfold add_inlines_to_block_stack, push_block_to_stack. pst.
        destruct i3 as [|i i3]; [cbn [bind]; pst; now rewrite Hc|]. unfold fence_block. cbn [takes_inlines b_head]. pst. rewrite ArticleProofs.push_inlines_leaf. cbn [bind]. pst. cbn [add_locations bind]. pst. now rewrite Hc. }
      destruct v; exact E. }
    destruct (soft_newline w fuel here resolve t7 None (ttype t5) attrs (B :: bst) [] [] (g_keep g) false false (g_flag g) d3 a W7) as (d & E7 & _).
    { rewrite (word_type _ _ W5). now destruct v. }
    eexists. split; [|apply (short_idle TNewLineChar attrs (B :: bst) (g_keep g) false (g_flag g) d a eq_refl (held_drops _ Hc)); split; reflexivity].
    rewrite (loop_cons w fuel _ _ _ _ E1). apply (loop_join w fuel _ _ _ _ _ E3). rewrite (loop_cons w fuel _ _ _ _ E5). exact E7.
  Qed.
  Lemma short_verse h g c wait p l ts : primed (KTop h) g (dress c) wait p -> forallb verse_word l = true -> calm true l = true ->
    option_map m_type (dress c) = Some (Some AVerse) ->
    are_words (leaf_words (Verse l)) ts -> exists q, loop ts p = Ok q /\ short_state q.
  Proof.
    intros (m & lst & attrs & bst & ol & force & a & dang & -> & Em & D & L & A & R & Hc & F & N1 & N2) V Ca Ty W. assert (ol = []) as -> by now destruct R.
    cbn [leaf_words] in W. apply words_cons in W as (t1 & t2 & -> & W1 & W). apply words_cons in W as (tn & t2' & -> & Wn & W). apply words_split in W as (t3 & ty & -> & W3 & W).
    apply words_cons in W as (t4 & t4' & -> & W4 & W). apply words_cons in W as (t5 & t6 & -> & W5 & W). apply words_cons in W as (t7 & t8 & -> & W7 & W). inversion W. subst t8.
    set (loc := token_locations t1) in *.
    pose proof (word_text _ _ W1) as T1.
    assert (exists m1, token_into w fuel t1 (stm m lst attrs bst [] [] (g_keep g) false force (g_flag g) dang a)
      = Ok (vt here resolve lst attrs (Blk (HLeaf NVerse FmDelimited (Some (box_fence Quote)) []) m1 [] loc :: bst) [] [] (g_keep g) false (g_flag g) a (Some TQuoteVerseBlock) dang)
      /\ option_map unplaced_meta m1 = worn (dress c)) as (m1 & E1 & M1).
    { rewrite (go w fuel here resolve (box_word Quote)) by (assumption || discriminate). unfold dispatch. rewrite (word_type _ _ W1). cbn [fst box_word].
      unfold parse_quote_verse. cst. rewrite <- Em in Ty. destruct m as [m|]; [|discriminate]. cbn [option_map unplaced_meta m_type] in Ty. injection Ty as Ty. rewrite Ty.
      unfold parse_delimited_leaf_block. cst.
      assert (leaf_from_token t1 = Ok (Blk (HLeaf NVerse FmDelimited (Some (box_fence Quote)) []) None [] loc)) as ->.
      { unfold leaf_from_token. rewrite (word_type _ _ W1). cbn [fst box_word]. rewrite T1. reflexivity. }
      pst.
      match goal with |- context [push_block_to_stack _ ?p] =>
        change p with (tstate here resolve None attrs bst None [] (g_keep g) a lst [] (Some m) (Some (ttype t1)) false false force (g_flag g) dang) end.
      destruct (push_worn here resolve (HLeaf NVerse FmDelimited (Some (box_fence Quote)) []) [] loc None attrs bst None [] (g_keep g) a lst [] (Some m) (Some (ttype t1)) false force (g_flag g) dang Hc eq_refl)
        as (me & -> & E).
      exists me. pst. split; [|rewrite <- Em; exact E]. rewrite (word_type _ _ W1). reflexivity. }
    set (B0 := Blk (HLeaf NVerse FmDelimited (Some (box_fence Quote)) []) m1 [] loc) in *.
    destruct (verse_newline w fuel here resolve tn (ttype t1) attrs (B0 :: bst) [] [] (g_keep g) false (g_flag g) a dang Wn) as (d2 & E2 & D2).
    { now rewrite (word_type _ _ W1). }
    rewrite (word_type _ _ W1) in D2. cbn [fst box_word clears_newline_after] in D2. rewrite orb_true_r in D2.
    destruct (verse_loop w fuel here resolve l V t3 true (ttype tn) attrs (B0 :: bst) [] [] (g_keep g) false (g_flag g) a false d2 Ca W3 D2) as (l3 & i3 & d3 & E3 & [S3 _] & B3); [discriminate|exact Logic.I|].
    destruct (verse_newline w fuel here resolve t4 l3 attrs (B0 :: bst) i3 [] (g_keep g) false (g_flag g) a d3 W4 S3) as (d4 & E4 & _).
    set (B := Blk (HLeaf NVerse FmDelimited (Some (box_fence Quote)) (rev i3)) m1 [] (reconcile loc (token_locations t5))).
    assert (token_into w fuel t5 (vt here resolve (ttype t4) attrs (B0 :: bst) i3 [] (g_keep g) false (g_flag g) a (Some TQuoteVerseBlock) d4)
      = Ok (st (ttype t4) attrs (B :: bst) [] [] (g_keep g) false false (g_flag g) d4 a)) as E5.
    { assert (token_into w fuel t5 (vt here resolve (ttype t4) attrs (B0 :: bst) i3 [] (g_keep g) false (g_flag g) a (Some TQuoteVerseBlock) d4)
        = parse_delimited_leaf_block t5 (vt here resolve (ttype t4) attrs (B0 :: bst) i3 [] (g_keep g) false (g_flag g) a (Some TQuoteVerseBlock) d4)) as ->.
      { destruct fuel; cbn [token_into]; unfold vt, pre_dispatch; pst; rewrite (word_type _ _ W5); pst; unfold dispatch; rewrite (word_type _ _ W5); reflexivity. }
      unfold parse_delimited_leaf_block, vt. pst. unfold add_inlines_to_block_stack, push_block_to_stack. pst.
      destruct i3 as [|i i3]; [cbn [bind]; pst; now rewrite Hc|]. unfold B0. cbn [takes_inlines b_head]. pst. rewrite ArticleProofs.push_inlines_leaf. cbn [bind]. pst. cbn [add_locations bind]. pst. now rewrite Hc. }
    destruct (soft_newline w fuel here resolve t7 None (ttype t5) attrs (B :: bst) [] [] (g_keep g) false false (g_flag g) d4 a W7) as (d & E7 & _).
    { now rewrite (word_type _ _ W5). }
    eexists. split; [|apply (short_idle TNewLineChar attrs (B :: bst) (g_keep g) false (g_flag g) d a eq_refl (held_drops _ Hc)); split; reflexivity].
    rewrite (loop_cons w fuel _ _ _ _ E1). rewrite (loop_cons w fuel _ _ _ _ E2). apply (loop_join w fuel _ _ _ _ _ E3).
    rewrite (loop_cons w fuel _ _ _ _ E4). rewrite (loop_cons w fuel _ _ _ _ E5). exact E7.
  Qed.
  Lemma short_comments h g p l ts : at_rest (KTop h) g p -> closes TCommentBlock l = true ->
    are_words (leaf_words (Commented l)) ts -> exists q, loop ts p = Ok q /\ short_state q.
  Proof.
    intros (lst & attrs & bst & ol & force & a & -> & L & A & R & Hc & F & N1 & N2) Fok W. assert (ol = []) as -> by now destruct R.
    cbn [leaf_words] in W. apply words_cons in W as (t1 & t2 & -> & W1 & W). apply words_split in W as (t3 & t4 & -> & W3 & W).
    apply words_cons in W as (t5 & t6 & -> & W5 & W). apply words_cons in W as (t7 & t8 & -> & W7 & W). inversion W. subst t8.
    unfold comment_word in *. assert (fence_type TCommentBlock) as Ft by (cbn; tauto).
    destruct (open_fence w fuel here resolve TCommentBlock _ t1 None lst attrs bst [] (g_keep g) force (g_flag g) None a Hc Ft W1) as (m1 & E1 & _).
    match type of E1 with _ = Ok (vt here resolve _ _ (?b :: _) _ _ _ _ _ _ _ _) => set (B := b) in * end.
    destruct (body_loop w fuel here resolve TCommentBlock (g_env g) l Fok t3 (ttype t1) attrs (B :: bst) [] [] (g_keep g) false (g_flag g) a false None W3 eq_refl A Logic.I) as (l3 & i3 & d3 & E3 & B3).
    assert (token_into w fuel t5 (vt here resolve l3 attrs (B :: bst) i3 [] (g_keep g) false (g_flag g) a (Some TCommentBlock) d3)
      = Ok (st l3 attrs bst [] [] (g_keep g) false true (g_flag g) d3 a)) as E5.
    { rewrite (close_token w fuel here resolve TCommentBlock (bs "////")) by assumption. unfold dispatch. rewrite (word_type _ _ W5). reflexivity. }
    destruct (soft_newline w fuel here resolve t7 None (ttype t5) attrs bst [] [] (g_keep g) false true (g_flag g) d3 a W7) as (d & E7 & _).
    { now rewrite (word_type _ _ W5). }
    eexists. split; [|apply (short_idle TNewLineChar attrs bst (g_keep g) true (g_flag g) d a eq_refl (held_drops _ Hc)); exact (room_no_item _ _ _ _ _ R N1)].
    rewrite (loop_cons w fuel _ _ _ _ E1). apply (loop_join w fuel _ _ _ _ _ E3). rewrite (loop_cons w fuel _ _ _ _ E5). exact E7.
  Qed.
  Lemma short_comment h g p s ts : at_rest (KTop h) g p -> are_words (leaf_words (Aside s)) ts -> exists q, loop ts p = Ok q /\ short_state q.
  Proof.
    intros (lst & attrs & bst & ol & force & a & -> & L & A & R & Hc & F & N1 & N2) W. assert (ol = []) as -> by now destruct R.
    cbn [leaf_words] in W. apply words_cons in W as (t1 & t2 & -> & W1 & W). apply words_cons in W as (t3 & t4 & -> & W3 & W). inversion W. subst t4.
    cbn [app parse_loop]. rewrite (go w fuel here resolve (TComment, s)) by (assumption || discriminate). unfold dispatch. rewrite (word_type _ _ W1). cbn [fst bind].
    rewrite set_last_st.
    destruct (soft_newline w fuel here resolve t3 None TComment attrs bst [] [] (g_keep g) false force (g_flag g) None a W3 eq_refl) as (d & E3 & _).
    eexists. split; [exact E3|]. apply (short_idle TNewLineChar attrs bst (g_keep g) force (g_flag g) d a eq_refl (held_drops _ Hc)). exact (room_no_item _ _ _ _ _ R N1).
  Qed.
  Lemma short_setting h g p name value ts : at_rest (KTop h) g p -> simple_line (Entry name value) ->
    are_words (leaf_words (Setting name value)) ts -> exists q, loop ts p = Ok q /\ short_state q.
  Proof.
    intros (lst & attrs & bst & ol & force & a & -> & L & A & R & Hc & F & N1 & N2) H W. assert (ol = []) as -> by now destruct R.
    cbn [leaf_words] in W. apply words_cons in W as (t1 & t2 & -> & W1 & W). apply words_cons in W as (t3 & t4 & -> & W3 & W). inversion W. subst t4.
    cbn [app]. pose proof (entry_token w fuel here resolve name value t1 None lst attrs bst [] [] (g_keep g) false force (g_flag g) None a H W1) as E1.
    rewrite (loop_cons w fuel _ _ _ _ E1), (word_type _ _ W1).
    destruct (soft_newline w fuel here resolve t3 None TAttribute (minsert name value attrs) bst [] [] (g_keep g) false force (g_flag g) None a W3 eq_refl) as (d & E3 & _).
    eexists. split; [exact E3|]. apply (short_idle TNewLineChar _ bst (g_keep g) force (g_flag g) d a eq_refl (held_drops _ Hc)). exact (room_no_item _ _ _ _ _ R N1).
  Qed.

  (** *** Lists, from their first items *)
  Lemma short_start h g c wait p first rest ts : primed (KTop h) g (dress c) wait p -> items_ok ((first, []) :: rest) g ->
    match fst first with Callout _ => c = [] | _ => True end ->
    Forall (fun x => bullet_variant (fst (fst x)) = bullet_variant (fst first)) rest -> tail_fits rest = true ->
    are_words (List.concat (map item_words ((first, []) :: rest))) ts ->
    exists q, loop ts p = Ok q /\ short_state q.
  Proof.
    intros (m & lst & attrs & bst & ol & force & a & dang & -> & M & D & L & A & R & Hc & F & N1 & N2) (Hi & Hr) Hco Hv Tf W. assert (ol = []) as -> by now destruct R.
    destruct first as [bu i]. cbn [fst snd] in *. destruct Hi as (Hb & Hf & _ & _). cbn [fst snd] in *. cbn [map List.concat] in W. unfold item_words at 1 in W. cbn [fst snd map List.concat app] in W.
    apply words_cons in W as (tk & t1 & -> & Wk & W). apply words_split in W as (t2 & t4 & -> & W2 & W4).
    apply words_split in W2 as (t8 & t9 & -> & W8 & W9). apply words_cons in W9 as (tn & t10 & -> & Wn & W10). inversion W10. subst t10.
    set (it := Blk (HListItem (bullet_mark bu) []) None [] (token_locations tk)).
    assert (exists ls, bullet_item bu tk (stm m lst attrs bst [] [] (g_keep g) false force (g_flag g) dang a)
            = Ok (st lst attrs (it :: ls :: bst) [] [] (g_keep g) false force (g_flag g) None a)
            /\ unplaced ls = Blk (HList (bullet_variant bu)) (list_meta bu (dress c)) [] []) as (ls & E & Els).
    { pose proof (room_no_item _ _ _ _ _ R N1) as H. unfold bullet_item. rewrite <- M.
      assert (match bst with [] => false | b :: _ => is_ordered_list_item b end = false) as No by (destruct bst as [|[[] ? ? ?] ?]; try reflexivity; destruct H; discriminate).
      assert (match bst with [] => false | b :: _ => is_unordered_list_item b end = false) as Nu by (destruct bst as [|[[] ? ? ?] ?]; try reflexivity; destruct H; discriminate).
      destruct bu as [| |d]; cbn [bullet_variant list_meta]; unfold parse_ordered_list_item, parse_unordered_list_item, new_list_item; rewrite (bullet_trim _ tk Wk Hb); try rewrite (word_type _ _ Wk); cst.
      - rewrite No. replace (tt_eqb (fst (bullet_word Dot)) TCodeCalloutListItem) with false by reflexivity. unfold push_block_to_stack, new_list. pst. rewrite (held_drops _ Hc). destruct m as [m|]; cbn [option_map bind]; pst; [|rewrite (held_drops _ Hc); eexists; split; reflexivity].
        match goal with |- context [add_metadata (Blk ?h None ?k ?lo) m] => destruct (meta_added h m k lo eq_refl) as (x & -> & Ex) end. pst. rewrite (held_drops _ Hc).
        exists x. split; [reflexivity|exact Ex].
      - rewrite Nu. unfold push_block_to_stack, new_list. pst. rewrite (held_drops _ Hc). destruct m as [m|]; cbn [option_map bind]; pst; [|rewrite (held_drops _ Hc); eexists; split; reflexivity].
        match goal with |- context [add_metadata (Blk ?h None ?k ?lo) m] => destruct (meta_added h m k lo eq_refl) as (x & -> & Ex) end. pst. rewrite (held_drops _ Hc).
        exists x. split; [reflexivity|exact Ex].
      - rewrite No. subst c. cbn in M. destruct m; [discriminate|]. cbn [tt_eqb fst bullet_word].
        assert (match bst with [] => false | b :: _ => is_source_block b end = false) as Ns.
        { destruct R as (_ & [(_ & -> & _)|(_ & s & ? & ? & ? & ? & ? & ? & -> & Es & _)] & _); [reflexivity|]. destruct s as [[] ? ? ?]; try discriminate Es. reflexivity. }
        replace (tt_eqb TCodeCalloutListItem TCodeCalloutListItem) with true by reflexivity.
        destruct bst as [|b1 bst]; [|rewrite Ns]; cbn [bind]; unfold push_block_to_stack; pst; rewrite (held_drops _ Hc); pst; rewrite (held_drops _ Hc); eexists; split; reflexivity. }
    destruct (line_loop0 w fuel here resolve i t8 tn (ttype tk) attrs (g_env g) (it :: ls :: bst) [] (g_keep g) false force (g_flag g) a A W8 Hf Wn) as (i1 & d1 & E1 & B1 & Ni).
    destruct (short_threads rest t4 (flag_page (macros i) g) _ _ [] ls bu (page_text g i) [] it attrs bst i1 (force || styled i) d1 a W4 Hr Hv eq_refl Els) as (q & E2 & Sq); auto.
    { left. auto. }
    { exact (top_parents _ _ _ _ _ R). }
    { exact (held_drops _ Hc). }
    exists q. split; [|exact Sq]. rewrite (loop_cons w fuel _ _ _ _ (eq_trans (bullet_go w fuel here resolve bu tk _ _ _ _ _ _ _ _ _ _ _ _ Wk) E)).
    exact (loop_join w fuel _ _ _ _ _ E1 E2).
  Qed.
  Definition point_bullet (o : bool) : bullet := if o then Dot else Star.
  Lemma points_items o l : leaf_words (Points o l) = List.concat (map item_words (map (fun i => (point_bullet o, i, [])) l)).
  Proof. cbn [leaf_words]. rewrite map_map. f_equal. apply map_ext. intros i. unfold item_words. cbn [fst snd map List.concat]. rewrite app_nil_r. now destruct o. Qed.
  Lemma points_ok o l : forall g, forallb (text_fits (g_keep g) false) l = true -> items_ok (map (fun i => (point_bullet o, i, [])) l) g.
  Proof.
    induction l as [|i l IH]; intros g H; [exact Logic.I|]. cbn [forallb] in H. apply andb_prop in H as [H1 H2]. cbn [map items_ok]. split.
    - unfold item_ok. cbn [fst snd]. split; [now destruct o|]. split; [assumption|]. split; [congruence|]. exact Logic.I.
    - apply IH. exact H2.
  Qed.
  Lemma short_points h g c wait p o l ts : primed (KTop h) g (dress c) wait p -> forallb (text_fits (g_keep g) false) l = true -> lasts (Part (Points o l)) = true ->
    are_words (leaf_words (Points o l)) ts -> exists q, loop ts p = Ok q /\ short_state q.
  Proof.
    intros P H Hs W. rewrite points_items in W. apply (points_ok o) in H. cbn [lasts] in Hs. apply andb_prop in Hs as [Hl Hs].
    destruct l as [|i l]; [discriminate|]. cbn [map] in W, H.
    apply (short_start h g c wait p (point_bullet o, i) (map (fun i => (point_bullet o, i, [])) l) ts P H); auto.
    - now destruct o.
    - apply Forall_forall. intros x Hx. apply in_map_iff in Hx as (y & <- & _). reflexivity.
    - unfold tail_fits. destruct l as [|j l]; [discriminate|]. rewrite last_cons in Hs. revert Hs. clear.
      destruct (@exists_last _ (j :: l)) as (l' & z & ->); [discriminate|]. rewrite last_last, map_app, rev_app_distr. cbn. auto.
  Qed.

  (** *** Headings, admonitions, breaks, pictures, delimited blocks, tables *)
  Lemma short_heading h g c p n t ts : primed (KTop h) g (dress c) (waits (g_keep g) c) p -> piece_ok g c (Head n t) -> clear 0 (g_flow g) = true ->
    are_words (head_word n :: text_words t ++ [newline]) ts -> exists q, loop ts p = Ok q /\ short_state q.
  Proof.
    intros (m & lst & attrs & bst & ol & force & a & dang & -> & M & D & L & A & R & Hc & F & N1 & N2) (_ & Hn & Hf & Hs) Cl W.
    apply words_cons in W as (tk & t1 & -> & Wk & W).
    apply words_split in W as (t2 & t3 & -> & W2 & W). apply words_cons in W as (t4 & t5 & -> & W4 & W). inversion W. subst t5.
    assert (exists me a', token_into w fuel tk (stm m lst attrs bst [] ol (g_keep g) false force (g_flag g) dang a)
        = Ok (st lst attrs [Blk (HSection [] [] n) me [] [first_location tk]] [] [] (g_keep g) true false (g_flag g) None a')
        /\ option_map unplaced_meta me = worn (dress c) /\ map unplaced (a_blocks a') = outline (g_flow g) /\ heading_of a' = h) as (me & a' & E & Eme & Ea & Eh).
    { rewrite (go w fuel here resolve (head_word n)); [|assumption|destruct n as [|[|[|[|[|n]]]]]; try lia; discriminate..].
      assert (forall p, dispatch w tk p = parse_section_headings w tk p) as ->.
      { intros p. unfold dispatch. rewrite (word_type _ _ Wk). destruct n as [|[|[|[|[|n]]]]]; try lia; reflexivity. }
      unfold parse_section_headings. rewrite (heading_level w here resolve n) by assumption. cbn [bind]. rewrite <- M. unfold new_section.
      destruct R as (-> & H & Ht). pose proof H as H0.
      destruct H as [(Eo & -> & Eb)|(Eo & s & i & tl & lv & sm & pre & leaves & -> & Es & _)].
      - cst. destruct (push_worn here resolve (HSection [] [] n) [] [first_location tk] None attrs [] None [] (g_keep g) a lst [] m None false force (g_flag g) dang Hc eq_refl)
          as (me & -> & Eme). exists me, a. split; [reflexivity|]. auto.
      - cst. assert (is_section s = true) as -> by (rewrite <- is_section_unplaced, Es; reflexivity).
        rewrite Eo in H0.
        destruct (finish_section s (a_blocks a) (g_flow g) a H0 eq_refl N1 Cl) as (a' & E & Ea & Eh).
        unfold add_last_to_block_stack_or_graph. pst. unfold p_asg_push. pst. rewrite E. pst.
        match goal with |- context [push_block_to_stack _ ?p] =>
          change p with (tstate here resolve None attrs [] None [] (g_keep g) a' lst [] m None false false force (g_flag g) dang) end.
        destruct (push_worn here resolve (HSection [] [] n) [] [first_location tk] None attrs [] None [] (g_keep g) a' lst [] m None false force (g_flag g) dang Hc eq_refl)
          as (me & -> & Eme).
        exists me, a'. split; [reflexivity|]. split; [exact Eme|]. split; [exact Ea|]. unfold heading_of in *. now rewrite Eh. }
    set (sec := Blk (HSection [] [] n) me [] [first_location tk]) in *.
    rewrite (loop_cons w fuel _ _ _ _ E).
    destruct (line_loop0 w fuel here resolve t t2 t4 (ttype tk) attrs (g_env g) [sec] [] (g_keep g) true false (g_flag g) a' A W2 Hf W4) as (i1 & d1 & E1 & B1 & Ni).
    rewrite Hs in E1. cbn [orb] in E1.
    eexists. split; [exact E1|].
    exists None, TNewLineChar, attrs, [sec], i1, (g_keep g), false, (g_flag g || macros t), d1, a'. split; [reflexivity|]. split; [reflexivity|]. split; [exact (held_drops _ (held_top _ _ _ _ _ R Hc))|].
    left. eexists. split; [split; reflexivity|]. intros d. unfold add_inlines_to_block_stack. cst. destruct i1 as [|i i1]; [congruence|]. unfold sec. cbn [takes_inlines b_head]. pst.
    rewrite ArticleProofs.push_inlines_section. reflexivity.
  Qed.
  Lemma short_rule h g p v ts : at_rest (KTop h) g p -> are_words [rule_word v; newline] ts -> exists q, loop ts p = Ok q /\ short_state q.
  Proof.
    intros (lst & attrs & bst & ol & force & a & -> & L & A & R & Hc & F & N1 & N2) W.
    apply words_cons in W as (tk & t1 & -> & Wk & W). apply words_cons in W as (t2 & t3 & -> & W2 & W). inversion W. subst t3. assert (ol = []) as -> by now destruct R.
    destruct (deliver here resolve h lst attrs (new_break v (token_locations tk)) bst [] (g_keep g) false force (g_flag g) None a g R) as (bst' & a' & E & _ & R').
    { repeat split. }
    assert (token_into w fuel tk (st lst attrs bst [] [] (g_keep g) false force (g_flag g) None a)
            = Ok (st lst attrs bst' [] [] (g_keep g) false force (g_flag g) None a')) as E1.
    { rewrite (go w fuel here resolve (rule_word v)); [|assumption|destruct v; discriminate..].
      rewrite <- E. unfold dispatch. rewrite (word_type _ _ Wk). now destruct v. }
    destruct (soft_newline w fuel here resolve t2 None (ttype tk) attrs bst' [] [] (g_keep g) false force (g_flag g) None a' W2) as (d & E2 & _).
    { rewrite (word_type _ _ Wk). now destruct v. }
    eexists. split; [|apply (short_idle TNewLineChar attrs bst' (g_keep g) force (g_flag g) d a' eq_refl (held_drops _ Hc))].
    - rewrite (loop_cons w fuel _ _ _ _ E1). exact E2.
    - apply (room_no_item _ _ _ _ _ R'). apply flat_app. split; [assumption|]. apply Forall_cons; [|constructor]. apply sound_settled. repeat split.
  Qed.
  Lemma short_alert h g c p v l ts : primed (KTop h) g (dress c) (waits (g_keep g) c) p -> text_fits (g_keep g) (waits (g_keep g) c) l = true ->
    are_words (alert_word v :: text_words l ++ [newline]) ts -> exists q, loop ts p = Ok q /\ short_state q.
  Proof.
    intros (m & lst & attrs & bst & ol & force & a & dang & -> & M & D & L & A & R & Hc & F & N1 & N2) Hf W.
    apply words_cons in W as (tk & t1 & -> & Wk & W).
    apply words_split in W as (t2 & t3 & -> & W2 & W). apply words_cons in W as (t4 & t5 & -> & W4 & W).
    inversion W. subst t5. assert (ol = []) as -> by now destruct R.
    set (ad := Blk (HParent PAdmonition (Some v) (label v) []) None [] (token_locations tk)).
    assert (token_into w fuel tk (stm m lst attrs bst [] [] (g_keep g) false force (g_flag g) dang a)
            = Ok (stm m lst attrs (ad :: bst) [] [] (g_keep g) false force true dang a)) as E0.
    { rewrite (go w fuel here resolve (alert_word v)); [|assumption|destruct v; discriminate..].
      assert (token_text tk = label v) as T by (pose proof (word_text _ _ Wk) as T; destruct v; exact T).
      unfold dispatch. rewrite (word_type _ _ Wk). unfold ad, parse_admonition_para_syntax, parent_from_token.
      destruct v; cbn [fst alert_word]; rewrite (word_type _ _ Wk), T; reflexivity. }
    rewrite (loop_cons w fuel _ _ _ _ E0).
    destruct (line_loop w fuel here resolve l t2 t4 m (ttype tk) attrs (g_env g) (ad :: bst) [] (g_keep g) false force true dang (waits (g_keep g) c) a A W2 Hf D W4) as (i1 & m1 & d1 & E1 & B1 & M1 & Ni & Lo).
    cbn [orb] in E1.
    eexists. split; [exact E1|]. pose proof (held_drops _ Hc) as Kd.
    destruct (fresh_para m1 TNewLineChar attrs (ad :: bst) i1 _ (g_keep g) (force || styled l) true a Kd B1 Ni Lo) as (bst1 & E2); [now right|].
    exists m1, TNewLineChar, attrs, (ad :: bst), i1, (g_keep g), (force || styled l), true, d1, a. split; [reflexivity|]. split; [reflexivity|]. split; [assumption|].
    left. exists bst1. split; [split; reflexivity|exact E2].
  Qed.
  Lemma short_picture h g c p title target alt ts : primed (KTop h) g (dress c) (waits (g_keep g) c) p -> piece_ok g c (Picture title target alt) ->
    found w fuel here resolve (Picture title target alt) ->
    are_words (title_words title ++ [(TBlockImageMacro, bs "image::" ++ target ++ "[" :: alt ++ ["]"]); newline]) ts ->
    exists q, loop ts p = Ok q /\ short_state q.
  Proof.
    intros (m & lst & attrs & bst & ol & force & a & dang & -> & M & D & L & A & R & Hc & F & N1 & N2) (_ & Hl & Ha & Ht & Hs) Hcn W.
    apply words_split in W as (t1 & t2 & -> & W1 & W). apply words_cons in W as (tk & t3 & -> & Wk & W).
    apply words_cons in W as (t4 & t5 & -> & W4 & W). inversion W. subst t5.
    assert (ol = []) as -> by now destruct R.
    destruct (label_step w fuel here resolve title g t1 m lst attrs bst force dang a Hl W1 A) as (m1 & l1 & ti & more & d1 & E1 & Et & Em). rewrite M in Et, Em.
    set (cap := match ti with Some x => x | None => [] end) in *.
    set (B := Blk (HMacro target cap) (match m1 with Some m => Some (macro_meta (alt_meta alt) m) | None => alt_meta alt end) [] (token_locations tk)).
    destruct (deliver here resolve h l1 attrs B bst [] (g_keep g) false (force || more) (g_flag g || title_macros title) d1 a (flag_page (title_macros title) g) R) as (bst' & a' & E2 & _ & R').
    { repeat split. }
    assert (token_into w fuel tk (tt here resolve m1 l1 attrs bst ti (g_keep g) (force || more) (g_flag g || title_macros title) d1 a)
      = Ok (st l1 attrs bst' [] [] (g_keep g) false (force || more) (g_flag g || title_macros title) d1 a')) as E3.
    { unfold tt. rewrite (step w fuel here resolve None attrs bst ti [] (g_keep g) a (TBlockImageMacro, bs "image::" ++ target ++ "[" :: alt ++ ["]"])); [|assumption|now left|discriminate|discriminate].
      unfold dispatch. rewrite (word_type _ _ Wk). cbn [fst]. unfold parse_block_image.
      rewrite (block_image_token w tk target alt); [|exact (word_text _ _ Wk)|exact (word_type _ _ Wk)|exact Hs|assumption|assumption].
      cbn [bind].
      match goal with |- context [check_target w ?n target ?p] => assert (check_target w n target p = Ok Datatypes.tt) as -> end.
      { unfold check_target, resolve_target. pst. cbn [found] in Hcn. destruct resolve; [|reflexivity].
        destruct (w_canon w (resolve_path (fst here) (snd here) target)) eqn:Ec; [reflexivity|now destruct (Hcn eq_refl)]. }
      cbn [bind]. pst. rewrite <- E2. unfold B, cap. destruct m1; pst; destruct ti; reflexivity. }
    destruct (soft_newline w fuel here resolve t4 None (ttype tk) attrs bst' [] [] (g_keep g) false (force || more) (g_flag g || title_macros title) d1 a' W4) as (d & E4 & _).
    { now rewrite (word_type _ _ Wk). }
    eexists. split; [|apply (short_idle TNewLineChar attrs bst' (g_keep g) (force || more) (g_flag g || title_macros title) d a' eq_refl (held_drops _ Hc))].
    - apply (loop_join w fuel _ _ _ _ _ E1). rewrite (loop_cons w fuel _ _ _ _ E3). exact E4.
    - apply (room_no_item _ _ _ _ _ R'). apply flat_app. split; [assumption|]. apply Forall_cons; [|constructor]. apply sound_settled. repeat split.
  Qed.
  Lemma short_box h g c p title b x last ts : primed (KTop h) g (dress c) (waits (g_keep g) c) p -> piece_ok g c (Boxed title b x last) ->
    are_words (box_words title b x last ++ [newline]) ts -> exists q, loop ts p = Ok q /\ short_state q.
  Proof.
    intros (m & lst & attrs & bst & ol & force & a & dang0 & -> & M & D & L & A & R & Hc & F & N1 & N2) (_ & Hl & Hb & Hq) W. assert (ol = []) as -> by now destruct R.
    rewrite box_split in W. apply words_split in W as (t1 & t2 & -> & W1 & W). apply words_split in W as (t3 & t4 & -> & W3 & W).
    apply words_cons in W as (tc & t10 & -> & Wc & W). apply words_cons in W as (t11 & t12 & -> & W11 & W). inversion W. subst t12. set (h0 := inside (flag_page (title_macros title) g)) in *.
    destruct (box_start w fuel here resolve title b g m lst attrs bst force dang0 a t1 Hl A (top_parents _ _ _ _ _ R) F) as (n & cap & me & loc & p1 & E1 & R1 & Nl & Et & Eme); auto.
    { intros X. specialize (Hq X). rewrite <- M in Hq. destruct m; auto. }
    rewrite M in Et, Eme. fold h0 in R1.
    destruct (box_body w fuel here resolve b n _ cap me loc bst a h0 p1 x last t3 tc R1 eq_refl Nl Hb W3 Wc) as (lst2 & attrs2 & force2 & kids & loc' & E2 & Ek & A2 & Tk).
    set (g2 := box_page x last h0) in *. set (B := box_block b cap me kids loc') in *.
    assert (drops_breaks (g_keep g2) = false) as Kd by (unfold g2; rewrite box_drops; exact (held_drops _ Hc)).
    assert (loop (t3 ++ [tc]) p1 = Ok (st (ttype tc) attrs2 (B :: bst) [] [] (g_keep g2) false force2 (g_flag g2) None a)) as E3.
    { rewrite (E2 (st lst2 attrs2 (B :: bst) [] [] (g_keep g2) false force2 (g_flag g2) None a)).
      - f_equal. cst. unfold tstate. cbn -[g2]. now rewrite Kd.
      - unfold push_block_to_stack. cst. now rewrite Kd. }
    destruct (soft_newline w fuel here resolve t11 None (ttype tc) attrs2 (B :: bst) [] [] (g_keep g2) false force2 (g_flag g2) None a W11) as (d2 & E8 & _).
    { rewrite (word_type _ _ Wc). now destruct b. }
    eexists. split; [|apply (short_idle TNewLineChar attrs2 (B :: bst) (g_keep g2) force2 (g_flag g2) d2 a eq_refl Kd); split; reflexivity].
    apply (loop_join w fuel _ _ _ _ _ E1). change (t3 ++ tc :: [t11]) with (t3 ++ [tc] ++ [t11]). rewrite app_assoc. exact (loop_join w fuel _ _ _ _ _ E3 E8).
  Qed.
  Lemma short_table h g c p title gap rows ts : found w fuel here resolve (Grid title gap rows) -> lined (snd here) ts ->
    primed (KTop h) g (dress c) (waits (g_keep g) c) p -> piece_ok g c (Grid title gap rows) ->
    are_words (title_words title ++ grid_word :: newline :: gap_words gap ++ List.concat (map row_words rows) ++ [grid_word; newline]) ts ->
    exists q, loop ts p = Ok q /\ short_state q.
  Proof.
    intros [Nf Sc] (n & Ln) (m & lst & attrs & bst & ol & force & a & dang0 & -> & M & D & L & A & R & Hc & F & N1 & N2) (_ & Hl & Hg) W. assert (ol = []) as -> by now destruct R.
    apply words_split in W as (t1 & t2 & -> & W1 & W). apply words_cons in W as (tk & t3 & -> & Wk & W). apply words_cons in W as (t4 & t5 & -> & W4 & W).
    apply words_split in W as (t6 & t7 & -> & W6 & W). apply words_split in W as (t8 & t9 & -> & W8 & W).
    apply words_cons in W as (tc & t10 & -> & Wc & W). apply words_cons in W as (t11 & t12 & -> & W11 & W). inversion W. subst t12.
    apply linear_app in Ln as [_ Ln]. cbn [linear] in Ln. destruct Ln as [[Lk Fk] [_ Ln]].
    assert (forall k, next_line k tk = k) as Ek by (intros k; unfold next_line; now rewrite (word_type _ _ Wk)).
    assert (forall k, next_line k t4 = S k) as E4 by (intros k; unfold next_line; now rewrite (word_type _ _ W4)).
    rewrite Ek, E4, <- Lk in Ln. apply linear_app in Ln as [Ln6 Ln]. apply linear_app in Ln as [Ln8 Ln]. cbn [linear] in Ln. destruct Ln as [[Lc Fc] _].
    destruct (label_step w fuel here resolve title g t1 m lst attrs bst force dang0 a Hl W1 A) as (m1 & l1 & ti & more & d1 & E1 & Et & Em).
    set (cap := match ti with Some x => x | None => [] end) in *.
    destruct (open_table w fuel here resolve tk m1 l1 attrs bst ti (g_keep g) (force || more) (g_flag g || title_macros title) d1 a Wk (top_parents _ _ _ _ _ R)) as (me & E2 & Eme).
    rewrite Em, M in Eme. fold cap in E2. set (P := table_block cap me [] (token_locations tk)) in *.
    destruct (soft_newline w fuel here resolve t4 None (ttype tk) attrs (P :: bst) [] [tline tk] (g_keep g) false (force || more) (g_flag g || title_macros title) None a W4) as (d & E3 & _).
    { now rewrite (word_type _ _ Wk). }
    assert (exists f6 d6, loop t6 (st TNewLineChar attrs (P :: bst) [] [tline tk] (g_keep g) false (force || more) (g_flag g || title_macros title) d a)
      = Ok (st TNewLineChar attrs (P :: bst) [] [tline tk] (g_keep g) false f6 (g_flag g || title_macros title) d6 a)
      /\ fold_left next_line t6 (S (tline tk)) = S (tline tk) + (if gap then 1 else 0)) as (f6 & d6 & E6 & L6).
    { apply gap_step; auto. }
    rewrite L6 in Ln8, Lc.
    unfold grid_ok in Hg. apply andb_prop in Hg as [Hg H4]. apply andb_prop in Hg as [Hg H3]. apply andb_prop in Hg as [H1 H2].
    assert (exists acc f8 d8, loop t8 (st TNewLineChar attrs (P :: bst) [] [tline tk] (g_keep g) false f6 (g_flag g || title_macros title) d6 a)
      = Ok (st TNewLineChar attrs (acc ++ P :: bst) [] [tline tk] (g_keep g) false f8 (g_flag g || title_macros title || cell_macros (grid_cells rows)) d8 a)
      /\ map unplaced (rev acc) = map (cell_block (g_keep g) (g_env g)) (grid_cells rows) /\ Forall2 (cell_on (snd here)) (row_lines (S (tline tk) + (if gap then 1 else 0)) rows) (rev acc)) as (acc & f8 & d8 & E8 & B8 & O8).
    { destruct Nf as [Nf|Nf].
      - destruct rows as [|r rows]; [|cbn [forallb] in H1; apply andb_prop in H1 as [H1 _]; unfold grid_cells in Nf; cbn [map List.concat] in Nf; destruct (row_cells r); discriminate].
        inversion W8. subst t8. exists [], f6, d6. cbn [grid_cells map List.concat cell_macros existsb app]. rewrite orb_false_r. split; [reflexivity|]. split; [reflexivity|constructor].
      - assert (exists f, fuel = S f) as (f & Ef) by (destruct fuel as [|f]; [lia|now exists f]). rewrite Ef. apply (rows_step w f here resolve rows); auto. }
    assert (Forall (fun b => is_cell b = true) acc) as Fcell.
    { rewrite <- (rev_involutive acc). apply Forall_rev. apply Forall_forall. intros b Hb. rewrite <- is_cell_unplaced.
      apply (in_map unplaced) in Hb. rewrite B8 in Hb. apply in_map_iff in Hb as (x & <- & _). reflexivity. }
    assert (tline tk <= tline tc) as Lt.
    { rewrite Lc. assert (forall l k, k <= fold_left next_line l k) as H; [|etransitivity; [|apply H]; lia].
      induction l as [|x l IH]; intros k; [reflexivity|]. cbn. etransitivity; [|apply IH]. unfold next_line. destruct (ttype x); lia. }
    rewrite <- Eme in H3, H4.
    destruct (close_table w fuel here resolve tc cap me acc bst tk gap rows TNewLineChar attrs (g_keep g) f8 (g_flag g || title_macros title || cell_macros (grid_cells rows)) d8 a Wc Fk Fc Lt Fcell O8 H1 H3 H4)
      as (loc' & me' & E9 & Em'). fold P in E9.
    set (B := table_block cap me' (rev acc) loc') in *. set (close := g_flag g || title_macros title || cell_macros (grid_cells rows)) in *.
    pose proof (held_drops _ Hc) as Kd.
    assert (loop [tc] (st TNewLineChar attrs (acc ++ P :: bst) [] [tline tk] (g_keep g) false f8 close d8 a) = Ok (st TTable attrs (B :: bst) [] [] (g_keep g) false f8 close None a)) as E10.
    { cbn [parse_loop]. rewrite E9. unfold push_block_to_stack. cst. rewrite Kd. pst. cst. rewrite (word_type _ _ Wc). unfold tstate. cbn. now rewrite Kd. }
    destruct (soft_newline w fuel here resolve t11 None TTable attrs (B :: bst) [] [] (g_keep g) false f8 close None a W11 eq_refl) as (d2 & E11 & _).
    eexists. split; [|apply (short_idle TNewLineChar attrs (B :: bst) (g_keep g) f8 close d2 a eq_refl Kd); split; reflexivity].
    apply (loop_join w fuel _ _ _ _ _ E1). rewrite (loop_cons w fuel _ _ _ _ E2). apply (loop_join w fuel [t4] _ _ _ _ E3). apply (loop_join w fuel _ _ _ _ _ E6). apply (loop_join w fuel _ _ _ _ _ E8).
    exact (loop_join w fuel [tc] [t11] _ _ _ E10 E11).
  Qed.

  (** ** The last piece *)
  Definition short_words_of (x : piece) : list word :=
    match x with
    | Part x => leaf_words x
    | Threaded first rest => List.concat (map item_words ((first, []) :: rest))
    | Head n t => head_word n :: text_words t ++ [newline]
    | Alert v l => alert_word v :: text_words l ++ [newline]
    | Rule v => [rule_word v; newline]
    | Picture title target alt => title_words title ++ [(TBlockImageMacro, bs "image::" ++ target ++ "[" :: alt ++ ["]"]); newline]
    | Boxed title b l last => box_words title b l last ++ [newline]
    | Grid title gap rows => title_words title ++ grid_word :: newline :: gap_words gap ++ List.concat (map row_words rows) ++ [grid_word; newline]
    end.
  Lemma short_words_piece x : piece_words x = short_words_of x ++ [newline].
  Proof. destruct x; cbn [piece_words short_words_of map List.concat]; repeat (cbn [app]; rewrite <- app_assoc); reflexivity. Qed.
  Lemma short_piece h g p c x ts : at_rest (KTop h) g p -> piece_ok g c x -> found w fuel here resolve x -> lasts x = true -> are_words (decor_words c ++ short_words_of x) ts ->
    lined (snd here) ts -> clear 0 (g_flow g) = true ->
    exists q, loop ts p = Ok q /\ short_state q.
  Proof.
    intros R H Hf Hs W Ln C. apply words_split in W as (t0 & t1 & -> & W0 & W1). apply lined_app in Ln as [_ Ln].
    destruct (decors_step w fuel here resolve (KTop h) g p c t0 R (proj1 H) W0) as (p0 & E0 & P0).
    assert (exists q, loop t1 p0 = Ok q /\ short_state q) as (q & E1 & Sq).
    2:{ exists q. split; [|exact Sq]. exact (loop_join w fuel _ _ _ _ _ E0 E1). }
    destruct x as [x|first rest|n t|v l|v|title target alt|title b l last|title gap rows]; cbn [short_words_of] in W1.
    - destruct H as (Hc & H & Hb). assert (bare_leaf x = true -> at_rest (KTop h) g p0) as R0.
      { intros X. rewrite (Hb X) in P0. rewrite waits_nil in P0. now apply primed_rest. }
      destruct x as [l|o l|l|v l|l|l|s|name value|].
      + cbn [leaf_words] in W1. apply words_split in W1 as (t4 & t5 & -> & W4 & W5). apply words_cons in W5 as (t6 & t7 & -> & W6 & W7). inversion W7. subst t7.
        exact (short_text h g _ _ p0 l t4 t6 P0 H W4 W6).
      + exact (short_points h g c _ p0 o l t1 P0 (proj2 H) Hs W1).
      + destruct l as [|[[te below] x] r]; [destruct H|]. destruct H as (H1 & H2 & H3 & H4 & H5 & H6). rewrite H2 in P0.
        refine (short_dlist h g (dress c) p0 te below x r t1 P0 H1 H3 H4 H5 H6 W1 _).
        cbn [lasts] in Hs. apply negb_true_iff in Hs. rewrite last_cons in Hs. rewrite <- Hs. f_equal. clear. revert te below x. induction r as [|[[t b] y] r IH]; intros te below x; [reflexivity|].
        cbn [map snd]. rewrite !last_cons. apply IH.
      + exact (short_fenced h g _ _ p0 v l t1 P0 H W1).
      + destruct H as (H1 & H2 & H3). exact (short_verse h g c _ p0 l t1 P0 H1 H2 H3 W1).
      + exact (short_comments h g p0 l t1 (R0 eq_refl) H W1).
      + exact (short_comment h g p0 s t1 (R0 eq_refl) W1).
      + exact (short_setting h g p0 name value t1 (R0 eq_refl) H W1).
      + discriminate.
    - destruct H as (_ & H1 & H2 & H3). exact (short_start h g c _ p0 first rest t1 P0 H1 H2 H3 Hs W1).
    - exact (short_heading h g c p0 n t t1 P0 H C W1).
    - exact (short_alert h g c p0 v l t1 P0 (proj2 H) W1).
    - destruct H as [_ ->]. rewrite waits_nil in P0. apply primed_rest in P0. exact (short_rule h g p0 v t1 P0 W1).
    - exact (short_picture h g c p0 title target alt t1 P0 H Hf W1).
    - exact (short_box h g c p0 title b l last t1 P0 H W1).
    - exact (short_table h g c p0 title gap rows t1 Hf Ln P0 H W1).
  Qed.

  (** ** The whole document *)
  Lemma linear_snoc fs t ts : forall n, linear fs n ts -> tline t = fold_left next_line ts n -> tfiles t = fs -> linear fs n (ts ++ [t]).
  Proof. induction ts as [|x ts IH]; intros n H Hl Hf; cbn [app linear fold_left] in *; [auto|]. destruct H as [H1 H2]. split; [assumption|]. now apply IH. Qed.
  Lemma eof_sets m lst attrs bst ist keep il force close dang a te : is_word (TEof, []) te ->
    loop [te] (stm m lst attrs bst ist [] keep il force close dang a) = Ok (stm m TEof attrs bst ist [] keep il force close dang a).
  Proof.
    intros We. cbn [parse_loop]. rewrite (go w fuel here resolve (TEof, [])) by (assumption || discriminate).
    unfold dispatch. rewrite (word_type _ _ We). reflexivity.
  Qed.
  Lemma new_para_last m lst lst' attrs bst ist keep il force close d a : drops_breaks keep = false ->
    new_paragraph (stm m lst' attrs bst ist [] keep il force close d a)
    = (let* p := new_paragraph (stm m lst attrs bst ist [] keep il force close d a) in Ok (set_last lst' p)).
  Proof.
    intros Kd. unfold new_paragraph, push_block_to_stack. cst. rewrite !Kd. destruct (push_inlines _ (rev ist)) as [para| | | |]; cbn [bind andb]; try reflexivity. pst. 
    destruct m as [m|]; [|reflexivity].
    destruct (match rev ist with [] => _ | _ => _ end) as [|l0 ?]; cbn [bind]; [reflexivity|].
    destruct (match m_type m with Some AQuote => true | _ => false end).
    - destruct (push_block (Blk (HParent PQuote None [] []) None [] []) para) as [q| | | |]; cbn [bind]; try reflexivity.
      destruct (add_metadata q m); reflexivity.
    - destruct (add_metadata para m); reflexivity.
  Qed.
  Lemma eof_short q te r : short_state q -> is_word (TEof, []) te -> ends q = Ok r ->
    exists q' r', loop [te] q = Ok q' /\ ends q' = Ok r' /\ p_asg r' = p_asg r.
  Proof.
    intros (m & lst & attrs & bst & ist & keep & force & close & dang & a & -> & L & Kd & S) We E.
    rewrite eof_sets by assumption. eexists. 
    assert (exists bst1, forall lst', add_inlines_to_block_stack (stm m lst' attrs bst ist [] keep false force close dang a) = Ok (st lst' attrs bst1 [] [] keep false force close dang a)) as (bst1 & Ea).
    { assert (exists bst1, add_inlines_to_block_stack (stm m lst attrs bst ist [] keep false force close dang a) = Ok (st lst attrs bst1 [] [] keep false force close dang a)) as (bst1 & Ea).
      { destruct S as [(bst1 & _ & Ea)|(-> & it & it' & ls & r0 & -> & _ & _ & _ & Ea)]; eexists; apply Ea; auto. }
      exists bst1. intros lst'.
      assert (add_inlines_to_block_stack (stm m lst' attrs bst ist [] keep false force close dang a)
        = let* p := add_inlines_to_block_stack (stm m lst attrs bst ist [] keep false force close dang a) in Ok (set_last lst' p)) as ->; [|now rewrite Ea].
      clear - Kd. unfold add_inlines_to_block_stack. cst. destruct ist as [|i ist]; [reflexivity|].
      assert (new_paragraph (stm m lst' attrs bst (i :: ist) [] keep false force close dang a)
        = let* p := new_paragraph (stm m lst attrs bst (i :: ist) [] keep false force close dang a) in Ok (set_last lst' p)) as En by (apply new_para_last; assumption).
      destruct bst as [|b bst]; [exact En|]. destruct (takes_inlines b && true && negb force); [|exact En].
      pst. destruct (push_inlines b (rev (i :: ist))); reflexivity. }
    exists (st TEof attrs [] [] [] keep false force close dang (p_asg r)). split; [reflexivity|].
    rewrite (ends_drained _ _ _ _ bst1 _ _ _ _ _ _ _ (Ea _)) in E. rewrite (ends_drained _ _ _ _ bst1 _ _ _ _ _ _ _ (Ea _)).
    destruct (drained bst1 a) as [a2| | | |]; try discriminate. cbn [bind] in *. injection E as <-. split; reflexivity.
  Qed.

  Hypothesis Hh0 : snd here = [].
  Lemma concat_snoc {A} (l : list (list A)) x : List.concat (l ++ [x]) = List.concat l ++ x.
  Proof. rewrite concat_app. cbn. now rewrite app_nil_r. Qed.
  Lemma pieces_ok_app l2 : forall l1 g, pieces_ok g (l1 ++ l2) -> pieces_ok g l1 /\ pieces_ok (pieces_page l1 g) l2.
  Proof. intros l1. induction l1 as [|x l1 IH]; intros g H; [split; [exact Logic.I|exact H]|]. destruct H as [H1 H2]. apply IH in H2 as [H2 H3]. split; [split; assumption|exact H3]. Qed.
  Lemma found_pieces d : (resolve = true -> Forall (fun t => w_canon w (path_join (fst here) t) <> None) (pictures d)) ->
    (cells d = [] \/ 0 < fuel) -> Forall scanned_cell (cells d) -> Forall (fun x => found w fuel here resolve (snd x)) (sc_pieces d).
  Proof.
    intros Hp Hf Kc. apply Forall_forall. intros [c x] Hx. destruct x as [| | | | |title target alt| |title gap rows]; cbn; auto.
    - intros Er. rewrite Hh0. specialize (Hp Er). rewrite Forall_forall in Hp. apply Hp.
      unfold pictures. apply in_concat. exists [target]. split; [|now left]. apply in_map_iff. exists (c, Picture title target alt). auto.
    - assert (incl (grid_cells rows) (cells d)) as Hi.
      { intros y Hy. unfold cells. apply in_concat. exists (grid_cells rows). split; [|exact Hy]. apply in_map_iff. exists (c, Grid title gap rows). auto. }
      split; [|apply Forall_forall; intros y Hy; rewrite Forall_forall in Kc; apply Kc; auto]. destruct Hf as [Hf|Hf]; [left|now right].
      rewrite Hf in Hi. destruct (grid_cells rows) as [|y l]; [reflexivity|]. destruct (Hi y (or_introl eq_refl)).
  Qed.
  Theorem short_graph_at src d : utf8 src -> script_ok d -> ends_short d ->
    (resolve = true -> Forall (fun t => w_canon w (path_join (fst here) t) <> None) (pictures d)) ->
    (cells d = [] \/ 0 < fuel) -> short_written src d ->
    exists g, parse w fuel (fst here) resolve src = Ok g
      /\ map unplaced (a_blocks g) = script_blocks d /\ heading_of g = script_title d.
  Proof.
    intros U H [Nl Hs] Hp Hf [K Kc]. pose proof (laid_words [] _ _ _ K 1 1) as W.
    assert (scan_with src [] = Ok (laid [] 1 1 (short_words d))) as Sc.
    { apply (proj2 (scan_is_grammar src [] U _)). eauto. }
    apply VerbatimProofs.scan_is_stream in Sc.
    destruct (rev (sc_pieces d)) as [|[c x] rl] eqn:Er; [destruct Hs|]. cbn [snd] in Hs.
    assert (sc_pieces d = rev rl ++ [(c, x)]) as Ep by (rewrite <- (rev_involutive (sc_pieces d)), Er; reflexivity). set (l := rev rl) in *. clearbody l. clear Er rl.
    set (pw := fun y : list decor * piece => decor_words (fst y) ++ piece_words (snd y)).
    assert (short_words d = start_words d ++ List.concat (map pw l) ++ (decor_words c ++ short_words_of x) ++ [(TEof, [])]) as E.
    { unfold short_words, body_words. rewrite Ep, map_app, concat_app. cbn [map List.concat fst snd]. rewrite short_words_piece, app_nil_r, (app_assoc (decor_words c)), (app_assoc (List.concat _)), removelast_last.
      rewrite <- app_assoc. reflexivity. }
    assert (match laid [] 1 1 (short_words d) with t :: _ => ttype t = TEof \/ first_location t = mkLoc 1 1 [] | [] => True end) as L.
    { clear. destruct (short_words d) as [|[ty ll] ks]; [exact Logic.I|]. cbn. destruct ty; cbn; auto. }
    assert (linear (snd here) 1 (laid [] 1 1 (short_words d))) as Ln by (rewrite Hh0; apply laid_linear).
    remember (laid [] 1 1 (short_words d)) as ts eqn:Ets. clear Ets. rewrite E in W.
    apply words_split in W as (t1 & t2 & -> & W1 & W). apply words_split in W as (t3 & t4 & -> & W3 & W). apply words_split in W as (t5 & t6 & -> & W5 & W).
    apply words_cons in W as (te & t7 & -> & We & W). inversion W. subst t7.
    apply linear_app in Ln as [_ Ln]. rewrite app_assoc in Ln. apply linear_app in Ln as [Ln _]. set (n0 := fold_left next_line t1 1) in *.
    destruct (title_step w fuel here resolve Hh0 d t1 H W1) as (p1 & E1 & R1).
    { destruct t1 as [|t t1]; [exact Logic.I|]. cbn in L. destruct L as [L|L]; [|exact L]. unfold start_words in W1. destruct (sc_title d) as [[]|]; [|inversion W1].
      apply words_cons in W1 as (? & ? & [= <- <-] & Wt & _). rewrite (word_type _ _ Wt) in L. discriminate. }
    pose proof H as (_ & H2 & _ & C). unfold script_page in C. rewrite Nl in C.
    pose proof (found_pieces d Hp Hf Kc) as Fd. rewrite Ep in Fd, H2, C. apply Forall_app in Fd as [Fd1 Fd2]. inversion Fd2 as [|? ? Fx _]. subst. cbn [snd] in Fx.
    pose proof H2 as H2'. apply pieces_ok_app in H2' as [Hl [Hx _]]. cbn [fst snd] in Hx.
    assert (pieces_page (l ++ [(c, x)]) (first_page d) = piece_page c x (pieces_page l (first_page d))) as Epp by (unfold pieces_page; now rewrite fold_left_app).
    assert (clear 0 (g_flow (pieces_page l (first_page d))) = true) as Cl.
    { rewrite Epp in C. destruct (piece_flow c x (pieces_page l (first_page d))) as (r & Ef). rewrite Ef in C. now apply clear_prefix in C. }
    pose proof Ln as Ln'. apply linear_app in Ln' as [Ln3 Ln5].
    destruct (pieces_step w fuel here resolve (script_title d) l (first_page d) p1 t3 R1 Hl Fd1 W3 (ex_intro (fun k => linear (snd here) k t3) _ Ln3) Cl) as (p2 & E2 & R2).
    destruct (short_piece _ _ _ c x t5 R2 Hx Fx Hs W5 (ex_intro (fun k => linear (snd here) k t5) _ Ln5) Cl) as (q & E3 & Sq).
    (* a blank line after it would close it *)
    set (t := mkTok TNewLineChar ["010"] None (fold_left next_line (t3 ++ t5) n0) 1 1 (snd here)).
    assert (is_word newline t) as Wt by (repeat split).
    assert (lined (snd here) (t5 ++ [t])) as Ln6.
    { exists (fold_left next_line t3 n0). apply linear_snoc; [exact Ln5| |reflexivity]. cbn [tline t]. now rewrite fold_left_app. }
    destruct (piece_step w fuel here resolve (script_title d) (pieces_page l (first_page d)) p2 c x (t5 ++ [t]) R2 Hx Fx) as (p3 & E4 & R3).
    { rewrite short_words_piece, app_assoc. apply Forall2_app; [exact W5|]. constructor; [exact Wt|constructor]. }
    { intros _ _ _ _. exact Ln6. }
    { cbn [shows]. now rewrite <- Epp. }
    assert (loop [t] q = Ok p3) as E5 by (rewrite (loop_app w fuel t5 [t] p2 q E3) in E4; exact E4).
    destruct R3 as (lst & attrs & bst & ol & force & a & -> & _ & _ & R & Hc & _ & N1 & _). assert (ol = []) as -> by now destruct R.
    rewrite Epp in C.
    destruct (end_flush here resolve (script_title d) lst attrs bst (g_keep (piece_page c x (pieces_page l (first_page d)))) force (g_flag (piece_page c x (pieces_page l (first_page d)))) None a _ R N1 C false) as (a' & E6 & Eb & Eh).
    destruct (short_end q t _ Sq Wt E5 (st lst attrs [] [] [] (g_keep (piece_page c x (pieces_page l (first_page d)))) false force (g_flag (piece_page c x (pieces_page l (first_page d)))) None a')) as (r1 & E7 & Ea).
    { unfold ends. rewrite add_nothing. exact E6. }
    destruct (eof_short q te r1 Sq We E7) as (q' & r & E8 & E9 & Ea'). rewrite Ea in Ea'.
    pose proof (loop_join w fuel _ _ _ _ _ E1 (loop_join w fuel _ _ _ _ _ E2 (loop_join w fuel _ _ _ _ _ E3 E8))) as El.
    unfold ends in E9. pose proof (ends_steps w fuel (fst here) resolve _ _ _ El E9) as St.
    unfold parse, parse_with. rewrite Sc. cbn [fst snd]. rewrite El. cbn [bind].
    destruct (add_inlines_to_block_stack q') as [p5| | | |]; try discriminate E9. cbn [bind] in E9 |- *. rewrite E9. cbn [bind].
    eexists. split; [reflexivity|]. rewrite (consolidated w _ St), Ea'. cbn [p_asg stm tstate]. split; [|exact Eh].
    unfold script_blocks, script_page. rewrite Nl, Ep, Epp. exact (f_equal referred Eb).
  Qed.
End Ends.
Theorem short_graph w fuel origin resolve src d : utf8 src -> script_ok d -> ends_short d ->
  (resolve = true -> Forall (fun t => w_canon w (path_join origin t) <> None) (pictures d)) ->
  (cells d = [] \/ 0 < fuel) -> short_written src d ->
  exists g, parse w fuel origin resolve src = Ok g
    /\ map unplaced (a_blocks g) = script_blocks d /\ heading_of g = script_title d.
Proof. exact (short_graph_at w fuel (origin, []) resolve eq_refl src d). Qed.
