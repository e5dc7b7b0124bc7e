(** * Scripts: what the parser makes of the words of blocks *)
From Verif Require ArticleProofs.
From Verif Require Import Base World Location Token Meta Inline Block Asg Parser SpecScan SpecLex SpecDoc SpecArticle
  DocGraph GraphLemmas ArticleGraph ScriptWords ScriptText ScriptLocs ScriptDecor ScriptGraph SpecScript.
Local Open Scope char_scope.
Local Open Scope nat_scope.
Local Arguments reconcile : simpl never.
Local Arguments token_locations : simpl never.
Local Arguments token_text : simpl never.
Local Arguments consolidate_locations : simpl never.
Local Arguments last_opt : simpl never.
Local Arguments push_block : simpl never.

Ltac pst := cbn [tstate p_origin p_last p_header p_attrs p_bstack p_istack p_files p_title p_meta p_open_lines p_open_type p_offset p_in_line p_in_span p_in_cont p_force_new p_preserve_nl p_close_parent p_dangling p_resolve p_asg set_last set_header set_attrs set_bstack set_istack set_files set_title set_meta set_open_lines set_open_type set_offset set_in_line set_in_span set_in_cont set_force_new set_preserve_nl set_close_parent set_dangling set_asg bind andb orb negb empty].

(** ** Where blocks go: to the graph, or onto the stack above an open delimited block *)
Inductive kind := KTop (h : option (list inline)) | KBox (n : nat) (b : block) (base : list block) (a : asg).
Definition heading_of (a : asg) : option (list inline) := option_map (fun h => map unplaced_inline (hd_title h)) (a_header a).
Definition room (k : kind) (ol : list nat) (bst : list block) (a : asg) (g : page) : Prop :=
  match k with
  | KTop h => ol = [] /\ holds bst (a_blocks a) (g_open g) (g_flow g) /\ heading_of a = h
  | KBox n b base a0 =>
      ol = [n] /\ a = a0 /\ is_parent b = true /\ g_open g = false
      /\ exists acc, bst = acc ++ b :: base /\ map unplaced (rev acc) = map snd (g_flow g)
  end.
Definition fresh (k : kind) (bst : list block) : Prop :=
  match k with KTop _ => bst = [] | KBox _ b _ _ => bst = [b] end.
Definition free (k : kind) (force : bool) (bst : list block) : Prop := force = true \/ fresh k bst.
(** inside of delimited blocks there are only leaves *)
Definition kept (k : kind) (flow : list (bool * block)) : Prop :=
  match k with KBox _ _ _ _ => Forall (fun x => is_parent (snd x) = false /\ is_section (snd x) = false) flow | _ => True end.
(** no subsection follows a delimited block *)
Definition shows (k : kind) (g : page) : Prop := match k with KTop _ => clear 0 (g_flow g) = true | _ => True end.
Definition sound (b : block) : Prop :=
  is_section b = false /\ is_list_item b = false /\ is_dlist_item b = false /\ tidy b = true.
Lemma heads_unplaced b : is_section (unplaced b) = is_section b /\ is_list_item (unplaced b) = is_list_item b
  /\ is_dlist_item (unplaced b) = is_dlist_item b /\ is_parent (unplaced b) = is_parent b.
Proof. now destruct b as [[] ? ? ?]. Qed.
Lemma sound_unplaced b : sound (unplaced b) <-> sound b.
Proof. unfold sound. destruct (heads_unplaced b) as (-> & -> & -> & _). now rewrite tidy_unplaced. Qed.
Lemma sound_settled o b : sound b -> settled (o, b).
Proof.
  intros (S1 & S2 & S3 & S4). split; [|split; [|exact S4]]; cbn [fst snd].
  - split; [assumption|]. split; [assumption|]. congruence.
  - intros n H. destruct b as [[] ? ? ?]; discriminate.
Qed.
Lemma land_flow b g : g_flow (land b g) = g_flow g ++ [(g_open g, b)].
Proof. unfold land. destruct (g_flag g && g_open g) eqn:E; [|reflexivity]. apply andb_prop in E as [_ E]. cbn. now rewrite E. Qed.
Lemma land_env b g : g_env (land b g) = g_env g /\ g_keep (land b g) = g_keep g.
Proof. unfold land. now destruct (g_flag g && g_open g). Qed.

(** *** Texts on one line, and two of them one after the other *)
Definition no_break (w : word) : bool := match fst w with TNewLineChar => false | _ => true end.
Lemma bits_line keep any e l : forallb no_break (map bit_word l) = true -> forall k, snd (fold_left (write_bit keep any e) l (k, false)) = false.
Proof.
  induction l as [|b l IH]; intros H k; [reflexivity|]. cbn [map forallb] in H. apply andb_prop in H as [H1 H2]. cbn [fold_left].
  destruct b; try discriminate H1; cbn [write_bit]; unfold put; cbn [fst snd]; now apply IH.
Qed.
Lemma inners_line keep e l : forallb no_break (List.concat (map inner_words l)) = true -> forall k, snd (fold_left (write_inner keep e) l (k, false)) = false.
Proof.
  induction l as [|i l IH]; intros H k; [reflexivity|]. cbn [map List.concat] in H. rewrite forallb_app in H. apply andb_prop in H as [H1 H2]. cbn [fold_left].
  destruct i as [b|t l0]; cbn [write_inner inner_words] in *.
  - cbn in H1. destruct b; try discriminate H1; cbn [write_bit]; unfold put; cbn [fst snd]; now apply IH.
  - cbn [forallb] in H1. apply andb_prop in H1 as [_ H1]. rewrite forallb_app in H1. apply andb_prop in H1 as [H1 _]. cbn [fst snd].
    rewrite fold_draft, (bits_line _ _ _ _ H1). now apply IH.
Qed.
Lemma puts_line keep (l : list word) : forall d, snd d = false -> snd (fold_left (fun d x => put keep false d (said (snd x))) l d) = false.
Proof. induction l as [|x l IH]; intros d H; [exact H|]. cbn [fold_left]. now apply IH. Qed.
Lemma write_line keep e x k me : forallb no_break (element_words x) = true -> snd (fst (write keep e (k, false, me) x)) = false.
Proof.
  intros H. destruct x as [b|roles t l| |tg l| | |l|l| |]; cbn [write element_words fst snd] in *; try reflexivity.
  - cbn in H. destruct b; try discriminate H; reflexivity.
  - rewrite forallb_app in H. apply andb_prop in H as [_ H]. cbn [forallb] in H. apply andb_prop in H as [_ H]. rewrite forallb_app in H. apply andb_prop in H as [H _].
    rewrite fold_draft. cbn [fst snd]. now apply inners_line.
  - cbn [forallb] in H. apply andb_prop in H as [_ H]. rewrite forallb_app in H. apply andb_prop in H as [H _]. rewrite fold_draft. cbn [fst snd]. now apply bits_line.
  - cbn [forallb] in H. apply andb_prop in H as [_ H]. rewrite forallb_app in H. apply andb_prop in H as [H _]. rewrite fold_draft. cbn [fst snd]. now apply inners_line.
  - now apply puts_line.
Qed.
Lemma draft_rest keep e l : one_line l = true -> forall k me, snd (fst (fold_left (write keep e) l (k, false, me))) = false.
Proof.
  induction l as [|x l IH]; intros H k me; [reflexivity|]. unfold one_line, text_words in H. cbn [map List.concat] in H. rewrite forallb_app in H. apply andb_prop in H as [H1 H2].
  cbn [fold_left]. pose proof (write_line keep e x k me H1) as E. destruct (write keep e (k, false, me) x) as [[k1 w1] m1]. cbn [fst snd] in E. subst w1. now apply IH.
Qed.
Lemma weld_base any s base i : s <> [] -> weld any (s ++ base) i = weld any s i ++ base.
Proof. destruct s as [|x s]; [congruence|]. intros _. cbn [app weld]. destruct x as [| |[] ? ? ?|], i as [| |[] ? ? ?|]; try reflexivity; destruct any; reflexivity. Qed.
Lemma put_base keep any s base wt i : s <> [] -> put keep any (s ++ base, wt) i = (fst (put keep any (s, wt) i) ++ base, false).
Proof.
  intros N. unfold put. cbn [fst snd]. destruct wt; [destruct (keeps_breaks keep); [reflexivity|]|]; rewrite ?weld_base; auto.
  intros X. destruct (weld_some any s (said ["010"]) X).
Qed.
Lemma write_base keep e x s base wt me : s <> [] ->
  write keep e (s ++ base, wt, me) x = (fst (fst (write keep e (s, wt, me) x)) ++ base, snd (fst (write keep e (s, wt, me) x)), snd (write keep e (s, wt, me) x)).
Proof.
  intros N. destruct x as [b|roles t l| |tg l| | |l|l| |]; cbn [write fst snd]; try reflexivity.
  - destruct b; cbn [write_bit]; rewrite ?put_base by assumption; cbn [fst snd]; rewrite ?weld_base by assumption; reflexivity.
  - rewrite fold_draft. cbn [fst snd]. destruct wt; rewrite ?weld_base by assumption; reflexivity.
  - rewrite fold_draft. reflexivity.
  - rewrite fold_draft. reflexivity.
  - revert s wt N. induction l as [|y l IH]; intros s wt N; [reflexivity|]. cbn [fold_left]. rewrite put_base by assumption.
    pose proof (put_some keep false (s, wt) (said (snd y))) as N'. unfold put at 2 4. cbn [fst snd]. 
    specialize (IH (fst (put keep false (s, wt) (said (snd y)))) false N'). unfold put in IH at 2 3. exact IH.
Qed.
Lemma draft_base keep e l : forall s base wt me, s <> [] ->
  fold_left (write keep e) l (s ++ base, wt, me)
  = (fst (fst (fold_left (write keep e) l (s, wt, me))) ++ base, snd (fst (fold_left (write keep e) l (s, wt, me))), snd (fold_left (write keep e) l (s, wt, me))).
Proof.
  induction l as [|x l IH]; intros s base wt me N; [reflexivity|]. cbn [fold_left]. rewrite write_base by assumption.
  pose proof (write_some keep e (s, wt, me) x (or_introl N)) as N'. destruct (write keep e (s, wt, me) x) as [[s1 w1] m1]. now apply IH.
Qed.
Lemma draft_line keep e x t : keeps_breaks keep = true -> drops_breaks keep = false -> one_line x = true -> finished keep e t = true -> opens t = true ->
  text_draft keep e None false (x ++ Bit Newline :: t) = (rev (text_inlines keep e None false x ++ said ["010"] :: text_inlines keep e None false t), false, None).
Proof.
  intros Kb Kd Hx Ht Ho. unfold text_draft. rewrite fold_left_app. pose proof (draft_rest keep e x Hx [] None) as Dx. pose proof (rest_none e keep false x) as Rx.
  unfold text_rest, text_draft in Rx. unfold text_inlines, text_draft. destruct (fold_left (write keep e) x ([], false, None)) as [[D wt] me]. cbn [fst snd] in *. subst wt me.
  cbn [fold_left write write_bit fst snd]. rewrite Kd. cbn [negb].
  apply negb_true_iff in Ht. pose proof Ht as Dt. unfold text_draft in Dt. clear Ht. pose proof (rest_none e keep false t) as Rt. unfold text_rest, text_draft in Rt.
  destruct t as [|y t]; [discriminate|].
  assert (exists i, write keep e (D, true, None) y = ([i] ++ said ["010"] :: D, false, None) /\ write keep e ([], false, None) y = ([i], false, None)) as (i & E1 & E2).
  { destruct y as [b| | | | | | | | |]; try discriminate Ho. destruct b; try discriminate Ho; cbn [write write_bit]; unfold put; cbn [fst snd]; rewrite Kb; eexists; split; reflexivity. }
  cbn [fold_left] in *. rewrite E2 in Dt, Rt.
  rewrite E2. etransitivity; [apply (f_equal (fold_left (write keep e) t)); exact E1|].
  rewrite draft_base by discriminate. rewrite Dt, Rt. f_equal. f_equal.
  rewrite rev_app_distr. cbn [rev]. rewrite !rev_involutive. now rewrite <- app_assoc.
Qed.

Section Blocks.
  Variables (w : world) (fuel : nat) (here : bytes * list bytes) (resolve : bool).
  (** [me]: the metadata that waits *)
  Definition stm me lst attrs bst ist ol keep il force close dang a : pstate :=
    tstate here resolve None attrs bst None ol keep a lst ist me None il false force close dang.
  Notation st := (stm None).
  Notation loop := (parse_loop w fuel).
  Ltac cst := unfold stm; pst.

  Lemma go x t me lst attrs bst ist ol keep il force close dang a : is_word x t -> fst x <> TInclude -> fst x <> TTableCell ->
    token_into w fuel t (stm me lst attrs bst ist ol keep il force close dang a) = dispatch w t (stm me lst attrs bst ist ol keep il force close dang a).
  Proof. intros W N1 N2. unfold stm. apply (step w fuel here resolve None attrs bst None ol keep a x); auto. now left. Qed.
  Lemma set_last_st ty me lst attrs bst ist ol keep il force close dang a :
    set_last ty (stm me lst attrs bst ist ol keep il force close dang a) = stm me ty attrs bst ist ol keep il force close dang a.
  Proof. reflexivity. Qed.
  Lemma word_type x t : is_word x t -> ttype t = fst x.
  Proof. now intros (-> & _). Qed.

  (** blocks do not go to the item that is continued: none is, or a delimited block is open *)
  Definition held (ol : list nat) (keep : manner) : Prop := drops_breaks keep && match ol with [] => true | _ => false end = false.

  (** *** Newlines *)
  Definition ended (lst : token_type) : Prop := tt_eqb lst TNewLineChar || tt_eqb lst TEof = true.
  Lemma nl_go t me lst attrs bst ist ol keep il force close dang a : is_word newline t ->
    token_into w fuel t (stm me lst attrs bst ist ol keep il force close dang a)
    = parse_new_line_char w t (stm me lst attrs bst ist ol keep il force close dang a).
  Proof. intros W. rewrite (go newline) by (assumption || discriminate). unfold dispatch. now rewrite (word_type _ _ W). Qed.
  Lemma soft_newline t me lst attrs bst ist ol keep il force close dang a : is_word newline t ->
    tt_eqb lst TNewLineChar || tt_eqb lst TEof = false ->
    exists dang', loop [t] (stm me lst attrs bst ist ol keep il force close dang a)
      = Ok (stm me TNewLineChar attrs bst ist ol keep false force close dang' a)
      /\ pending (negb (drops_breaks keep || clears_newline_after lst)) dang'.
  Proof.
    intros W L. cbn [parse_loop]. rewrite nl_go by assumption. unfold parse_new_line_char. cst. rewrite L. cbn [orb].
    rewrite (word_type _ _ W). destruct (drops_breaks keep || clears_newline_after lst).
    - exists None. split; reflexivity.
    - exists (Some t). split; [reflexivity|]. split; [reflexivity|exact W].
  Qed.
  Definition blank_tail (p : pstate) : result pstate :=
    let p := set_force_new true p in
    match p_bstack p with
    | [] => Ok p
    | b :: r =>
        let p := set_bstack r p in
        if negb (is_section b) && empty (p_open_lines p) then
          let* p := add_to_block_stack_or_graph b p in
          if p_close_parent p && negb (empty (p_bstack p)) then
            let* p := add_last_to_block_stack_or_graph p in
            Ok (set_close_parent false p)
          else Ok p
        else push_block_to_stack b p
    end.
  Definition no_item (bst : list block) : Prop :=
    match bst with b :: _ => is_list_item b = false /\ is_dlist_item b = false | [] => True end.
  Lemma blank_newline t me lst attrs bst ist ol keep il force close dang a : is_word newline t -> ended lst -> no_item bst ->
    token_into w fuel t (stm me lst attrs bst ist ol keep il force close dang a)
    = (let* p := add_inlines_to_block_stack (stm me lst attrs bst ist ol keep false force close None a) in blank_tail p).
  Proof.
    intros W L N. rewrite nl_go by assumption. unfold parse_new_line_char. cst. rewrite L. cbn [orb]. pst.
    destruct bst as [|b bst]; [reflexivity|]. destruct N as [-> ->]. reflexivity.
  Qed.
  Lemma blank_item t lst attrs b bst ist ol keep il force close dang a : is_word newline t -> ended lst -> is_list_item b = true ->
    token_into w fuel t (st lst attrs (b :: bst) ist ol keep il force close dang a)
    = (let* p := add_last_list_item_to_list (st lst attrs (b :: bst) ist ol keep false force close None a) in
       let* p := add_inlines_to_block_stack (set_in_span false p) in blank_tail p).
  Proof.
    intros W L N. rewrite nl_go by assumption. unfold parse_new_line_char. cst. rewrite L. pst. rewrite N. reflexivity.
  Qed.
  Lemma add_nothing me lst attrs bst ol keep il force close dang a :
    add_inlines_to_block_stack (stm me lst attrs bst [] ol keep il force close dang a)
    = Ok (stm me lst attrs bst [] ol keep il force close dang a).
  Proof. reflexivity. Qed.

  (** *** Delivering a block *)
  Lemma deliver h lst attrs b bst ist keep il force close dang a g : room (KTop h) [] bst a g -> sound b ->
    exists bst' a', add_to_block_stack_or_graph b (st lst attrs bst ist [] keep il force close dang a)
      = Ok (st lst attrs bst' ist [] keep il force close dang a')
      /\ add_last_to_block_stack_or_graph (st lst attrs (b :: bst) ist [] keep il force close dang a)
      = Ok (st lst attrs bst' ist [] keep il force close dang a')
      /\ room (KTop h) [] bst' a' (place (unplaced b) g).
  Proof.
    intros (_ & H & Ht) (S1 & S2 & S3 & S4). unfold add_to_block_stack_or_graph, add_last_to_block_stack_or_graph. cst.
    cbn [room place g_open g_flow]. destruct H as [(Eo & -> & E)|H].
    - rewrite Eo. destruct (push_loose b (g_flow g) a E S1 S4) as (a' & Ea & Eb & Eh).
      unfold take_metadata, p_asg_push. pst. rewrite Ea. pst. exists [], a'. split; [reflexivity|]. split; [reflexivity|].
      split; [reflexivity|]. split; [left; auto|]. unfold heading_of. now rewrite Eh.
    - pose proof H as (Eo & s & i & t & lv & sm & pre & leaves & Eb & _).
      assert (holds [s] (a_blocks a) true (g_flow g)) as H1 by (right; split; [reflexivity|]; rewrite <- Eb; apply H).
      destruct (push_open s (a_blocks a) (g_flow g) b H1 S1 S2) as (s' & E1 & E2 & H2). rewrite Eb, Eo.
      rewrite E2, E1. pst. exists [s'], a. split; [reflexivity|]. split; [reflexivity|]. auto.
  Qed.
  Lemma settle k lst attrs b bst ol keep force a g : room k ol bst a g -> sound b -> flat (g_flow (land (unplaced b) g)) ->
    shows k (land (unplaced b) g) ->
    exists bst' a', blank_tail (st lst attrs (b :: bst) [] ol keep false force (g_flag g) None a)
      = Ok (st lst attrs bst' [] ol keep false true (g_flag (land (unplaced b) g)) None a')
      /\ room k ol bst' a' (land (unplaced b) g).
  Proof.
    intros R S F C. unfold blank_tail. cst. destruct S as (S1 & S'). rewrite S1. cbn [negb andb]. assert (sound b) as S by (split; assumption).
    destruct k as [h|n p base a0].
    - pose proof R as (-> & _). cbn [empty].
      destruct (deliver h lst attrs b bst [] keep false true (g_flag g) None a g R S) as (bst' & a' & E & _ & R').
      match goal with |- context [add_to_block_stack_or_graph b ?p] => change p with (st lst attrs bst [] [] keep false true (g_flag g) None a) end.
      rewrite E. cst. rewrite land_flow in F. cbn [shows] in C. rewrite land_flow in C. unfold land.
      destruct (g_flag g) eqn:Fg; cbn [andb].
      + destruct R' as (_ & H & Ht). cbn [place g_open g_flow] in H. destruct H as [(Eo & -> & E')|H].
        * rewrite Eo. cbn [empty negb]. exists [], a'. cbn [place g_flag g_open g_flow]. rewrite Fg. split; [reflexivity|].
          split; [reflexivity|]. split; [|auto]. left. cbn [place g_open g_flow]. auto.
        * pose proof H as (Eo & s & i & t & lv & sm & pre & leaves & Eb & _). rewrite Eo in *. subst bst'. cbn [empty negb].
          destruct (finish_section s (a_blocks a') (g_flow g ++ [(true, unplaced b)]) a') as (a2 & E2 & Eb2 & Eh2); auto.
          { right. exact H. }
          unfold add_last_to_block_stack_or_graph. pst. unfold p_asg_push. pst. rewrite E2. pst.
          exists [], a2. split; [reflexivity|]. split; [reflexivity|]. cbn [g_open g_flow]. split; [left; auto|].
          unfold heading_of in *. now rewrite Eh2.
      + exists bst', a'. cbn [place g_flag]. rewrite Fg. split; [reflexivity|]. exact R'.
    - destruct R as (-> & -> & Hp & Ho & acc & -> & E). cbn [empty andb]. unfold push_block_to_stack. pst. rewrite andb_false_r. pst.
      unfold land. rewrite Ho, andb_false_r. cbn [place g_flag].
      exists ((b :: acc) ++ p :: base), a0. split; [reflexivity|]. cbn [room g_open g_flow place]. split; [reflexivity|]. split; [reflexivity|].
      split; [assumption|]. split; [assumption|]. exists (b :: acc). split; [reflexivity|]. cbn [rev]. now rewrite !map_app, E.
  Qed.
  Lemma idle k lst attrs bst ol keep force close a g : held ol keep -> room k ol bst a g ->
    blank_tail (st lst attrs bst [] ol keep false force close None a)
      = Ok (st lst attrs bst [] ol keep false true close None a).
  Proof.
    intros Hc R. unfold blank_tail. cst. destruct bst as [|b bst]; [reflexivity|].
    unfold push_block_to_stack. pst. rewrite Hc.
    destruct k as [h|n p base a0].
    - destruct R as (-> & [(_ & E & _)|(_ & s & i & t & lv & sm & pre & leaves & Eb & Es & _)] & _); [discriminate|]. injection Eb as -> ->.
      assert (is_section s = true) as -> by (rewrite <- is_section_unplaced, Es; reflexivity). reflexivity.
    - destruct R as (-> & _). cbn [empty]. rewrite andb_false_r. reflexivity.
  Qed.

  Definition dressable (h : head) : bool := match h with HBreak _ => false | _ => true end.
  Lemma meta_worn h m k loc : dressable h = true ->
    exists me, add_metadata (Blk h None k loc) m = Ok (Blk h me k loc) /\ option_map unplaced_meta me = worn (Some (unplaced_meta m)).
  Proof.
    intros H. unfold add_metadata, worn, meta_is_empty. cbn [unplaced_meta m_attrs m_options m_roles].
    destruct (m_attrs m) eqn:E1; [destruct (m_options m) eqn:E2; [destruct (m_roles m) eqn:E3|]|]; destruct h; try discriminate H;
      (exists None; split; reflexivity) || (exists (Some m); split; [reflexivity|]; cbn; unfold unplaced_meta; rewrite E1, ?E2, ?E3; reflexivity).
  Qed.
  Lemma push_worn h k loc hd attrs bst ti ol keep a lst ist m ot il force close dang : held ol keep -> dressable h = true ->
    exists me, push_block_to_stack (Blk h None k loc) (tstate here resolve hd attrs bst ti ol keep a lst ist m ot il false force close dang)
      = Ok (tstate here resolve hd attrs (Blk h me k loc :: bst) ti ol keep a lst ist None ot il false force close dang)
      /\ option_map unplaced_meta me = worn (option_map unplaced_meta m).
  Proof.
    intros Hc H. unfold push_block_to_stack. pst. rewrite Hc. destruct m as [m|]; cbn [option_map]; [|exists None; split; reflexivity].
    destruct (meta_worn h m k loc H) as (me & -> & E). exists me. split; [reflexivity|exact E].
  Qed.
  Lemma meta_added h m k loc : dressable h = true ->
    exists b, add_metadata (Blk h None k loc) m = Ok b /\ unplaced b = Blk (unplaced_head h) (worn (Some (unplaced_meta m))) (map unplaced k) [].
  Proof. intros H. destruct (meta_worn h m k loc H) as (me & E & U). eexists. split; [exact E|]. cbn. now rewrite U. Qed.
  Lemma new_para me lst attrs bst ist x ol keep il force close dang a : map unplaced_inline (rev ist) = x ->
    me = None \/ (ol = [] /\ ist <> [] /\ Forall located ist) -> held ol keep ->
    exists b, new_paragraph (stm me lst attrs bst ist ol keep il force close dang a)
      = Ok (st lst attrs (b :: bst) [] ol keep il force close dang a)
      /\ unplaced b = wrapped (option_map unplaced_meta me) x.
  Proof.
    intros E M Hc. unfold new_paragraph. cst. rewrite ArticleProofs.push_inlines_leaf. pst. cbn [app]. unfold push_block_to_stack. pst. unfold empty. rewrite !Hc.
    destruct me as [m|]; cbn [option_map].
    2:{ eexists. split; [reflexivity|]. cbn. now rewrite E. }
    destruct M as [M|(-> & Ne & L)]; [discriminate|].
    assert (exists i r l ls, rev ist = i :: r /\ inline_locs i = l :: ls) as (i & r & l & ls & Er & El).
    { apply Forall_rev in L. destruct (rev ist) as [|i r] eqn:Er.
      - destruct Ne. rewrite <- (rev_involutive ist), Er. reflexivity.
      - inversion L as [|? ? L1 _]. subst. apply located_locs in L1. destruct (inline_locs i) as [|l ls] eqn:El; [now destruct L1|]. exists i, r, l, ls. auto. }
    rewrite Er, El. pst. rewrite <- Er. unfold wrapped. cbn [unplaced_meta m_type].
    destruct (match m_type m with Some AQuote => true | _ => false end) eqn:Q.
    - destruct (push_block_leaf (HParent PQuote None [] []) None [] [] (Blk (HLeaf NParagraph FmParagraph None (rev ist)) None [] (l :: ls)) eq_refl eq_refl) as (loc' & Eq); [intros ? ? ? ? [= <-]; discriminate|exact I|].
      rewrite Eq. unfold push_block_to_stack. pst. cbn [app] in *.
      match goal with |- context [add_metadata (Blk ?h None ?k ?lo) m] => destruct (meta_added h m k lo eq_refl) as (b & -> & Eb) end. pst.
      exists b. split; [reflexivity|]. rewrite Eb. cbn. now rewrite E.
    - unfold push_block_to_stack. pst.
      match goal with |- context [add_metadata (Blk ?h None ?k ?lo) m] => destruct (meta_added h m k lo eq_refl) as (b & -> & Eb) end. pst.
      exists b. split; [reflexivity|]. rewrite Eb. cbn. now rewrite E.
  Qed.
  Lemma add_para k me lst attrs bst ist x ol keep il force close dang a g : map unplaced_inline (rev ist) = x -> ist <> [] ->
    me = None \/ (ol = [] /\ Forall located ist) -> held ol keep -> room k ol bst a g -> free k force bst ->
    exists b, add_inlines_to_block_stack (stm me lst attrs bst ist ol keep il force close dang a)
      = Ok (st lst attrs (b :: bst) [] ol keep il force close dang a)
      /\ unplaced b = wrapped (option_map unplaced_meta me) x.
  Proof.
    intros E Ne M Hc R F. unfold add_inlines_to_block_stack. cst.
    assert (me = None \/ (ol = [] /\ ist <> [] /\ Forall located ist)) as M' by tauto.
    destruct ist as [|i ist]; [congruence|].
    destruct bst as [|b bst]; [exact (new_para me lst attrs [] _ x ol keep il force close dang a E M' Hc)|].
    replace (takes_inlines b && negb il && negb force) with false; [exact (new_para me lst attrs _ _ x ol keep il force close dang a E M' Hc)|].
    destruct F as [-> | F]; [now rewrite andb_false_r|].
    destruct k as [h|n p base a0]; cbn [fresh] in F; [discriminate|]. injection F as -> ->.
    destruct R as (_ & _ & Hp & _). now destruct p as [[] ? ? ?].
  Qed.
  Lemma sound_wrapped me x : sound (wrapped me x).
  Proof. unfold wrapped. destruct (match me with Some m => _ | None => false end); repeat split. Qed.

  (** *** The state between blocks *)
  Definition at_rest (k : kind) (g : page) (p : pstate) : Prop :=
    exists lst attrs bst ol force a,
      p = st lst attrs bst [] ol (g_keep g) false force (g_flag g) None a
      /\ ended lst /\ agrees attrs (g_env g) /\ room k ol bst a g /\ held ol (g_keep g) /\ free k force bst /\ flat (g_flow g) /\ kept k (g_flow g).
  (** the same with metadata that waits, and maybe a line break *)
  Definition primed (k : kind) (g : page) (me : option metadata) (wait : bool) (p : pstate) : Prop :=
    exists m lst attrs bst ol force a dang,
      p = stm m lst attrs bst [] ol (g_keep g) false force (g_flag g) dang a
      /\ option_map unplaced_meta m = me /\ pending wait dang
      /\ ended lst /\ agrees attrs (g_env g) /\ room k ol bst a g /\ held ol (g_keep g) /\ free k force bst /\ flat (g_flow g) /\ kept k (g_flow g).
  Lemma rest_primed k g p : at_rest k g p -> primed k g None false p.
  Proof. intros (lst & attrs & bst & ol & force & a & -> & H). exists None, lst, attrs, bst, ol, force, a, None. cbn. auto. Qed.
  Lemma primed_rest k g p : primed k g None false p -> at_rest k g p.
  Proof.
    intros (m & lst & attrs & bst & ol & force & a & dang & -> & M & D & H). destruct m; [discriminate|].
    destruct dang; [destruct D; discriminate|]. exists lst, attrs, bst, ol, force, a. auto.
  Qed.
  Lemma room_no_item k ol bst a g : room k ol bst a g -> flat (g_flow g) -> no_item bst.
  Proof.
    intros R F. destruct bst as [|b bst]; [exact I|]. cbn. destruct k as [h|n p base a0].
    - destruct R as (_ & [(_ & E & _)|(_ & s & i & t & lv & sm & pre & leaves & Eb & Es & _)] & _); [discriminate|]. injection Eb as -> ->.
      destruct (heads_unplaced s) as (_ & <- & <- & _). now rewrite Es.
    - destruct R as (_ & _ & Hp & _ & acc & E & Ed). destruct acc as [|x acc]; cbn in E; injection E as -> ->.
      + now destruct p as [[] ? ? ?].
      + cbn in Ed. rewrite map_app in Ed. cbn in Ed.
        assert (In (unplaced x) (map snd (g_flow g))) as Hx by (rewrite <- Ed; apply in_or_app; right; now left).
        apply in_map_iff in Hx as ([o y] & Ey & Hy). cbn in Ey. subst y. unfold flat in F. rewrite Forall_forall in F.
        destruct (F _ Hy) as ((F1 & F2 & _) & _). cbn in F1, F2. destruct (heads_unplaced x) as (_ & <- & <- & _). auto.
  Qed.
  Lemma flat_land g b : flat (g_flow g) -> sound b -> flat (g_flow (land b g)).
  Proof. intros F S. rewrite land_flow. apply flat_app. split; [assumption|]. apply Forall_cons; [|constructor]. now apply sound_settled. Qed.
  Lemma kept_land k g b : kept k (g_flow g) -> sound b -> is_parent b = false \/ (exists h, k = KTop h) -> kept k (g_flow (land b g)).
  Proof.
    intros F S P. rewrite land_flow. destruct k; [exact I|]. destruct P as [P|(h & P)]; [|discriminate].
    apply Forall_app. split; [assumption|]. apply Forall_cons; [|constructor]. split; [assumption|apply S].
  Qed.

  Lemma blank_idle k g t lst attrs bst ol il force dang a : is_word newline t -> ended lst -> agrees attrs (g_env g) -> room k ol bst a g -> held ol (g_keep g) ->
    flat (g_flow g) -> kept k (g_flow g) ->
    exists p', loop [t] (st lst attrs bst [] ol (g_keep g) il force (g_flag g) dang a) = Ok p' /\ at_rest k g p'.
  Proof.
    intros W L A R Hc F1 F2. cbn [parse_loop]. rewrite blank_newline by (assumption || eapply room_no_item; eassumption).
    rewrite add_nothing. cbn [bind]. rewrite (idle k lst attrs bst ol _ force _ a g Hc R). cbn [bind]. rewrite set_last_st, (word_type _ _ W).
    eexists. split; [reflexivity|]. exists TNewLineChar, attrs, bst, ol, true, a.
    split; [reflexivity|]. split; [reflexivity|]. split; [assumption|]. split; [assumption|]. split; [assumption|]. split; [now left|]. auto.
  Qed.
  Lemma rest_land k g lst attrs bst ol a b : ended lst -> agrees attrs (g_env g) -> room k ol bst a (land b g) -> held ol (g_keep g) ->
    flat (g_flow (land b g)) -> kept k (g_flow (land b g)) ->
    at_rest k (land b g) (st lst attrs bst [] ol (g_keep g) false true (g_flag (land b g)) None a).
  Proof.
    intros L A R Hc F1 F2. destruct (land_env b g) as [E1 E2]. exists lst, attrs, bst, ol, true, a. rewrite E1, E2.
    split; [reflexivity|]. split; [assumption|]. split; [assumption|]. split; [assumption|]. split; [assumption|]. split; [now left|]. auto.
  Qed.
  Lemma blank_settle k g t lst attrs b bst ol il force dang a : is_word newline t -> ended lst -> agrees attrs (g_env g) -> room k ol bst a g -> held ol (g_keep g) ->
    flat (g_flow g) -> kept k (g_flow g) -> sound b -> is_parent b = false \/ (exists h, k = KTop h) -> shows k (land (unplaced b) g) ->
    exists p', loop [t] (st lst attrs (b :: bst) [] ol (g_keep g) il force (g_flag g) dang a) = Ok p' /\ at_rest k (land (unplaced b) g) p'.
  Proof.
    intros W L A R Hc F1 F2 S P C. cbn [parse_loop]. rewrite blank_newline; [|assumption|assumption|].
    2:{ destruct S as (_ & S2 & S3 & _). split; assumption. }
    rewrite add_nothing. cbn [bind].
    assert (sound (unplaced b)) as Su by now apply sound_unplaced.
    destruct (settle k lst attrs b bst ol (g_keep g) force a g R S (flat_land _ _ F1 Su) C) as (bst' & a' & E & R'). rewrite E. cbn [bind].
    rewrite set_last_st, (word_type _ _ W). eexists. split; [reflexivity|]. apply rest_land; auto; try reflexivity.
    - now apply flat_land.
    - apply kept_land; auto. destruct P as [P|P]; [left|now right]. destruct (heads_unplaced b) as (_ & _ & _ & ->). assumption.
  Qed.
  Lemma blank_para k g t m lst attrs bst ist x ol il force dang a : is_word newline t -> ended lst -> agrees attrs (g_env g) -> room k ol bst a g -> held ol (g_keep g) ->
    free k force bst -> flat (g_flow g) -> kept k (g_flow g) -> map unplaced_inline (rev ist) = x -> ist <> [] ->
    m = None \/ ((exists h, k = KTop h) /\ Forall located ist) ->
    shows k (land (wrapped (option_map unplaced_meta m) x) g) ->
    exists p', loop [t] (stm m lst attrs bst ist ol (g_keep g) il force (g_flag g) dang a) = Ok p'
      /\ at_rest k (land (wrapped (option_map unplaced_meta m) x) g) p'.
  Proof.
    intros W L A R Hc Fr F1 F2 B Ne M C. cbn [parse_loop]. rewrite blank_newline by (assumption || eapply room_no_item; eassumption).
    assert (m = None \/ (ol = [] /\ Forall located ist)) as M'.
    { destruct M as [->|((h & ->) & M)]; [now left|right]. split; [apply R|exact M]. }
    destruct (add_para k m lst attrs bst ist x ol (g_keep g) false force (g_flag g) None a g B Ne M' Hc R Fr) as (b & -> & Eb). cbn [bind].
    assert (sound b) as S by (apply sound_unplaced; rewrite Eb; apply sound_wrapped). rewrite <- Eb in *.
    assert (sound (unplaced b)) as Su by now apply sound_unplaced.
    destruct (settle k lst attrs b bst ol (g_keep g) force a g R S (flat_land _ _ F1 Su) C) as (bst' & a' & E & R'). rewrite E. cbn [bind].
    rewrite set_last_st, (word_type _ _ W). eexists. split; [reflexivity|]. apply rest_land; auto; try reflexivity.
    - now apply flat_land.
    - apply kept_land; auto. rewrite Eb. destruct M as [->|((h & ->) & M)]; [left; reflexivity|right; eauto].
  Qed.

  (** *** Text *)
  Lemma text_loop l ts m lst attrs e bst ol keep il force close dang wait a : agrees attrs e -> are_words (text_words l) ts -> text_fits keep wait l = true -> pending wait dang ->
    exists lst' ist' m' il' dang', loop ts (stm m lst attrs bst [] ol keep il force close dang a)
      = Ok (stm m' lst' attrs bst ist' ol keep il' (force || styled l) (close || macros l) dang' a)
      /\ steady lst' /\ map unplaced_inline (rev ist') = text_inlines keep e (option_map unplaced_meta m) wait l
      /\ option_map unplaced_meta m' = text_rest keep e (option_map unplaced_meta m) wait l /\ ist' <> [] /\ Forall located ist'
      /\ (il = false -> il' = false) /\ pending (snd (fst (text_draft keep e (option_map unplaced_meta m) wait l))) dang'.
  Proof.
    intros A W F P.
    destruct (text_step w fuel here resolve None attrs bst None ol keep a e A l ts lst m il force close dang wait W) as (l1 & i1 & m1 & il1 & d1 & E & S & B & M & N & D & _); auto.
    { split; now left. }
    destruct (text_located w fuel keep wait l ts (stm m lst attrs bst [] ol keep il force close dang a) _ W F eq_refl eq_refl eq_refl eq_refl E) as [Lo Il].
    exists l1, i1, m1, il1, d1. rewrite map_rev. split; [exact E|]. split; [exact S|]. split; [exact B|]. split; [exact M|]. split; [exact N|].
    split; [exact Lo|]. split; [exact Il|exact D].
  Qed.
  Lemma line_loop l ts t m lst attrs e bst ol keep il force close dang wait a : agrees attrs e -> are_words (text_words l) ts -> text_fits keep wait l = true -> pending wait dang ->
    is_word newline t ->
    exists ist' m' dang', loop (ts ++ [t]) (stm m lst attrs bst [] ol keep il force close dang a)
      = Ok (stm m' TNewLineChar attrs bst ist' ol keep false (force || styled l) (close || macros l) dang' a)
      /\ map unplaced_inline (rev ist') = text_inlines keep e (option_map unplaced_meta m) wait l
      /\ option_map unplaced_meta m' = text_rest keep e (option_map unplaced_meta m) wait l /\ ist' <> [] /\ Forall located ist'.
  Proof.
    intros A W F P Wn. destruct (text_loop l ts m lst attrs e bst ol keep il force close dang wait a A W F P) as (l1 & i1 & m1 & il1 & d1 & E & [S1 S2] & B & M & N & Lo & _).
    destruct (soft_newline t m1 l1 attrs bst i1 ol keep il1 (force || styled l) (close || macros l) d1 a Wn S1) as (d2 & E2 & _).
    exists i1, m1, d2. split; [|auto]. exact (loop_join w fuel _ _ _ _ _ E E2).
  Qed.
  Lemma text_loop0 l ts lst attrs e bst ol keep il force close a : agrees attrs e -> are_words (text_words l) ts -> text_fits keep false l = true ->
    exists lst' ist' il' dang', loop ts (st lst attrs bst [] ol keep il force close None a)
      = Ok (st lst' attrs bst ist' ol keep il' (force || styled l) (close || macros l) dang' a)
      /\ steady lst' /\ map unplaced_inline (rev ist') = text_inlines keep e None false l /\ ist' <> [].
  Proof.
    intros A W F. destruct (text_loop l ts None lst attrs e bst ol keep il force close None false a A W F eq_refl) as (l1 & i1 & m1 & il1 & d1 & E & S & B & M & N & _).
    cbn [option_map] in M. rewrite rest_none in M. destruct m1; [discriminate|]. exists l1, i1, il1, d1. auto.
  Qed.
  Lemma line_loop0 l ts t lst attrs e bst ol keep il force close a : agrees attrs e -> are_words (text_words l) ts -> text_fits keep false l = true ->
    is_word newline t ->
    exists ist' dang', loop (ts ++ [t]) (st lst attrs bst [] ol keep il force close None a)
      = Ok (st TNewLineChar attrs bst ist' ol keep false (force || styled l) (close || macros l) dang' a)
      /\ map unplaced_inline (rev ist') = text_inlines keep e None false l /\ ist' <> [].
  Proof.
    intros A W F Wn. destruct (text_loop0 l ts lst attrs e bst ol keep il force close a A W F) as (l1 & i1 & il1 & d1 & E & [S1 S2] & B & N).
    destruct (soft_newline t None l1 attrs bst i1 ol keep il1 (force || styled l) (close || macros l) d1 a Wn S1) as (d2 & E2 & _).
    exists i1, d2. split; [|auto]. exact (loop_join w fuel _ _ _ _ _ E E2).
  Qed.
  Lemma free_styled k force bst b : free k force bst -> free k (force || b) bst.
  Proof. intros [->|H]; [now left|now right]. Qed.
  Lemma para_step k g me wait p l ts t t' : primed k g me wait p -> me = None \/ (exists h, k = KTop h) -> text_fits (g_keep g) wait l = true ->
    are_words (text_words l) ts -> is_word newline t -> is_word newline t' ->
    shows k (land (page_para g me wait l) (flag_page (macros l) g)) ->
    exists p', loop ((ts ++ [t]) ++ [t']) p = Ok p' /\ at_rest k (land (page_para g me wait l) (flag_page (macros l) g)) p'.
  Proof.
    intros (m & lst & attrs & bst & ol & force & a & dang & -> & <- & D & L & A & R & Hc & F & N1 & N2) K Hf W Wt Wt' C.
    destruct (line_loop l ts t m lst attrs (g_env g) bst ol (g_keep g) false force (g_flag g) dang wait a A W Hf D Wt) as (i1 & m1 & d1 & E1 & B1 & M1 & Ni & Lo).
    unfold page_para in *. rewrite <- M1, <- B1 in *.
    destruct (blank_para k (flag_page (macros l) g) t' m1 TNewLineChar attrs bst i1 _ ol false (force || styled l) d1 a Wt' eq_refl A R Hc (free_styled _ _ _ _ F) N1 N2 eq_refl Ni) as (p' & E2 & P2).
    { destruct K as [K|K]; [left|right; auto]. destruct m; [discriminate|]. cbn [option_map] in M1. rewrite rest_none in M1. now destruct m1. }
    { exact C. }
    exists p'. split; [|exact P2]. exact (loop_join w fuel _ _ _ _ _ E1 E2).
  Qed.

  (** *** Lists *)
  Definition mark_of (o : bool) : bytes := if o then bs "." else bs "*".
  Definition variant_of (o : bool) : list_variant := if o then LOrdered else LUnordered.
  Definition item_of (o : bool) (x : list inline) : block := Blk (HListItem (mark_of o) x) None [] [].
  Definition is_bare_list (o : bool) (me : option metadata) (kids : list block) (b : block) : Prop := unplaced b = Blk (HList (variant_of o)) me kids [].
  Definition is_bare_item (o : bool) (b : block) : Prop := unplaced b = Blk (HListItem (mark_of o) []) None [] [].
  Lemma close_item o me kids ls it lst attrs bst ist x ol keep force close dang a : is_bare_list o me kids ls -> is_bare_item o it ->
    map unplaced_inline (rev ist) = x ->
    exists ls', add_last_list_item_to_list (st lst attrs (it :: ls :: bst) ist ol keep false force close dang a)
      = Ok (st lst attrs (ls' :: bst) [] ol keep false false close dang a)
      /\ is_bare_list o me (kids ++ [item_of o x]) ls'.
  Proof.
    intros Hl Hi B. unfold is_bare_list, is_bare_item in *. unfold add_last_list_item_to_list.
    destruct it as [hi mi ki li]. cbn [unplaced] in Hi. injection Hi as Hh Hm Hk. destruct hi as [|mk ?| | | | | | | |]; try discriminate Hh.
    cbn in Hh. injection Hh as -> Hx. apply map_eq_nil in Hx as ->. apply map_eq_nil in Hk as ->. destruct mi; [discriminate|].
    assert (add_inlines_to_block_stack (set_force_new false (st lst attrs (Blk (HListItem (mark_of o) []) None [] li :: ls :: bst) ist ol keep false force close dang a))
      = Ok (st lst attrs (Blk (HListItem (mark_of o) (rev ist)) None [] li :: ls :: bst) [] ol keep false false close dang a)) as ->.
    { unfold add_inlines_to_block_stack. cst. destruct ist as [|i ist]; [reflexivity|].
      cbn [takes_inlines b_head]. pst. rewrite ArticleProofs.push_inlines_item. reflexivity. }
    cbn [bind]. cst. cbn [is_list_item is_dlist_item b_head]. pst.
    destruct ls as [hl ml kl ll]. cbn [unplaced] in Hl. injection Hl as Hh Hm' Hk. destruct hl as [| | | |v| | | | |]; try discriminate Hh. injection Hh as ->.
    eexists. split; [reflexivity|]. rewrite unplaced_consolidate. cbn [unplaced unplaced_head]. rewrite map_app, Hk, Hm'. cbn [map unplaced unplaced_head option_map].
    now rewrite B.
  Qed.
  Lemma item_token o t me lst attrs bst ist ol keep il force close dang a : is_word (point_word o) t ->
    token_into w fuel t (stm me lst attrs bst ist ol keep il force close dang a)
    = (if o then parse_ordered_list_item else parse_unordered_list_item) t (stm me lst attrs bst ist ol keep il force close dang a).
  Proof.
    intros W. rewrite (go (point_word o)) by (assumption || now destruct o). unfold dispatch. rewrite (word_type _ _ W). now destruct o.
  Qed.
  Lemma mark_lexeme o t : is_word (point_word o) t -> trim (lexeme t) = mark_of o.
  Proof. intros (_ & -> & _). now destruct o. Qed.
  Lemma callout_type o t : is_word (point_word o) t -> tt_eqb (ttype t) TCodeCalloutListItem = false.
  Proof. intros (-> & _). now destruct o. Qed.

  Definition points_words (o : bool) (l : list (list element)) : list word :=
    List.concat (map (fun i => point_word o :: text_words i ++ [newline]) l).
  Lemma flag_twice m1 m2 g : flag_page m2 (flag_page m1 g) = flag_page (m1 || m2) g.
  Proof. unfold flag_page. cbn. now rewrite orb_assoc. Qed.
  Lemma items_loop k o rest : forall ts t g me kids ls it lst attrs bst ist x ol force dang a,
    are_words (points_words o rest) ts -> is_word newline t -> forallb (text_fits (g_keep g) false) rest = true ->
    is_bare_list o me kids ls -> is_bare_item o it -> map unplaced_inline (rev ist) = x -> ended lst -> forallb tidy kids = true ->
    agrees attrs (g_env g) -> room k ol bst a g -> held ol (g_keep g) -> flat (g_flow g) -> kept k (g_flow g) ->
    forall b, b = Blk (HList (variant_of o)) me (kids ++ item_of o x :: map (fun i => item_of o (page_text g i)) rest) [] ->
    shows k (land b (flag_page (existsb macros rest) g)) ->
    exists p', loop (ts ++ [t]) (st lst attrs (it :: ls :: bst) ist ol (g_keep g) false force (g_flag g) dang a) = Ok p'
      /\ at_rest k (land b (flag_page (existsb macros rest) g)) p'.
  Proof.
    induction rest as [|i rest IH]; intros ts t g me kids ls it lst attrs bst ist x ol force dang a W Wt F Hl Hi B L Tk A R Hc N1 N2 b Eb C.
    - inversion W. subst ts. cbn [app parse_loop].
      assert (is_list_item it = true) as Hit by (destruct (heads_unplaced it) as (_ & <- & _); now rewrite Hi).
      rewrite blank_item by assumption.
      destruct (close_item o me kids ls it lst attrs bst ist x ol (g_keep g) force (g_flag g) None a Hl Hi B) as (ls' & E & Hl'). rewrite E. cbn [bind].
      match goal with |- context [add_inlines_to_block_stack ?p] => change p with (st lst attrs (ls' :: bst) [] ol (g_keep g) false false (g_flag g) None a) end.
      rewrite add_nothing. cbn [bind]. cbn [existsb map] in *. replace (flag_page false g) with g in * by (unfold flag_page; destruct g; cbn; now rewrite orb_false_r).
      assert (unplaced ls' = b) as El by (rewrite Eb; exact Hl').
      assert (sound b) as Sb.
      { rewrite Eb. split; [reflexivity|]. split; [reflexivity|]. split; [reflexivity|]. cbn [tidy tidy_head andb]. now rewrite forallb_app, Tk. }
      assert (sound ls') as S by (apply sound_unplaced; now rewrite El).
      rewrite <- El in *.
      destruct (settle k lst attrs ls' bst ol (g_keep g) false a g R S (flat_land _ _ N1 Sb) C) as (bst' & a' & E' & R').
      rewrite E'. cbn [bind]. rewrite set_last_st, (word_type _ _ Wt). eexists. split; [reflexivity|].
      apply rest_land; auto; try reflexivity; [now apply flat_land|]. apply kept_land; auto. left. now rewrite Eb.
    - cbn [forallb] in F. apply andb_prop in F as [F1 F2]. unfold points_words in W. cbn [map List.concat] in W.
      apply words_split in W as (t1 & t2 & -> & W1 & W2). apply words_cons in W1 as (tk & t3 & -> & Wk & W1).
      apply words_split in W1 as (t4 & t5 & -> & W4 & W5). apply words_cons in W5 as (tn & t6 & -> & Wn & W6). inversion W6. subst t6.
      cbn [app parse_loop]. rewrite (item_token o) by assumption.
      assert (exists ls' it', (if o then parse_ordered_list_item else parse_unordered_list_item) tk
                 (st lst attrs (it :: ls :: bst) ist ol (g_keep g) false force (g_flag g) dang a)
               = Ok (st lst attrs (it' :: ls' :: bst) [] ol (g_keep g) false false (g_flag g) None a)
               /\ is_bare_list o me (kids ++ [item_of o x]) ls' /\ is_bare_item o it')
        as (ls' & it' & E & Hl' & Hi').
      { destruct (close_item o me kids ls it lst attrs bst ist x ol (g_keep g) force (g_flag g) None a Hl Hi B) as (ls' & E & Hl').
        exists ls', (Blk (HListItem (mark_of o) []) None [] (token_locations tk)). split; [|split; [assumption|reflexivity]].
        assert (if o then is_ordered_list_item it = true else is_unordered_list_item it = true) as Ho.
        { unfold is_bare_item in Hi. destruct it as [hi mi ki li]. cbn [unplaced] in Hi. injection Hi as Hh _ _.
          destruct hi as [|mk ?| | | | | | | |]; try discriminate Hh. cbn in Hh. injection Hh as -> _. now destruct o. }
        pose proof (mark_lexeme o tk Wk) as Hm.
        destruct o; unfold parse_ordered_list_item, parse_unordered_list_item, new_list_item; rewrite Hm; cst; rewrite Ho;
          match goal with |- context [add_last_list_item_to_list ?p] => change p with (st lst attrs (it :: ls :: bst) ist ol (g_keep g) false force (g_flag g) None a) end;
          rewrite E; cbn [bind]; unfold push_block_to_stack; cst; rewrite Hc; reflexivity. }
      rewrite E. cbn [bind]. rewrite set_last_st.
      destruct (line_loop0 i t4 tn (ttype tk) attrs (g_env g) (it' :: ls' :: bst) ol (g_keep g) false false (g_flag g) a A W4 F1 Wn) as (i1 & d1 & E1 & B1 & Ni).
      destruct (IH t2 t (flag_page (macros i) g) me (kids ++ [item_of o x]) ls' it' TNewLineChar attrs bst i1 _ ol (false || styled i) d1 a W2 Wt F2 Hl' Hi' B1 eq_refl)
        with (b := b) as (p' & E2 & P2); auto.
      { now rewrite forallb_app, Tk. }
      { rewrite Eb, <- app_assoc. reflexivity. }
      { rewrite flag_twice. exact C. }
      rewrite flag_twice in P2. exists p'. split; [|exact P2].
      rewrite <- app_assoc. exact (loop_join w fuel _ _ _ _ _ E1 E2).
  Qed.
  Lemma items_step k g me wait p o l ts t : primed k g me wait p -> l <> [] -> forallb (text_fits (g_keep g) false) l = true ->
    are_words (leaf_words (Points o l)) ts -> is_word newline t ->
    forall b, b = Blk (HList (variant_of o)) (worn me) (map (fun i => item_of o (page_text g i)) l) [] ->
    shows k (land b (flag_page (existsb macros l) g)) ->
    exists p', loop (ts ++ [t]) p = Ok p' /\ at_rest k (land b (flag_page (existsb macros l) g)) p'.
  Proof.
    intros (m & lst & attrs & bst & ol & force & a & dang & -> & <- & D & L & A & R & Hc & F & N1 & N2) Ne Lf W Wt b Eb C.
    destruct l as [|i rest]; [congruence|]. cbn [forallb] in Lf. apply andb_prop in Lf as [F1 F2]. cbn [leaf_words map List.concat] in W.
    apply words_split in W as (t1 & t2 & -> & W1 & W2). apply words_cons in W1 as (tk & t3 & -> & Wk & W1).
    apply words_split in W1 as (t4 & t5 & -> & W4 & W5). apply words_cons in W5 as (tn & t6 & -> & Wn & W6). inversion W6. subst t6.
    cbn [app parse_loop]. rewrite (item_token o) by assumption.
    set (it := Blk (HListItem (mark_of o) []) None [] (token_locations tk)).
    assert (exists ls, (if o then parse_ordered_list_item else parse_unordered_list_item) tk
              (stm m lst attrs bst [] ol (g_keep g) false force (g_flag g) dang a)
            = Ok (st lst attrs (it :: ls :: bst) [] ol (g_keep g) false force (g_flag g) None a)
            /\ unplaced ls = Blk (HList (variant_of o)) (worn (option_map unplaced_meta m)) [] []) as (ls & E & Els).
    { pose proof (mark_lexeme o tk Wk) as Hm. pose proof (callout_type o tk Wk) as Hco. pose proof (room_no_item _ _ _ _ _ R N1) as H.
      destruct o; unfold parse_ordered_list_item, parse_unordered_list_item, new_list_item; rewrite Hm; cst.
      - replace (match bst with [] => false | b :: _ => is_ordered_list_item b end) with false.
        + rewrite Hco. unfold push_block_to_stack, new_list. pst. rewrite Hc. destruct m as [m|]; cbn [option_map bind]; pst; [|rewrite Hc; eexists; split; reflexivity].
          match goal with |- context [add_metadata (Blk ?h None ?k ?lo) m] => destruct (meta_added h m k lo eq_refl) as (x & -> & Ex) end. pst. rewrite Hc.
          exists x. split; [reflexivity|exact Ex].
        + destruct bst as [|[[] ? ? ?] ?]; try reflexivity. destruct H; discriminate.
      - replace (match bst with [] => false | b :: _ => is_unordered_list_item b end) with false.
        + unfold push_block_to_stack, new_list. pst. rewrite Hc. destruct m as [m|]; cbn [option_map bind]; pst; [|rewrite Hc; eexists; split; reflexivity].
          match goal with |- context [add_metadata (Blk ?h None ?k ?lo) m] => destruct (meta_added h m k lo eq_refl) as (x & -> & Ex) end. pst. rewrite Hc.
          exists x. split; [reflexivity|exact Ex].
        + destruct bst as [|[[] ? ? ?] ?]; try reflexivity. destruct H; discriminate. }
    rewrite E. cbn [bind]. rewrite set_last_st.
    destruct (line_loop0 i t4 tn (ttype tk) attrs (g_env g) (it :: ls :: bst) ol (g_keep g) false force (g_flag g) a A W4 F1 Wn) as (i1 & d1 & E1 & B1 & Ni).
    destruct (items_loop k o rest t2 t (flag_page (macros i) g) _ [] ls it TNewLineChar attrs bst i1 _ ol (force || styled i) d1 a W2 Wt F2 Els eq_refl B1 eq_refl eq_refl A R Hc N1 N2 b)
      as (p' & E2 & P2).
    { rewrite Eb. reflexivity. }
    { rewrite flag_twice. exact C. }
    rewrite flag_twice in P2. exists p'. split; [|exact P2]. rewrite <- app_assoc. exact (loop_join w fuel _ _ _ _ _ E1 E2).
  Qed.

  (** *** Description lists *)
  Definition is_terms (me : option metadata) (kids : list block) (b : block) : Prop := unplaced b = Blk HDList me kids [].
  Definition is_term (t : list inline) (b : block) : Prop := unplaced b = Blk (HDListItem t []) None [] [].
  Lemma blank_term t lst attrs b bst ist ol keep il force close dang a : is_word newline t -> ended lst -> is_dlist_item b = true ->
    token_into w fuel t (st lst attrs (b :: bst) ist ol keep il force close dang a)
    = (let* p := add_last_list_item_to_list (st lst attrs (b :: bst) ist ol keep false force close None a) in
       let* p := add_inlines_to_block_stack (set_in_span false p) in blank_tail p).
  Proof.
    intros W L N. rewrite nl_go by assumption. unfold parse_new_line_char. cst. rewrite L. pst. rewrite N, orb_true_r. reflexivity.
  Qed.
  Lemma push_inlines_term te l m k loc : forall x, push_inlines (Blk (HDListItem te x) m k loc) l = Ok (Blk (HDListItem te (x ++ l)) m k loc).
  Proof. induction l as [|i l IH]; intros x; cbn [push_inlines push_inline bind]; [now rewrite app_nil_r|]. now rewrite IH, <- app_assoc. Qed.
  Lemma add_term te it lst attrs bst ist x ol keep close dang a : is_term te it -> map unplaced_inline (rev ist) = x ->
    exists it', add_inlines_to_block_stack (st lst attrs (it :: bst) ist ol keep false false close dang a)
      = Ok (st lst attrs (it' :: bst) [] ol keep false false close dang a) /\ unplaced it' = term_block te x.
  Proof.
    intros Hi B. unfold is_term in Hi. destruct it as [hi mi ki li]. cbn [unplaced] in Hi. injection Hi as Hh Hm Hk.
    destruct hi as [| | | |t0 p0| | | | |]; try discriminate Hh. cbn in Hh. injection Hh as Ht Hp. apply map_eq_nil in Hp as ->. apply map_eq_nil in Hk as ->. destruct mi; [discriminate|].
    exists (Blk (HDListItem t0 (rev ist)) None [] li). split.
    - unfold add_inlines_to_block_stack. cst. destruct ist as [|i ist]; [reflexivity|]. cbn [takes_inlines b_head]. pst. rewrite push_inlines_term. reflexivity.
    - unfold term_block. cbn. now rewrite Ht, B.
  Qed.
  Lemma close_term me kids te ls it lst attrs bst ist x ol keep force close dang a : is_terms me kids ls -> is_term te it ->
    map unplaced_inline (rev ist) = x ->
    exists ls', add_last_list_item_to_list (st lst attrs (it :: ls :: bst) ist ol keep false force close dang a)
      = Ok (st lst attrs (ls' :: bst) [] ol keep false false close dang a)
      /\ is_terms me (kids ++ [term_block te x]) ls'.
  Proof.
    intros Hl Hi B. destruct (add_term te it lst attrs (ls :: bst) ist x ol keep close dang a Hi B) as (it' & E & U).
    unfold add_last_list_item_to_list.
    change (set_force_new false (st lst attrs (it :: ls :: bst) ist ol keep false force close dang a)) with (st lst attrs (it :: ls :: bst) ist ol keep false false close dang a).
    rewrite E. cbn [bind]. cst.
    assert (is_dlist_item it' = true) as -> by (destruct (heads_unplaced it') as (_ & _ & <- & _); now rewrite U). rewrite orb_true_r.
    unfold is_terms in *. destruct ls as [hl ml kl ll]. cbn [unplaced] in Hl. injection Hl as Hh Hm' Hk. destruct hl; try discriminate Hh.
    eexists. split; [reflexivity|]. rewrite unplaced_consolidate. cbn [unplaced unplaced_head]. rewrite map_app, Hk, Hm'. cbn [map]. now rewrite U.
  Qed.
  Lemma split_newline l : forall x r, map unplaced_inline l = x ++ said ["010"] :: r -> unbroken x = true ->
    exists l1 l2, split_at_newline l = Some (l1, l2) /\ map unplaced_inline l1 = x /\ map unplaced_inline l2 = r.
  Proof.
    induction l as [|i l IH]; intros x r E U; [destruct x; discriminate|]. cbn [split_at_newline]. destruct x as [|y x]; cbn [app map] in E; injection E as E1 E2.
    - destruct i; try discriminate E1. cbn in E1. injection E1 as -> -> ->. exists [], l. cbn. auto.
    - cbn in U. apply andb_prop in U as [U1 U2]. destruct (IH x r E2 U2) as (l1 & l2 & -> & B1 & B2).
      assert (is_newline i = false) as -> by (destruct i; cbn in E1; subst y; try reflexivity; cbn in U1 |- *; now apply negb_true_iff in U1).
      exists (i :: l1), l2. cbn. now rewrite E1, B1.
  Qed.
  Lemma split_whole l : unbroken (map unplaced_inline l) = true -> split_at_newline l = None.
  Proof.
    induction l as [|i l IH]; intros U; [reflexivity|]. cbn in U. apply andb_prop in U as [U1 U2]. cbn [split_at_newline]. rewrite (IH U2).
    destruct i; try reflexivity. cbn in U1 |- *. apply negb_true_iff in U1. unfold NL. now rewrite U1.
  Qed.
  Lemma term_go b t me lst attrs bst ist ol keep il force close dang a : is_word (term_word b) t ->
    token_into w fuel t (stm me lst attrs bst ist ol keep il force close dang a)
    = parse_description_list_term t (stm me lst attrs bst ist ol keep il force close dang a).
  Proof. intros W. rewrite (go (term_word b)) by (assumption || discriminate). unfold dispatch. now rewrite (word_type _ _ W). Qed.

  Definition terms_words (l : list (list element * bool * list element)) : list word :=
    List.concat (map (fun i => text_words (fst (fst i)) ++ term_word (snd (fst i)) :: text_words (snd i) ++ [newline]) l).
  Definition terms_macros (r : list (list element * bool * list element)) : bool := existsb (fun i => macros (fst (fst i)) || macros (snd i)) r.
  Lemma macros_app x y : macros (x ++ y) = macros x || macros y.
  Proof. apply existsb_app. Qed.
  Lemma terms_loop k r : forall ts t x g me kids ls te it attrs bst ol a,
    are_words (text_words x ++ newline :: terms_words r) ts -> is_word newline t -> terms_ok (g_keep g) (g_env g) x r = true ->
    is_terms me kids ls -> is_term te it -> forallb tidy kids = true -> keeps_breaks (g_keep g) = true -> drops_breaks (g_keep g) = false ->
    agrees attrs (g_env g) -> room k ol bst a g -> held ol (g_keep g) -> flat (g_flow g) -> kept k (g_flow g) ->
    forall b, b = Blk HDList me (kids ++ term_block te (page_text g x) :: map (fun i => term_block (page_text g (fst (fst i))) (page_text g (snd i))) r) [] ->
    shows k (land b (flag_page (macros x || terms_macros r) g)) ->
    exists p', loop (ts ++ [t]) (st TDescriptionListMarker attrs (it :: ls :: bst) [] ol (g_keep g) false false (g_flag g) None a) = Ok p'
      /\ at_rest k (land b (flag_page (macros x || terms_macros r) g)) p'.
  Proof.
    induction r as [|[[t1 below] y] r IH]; intros ts t x g me kids ls te it attrs bst ol a W Wt F Hl Hi Tk Kb Kd A R Hc N1 N2 b Eb C.
    - cbn [terms_words map List.concat] in W. apply words_split in W as (t2 & t3 & -> & W2 & W3). apply words_cons in W3 as (t4 & t5 & -> & W4 & W5). inversion W5. subst t5.
      cbn [terms_ok] in F.
      destruct (line_loop0 x t2 t4 TDescriptionListMarker attrs (g_env g) (it :: ls :: bst) ol (g_keep g) false false (g_flag g) a A W2 F W4) as (i1 & d1 & E1 & B1 & Ni).
      assert (is_dlist_item it = true) as Hit by (destruct (heads_unplaced it) as (_ & _ & <- & _); now rewrite Hi).
      destruct (close_term me kids te ls it TNewLineChar attrs bst i1 _ ol (g_keep g) (styled x) (g_flag g || macros x) None a Hl Hi B1) as (ls' & E & Hl').
      cbn [terms_macros existsb map] in *. rewrite orb_false_r in *.
      assert (unplaced ls' = b) as El by (rewrite Eb; exact Hl').
      assert (sound b) as Sb.
      { rewrite Eb. split; [reflexivity|]. split; [reflexivity|]. split; [reflexivity|]. cbn [tidy tidy_head andb]. now rewrite forallb_app, Tk. }
      assert (sound ls') as S by (apply sound_unplaced; now rewrite El).
      rewrite <- El in *.
      destruct (settle k TNewLineChar attrs ls' bst ol (g_keep g) false a (flag_page (macros x) g) R S (flat_land (flag_page (macros x) g) _ N1 Sb) C) as (bst' & a' & E' & R').
      eexists. split.
      + apply (loop_join w fuel _ [t] _ _ _ E1). cbn [parse_loop]. rewrite blank_term by (assumption || reflexivity). cbn [orb]. rewrite E. cbn [bind].
        match goal with |- context [add_inlines_to_block_stack ?p] => change p with (st TNewLineChar attrs (ls' :: bst) [] ol (g_keep g) false false (g_flag g || macros x) None a) end.
        rewrite add_nothing. cbn [bind]. cbn [flag_page g_flag] in E'. rewrite E'. cbn [bind]. rewrite set_last_st. reflexivity.
      + rewrite (word_type _ _ Wt). apply (rest_land k (flag_page (macros x) g)); auto; try reflexivity; [exact (flat_land (flag_page (macros x) g) _ N1 Sb)|]. apply (kept_land k (flag_page (macros x) g)); auto. left. now rewrite Eb.
    - unfold terms_words in W. cbn [map List.concat fst snd] in W. fold (terms_words r) in W.
      replace (text_words x ++ newline :: (text_words t1 ++ term_word below :: text_words y ++ [newline]) ++ terms_words r)
        with (text_words (x ++ Bit Newline :: t1) ++ term_word below :: text_words y ++ newline :: terms_words r) in W.
      2:{ unfold text_words. rewrite map_app, concat_app. cbn [map List.concat element_words bit_word app]. repeat (rewrite <- app_assoc; cbn [app]). reflexivity. }
      apply words_split in W as (t2 & t3 & -> & W2 & W). apply words_cons in W as (tm & t4 & -> & Wm & W).
      cbn [terms_ok] in F. apply andb_prop in F as [F Ft]. apply andb_prop in F as [Fx Fu]. apply andb_prop in Ft as [Ft Fy].
      apply andb_prop in Ft as [Ft Ff]. apply andb_prop in Ft as [F1 Fo].
      destruct (text_loop (x ++ Bit Newline :: t1) t2 None TDescriptionListMarker attrs (g_env g) (it :: ls :: bst) ol (g_keep g) false false (g_flag g) None false a A W2 Ff eq_refl)
        as (l1 & i1 & m1 & il1 & d1 & E1 & _ & B1 & M1 & Ni & _ & Il & D1).
      cbn [option_map] in M1, B1, D1. rewrite rest_none in M1. destruct m1; [discriminate|]. rewrite (Il eq_refl) in E1.
      unfold text_inlines in B1. rewrite (draft_line (g_keep g) (g_env g) x t1 Kb Kd Fx F1 Fo) in B1, D1. cbn [fst snd] in B1, D1. rewrite rev_involutive in B1. destruct d1 as [d1|]; [destruct D1; discriminate|].
      destruct (split_newline _ _ _ B1 Fu) as (la & lb & Es & Ba & Bb).
      destruct (add_term te it l1 attrs (ls :: bst) (rev la) (page_text g x) ol (g_keep g) (g_flag g || macros (x ++ Bit Newline :: t1)) None a Hi) as (it1 & Ea & Ua); [now rewrite rev_involutive|].
      assert (exists ls' it', token_into w fuel tm (st l1 attrs (it :: ls :: bst) i1 ol (g_keep g) false (false || styled (x ++ Bit Newline :: t1)) (g_flag g || macros (x ++ Bit Newline :: t1)) None a)
          = Ok (st l1 attrs (it' :: ls' :: bst) [] ol (g_keep g) false false (g_flag g || macros (x ++ Bit Newline :: t1)) None a)
          /\ is_terms me (kids ++ [term_block te (page_text g x)]) ls' /\ is_term (page_text g t1) it') as (ls' & it' & E2 & Hl' & Hi').
      { rewrite (term_go below) by assumption. unfold parse_description_list_term. cst. rewrite Es.
        match goal with |- context [add_inlines_to_block_stack ?p] => change p with (st l1 attrs (it :: ls :: bst) (rev la) ol (g_keep g) false false (g_flag g || macros (x ++ Bit Newline :: t1)) None a) end.
        rewrite Ea. cst. rewrite app_nil_r, rev_involutive.
        assert (is_dlist_item it1 = true) as Hd by (destruct (heads_unplaced it1) as (_ & _ & <- & _); now rewrite Ua). rewrite Hd.
        unfold add_last_list_item_to_list. cst. unfold add_inlines_to_block_stack. cst. rewrite Hd, orb_true_r.
        unfold is_terms in *. destruct ls as [hl ml kl ll]. cbn [unplaced] in Hl. injection Hl as Hh Hm' Hk. destruct hl; try discriminate Hh.
        unfold push_block. pst. unfold push_block_to_stack. pst. rewrite Hc. pst.
        eexists _, (new_dlist_item lb (token_locations tm)). split; [unfold stm, tstate; cbn; rewrite Kb; reflexivity|]. split.
        - rewrite unplaced_consolidate. cbn [unplaced unplaced_head]. rewrite map_app, Hk, Hm'. cbn [map]. now rewrite Ua.
        - unfold is_term, new_dlist_item, page_text. cbn. now rewrite Bb. }
      rewrite macros_app in *. cbn [macros existsb] in *. fold (macros t1) in *. cbn [orb] in *.
      destruct (IH t4 t y (flag_page (macros x || macros t1) g) me _ ls' (page_text g t1) it' attrs bst ol a W Wt Fy Hl' Hi') with (b := b) as (p' & E3 & P3); auto.
      { now rewrite forallb_app, Tk. }
      { rewrite Eb, <- app_assoc. reflexivity. }
      { rewrite flag_twice. replace (macros x || macros t1 || (macros y || terms_macros r)) with (macros x || terms_macros ((t1, below, y) :: r)); [exact C|].
        unfold terms_macros. cbn [existsb fst snd]. now rewrite !orb_assoc. }
      rewrite flag_twice in P3. replace (macros x || macros t1 || (macros y || terms_macros r)) with (macros x || terms_macros ((t1, below, y) :: r)) in P3
        by (unfold terms_macros; cbn [existsb fst snd]; now rewrite !orb_assoc).
      exists p'. split; [|exact P3]. rewrite <- app_assoc. apply (loop_join w fuel _ _ _ _ _ E1). cbn [app]. rewrite (loop_cons w fuel _ _ _ _ E2), (word_type _ _ Wm). exact E3.
  Qed.
  Definition first_term (g : page) (me : option metadata) (t x : list element) (r : list (list element * bool * list element)) : block :=
    Blk HDList (worn (text_rest (g_keep g) (g_env g) me false t))
      (term_block (text_inlines (g_keep g) (g_env g) me false t) (page_text (keeping g) x)
       :: map (fun i => term_block (page_text (keeping g) (fst (fst i))) (page_text (keeping g) (snd i))) r) [].
  Lemma terms_step k g me p t1 below x r ts t : primed k g me false p -> drops_breaks (g_keep g) = false ->
    text_fits (g_keep g) false t1 = true -> one_line t1 = true -> unbroken (text_inlines (g_keep g) (g_env g) me false t1) = true ->
    terms_ok (g_keep (keeping g)) (g_env g) x r = true ->
    are_words (leaf_words (Terms ((t1, below, x) :: r))) ts -> is_word newline t ->
    shows k (land (first_term g me t1 x r) (flag_page (macros t1 || macros x || terms_macros r) (keeping g))) ->
    exists p', loop (ts ++ [t]) p = Ok p'
      /\ at_rest k (land (first_term g me t1 x r) (flag_page (macros t1 || macros x || terms_macros r) (keeping g))) p'.
  Proof.
    intros (m & lst & attrs & bst & ol & force & a & dang & -> & <- & D & L & A & R & Hc & F & N1 & N2) Kd F1 F2 F3 F4 W Wt C.
    destruct dang; [destruct D; discriminate|]. clear D.
    cbn [leaf_words map List.concat fst snd] in W. fold (terms_words r) in W. repeat (rewrite <- app_assoc in W; cbn [app] in W). apply words_split in W as (t2 & t3 & -> & W2 & W).
    apply words_cons in W as (tm & t4 & -> & Wm & W).
    destruct (text_loop t1 t2 m lst attrs (g_env g) bst ol (g_keep g) false force (g_flag g) None false a A W2 F1 eq_refl)
      as (l1 & i1 & m1 & il1 & d1 & E1 & _ & B1 & M1 & Ni & _ & Il & D1).
    rewrite (Il eq_refl) in E1. unfold text_draft in D1. rewrite (draft_rest _ _ _ F2) in D1. destruct d1; [destruct D1; discriminate|].
    assert (exists ls it, token_into w fuel tm (stm m1 l1 attrs bst i1 ol (g_keep g) false (force || styled t1) (g_flag g || macros t1) None a)
        = Ok (st l1 attrs (it :: ls :: bst) [] ol (g_keep (keeping g)) false false (g_flag g || macros t1) None a)
        /\ is_terms (worn (text_rest (g_keep g) (g_env g) (option_map unplaced_meta m) false t1)) [] ls
        /\ is_term (text_inlines (g_keep g) (g_env g) (option_map unplaced_meta m) false t1) it) as (ls & it & E2 & Hl & Hi).
    { rewrite (term_go below) by assumption. unfold parse_description_list_term. cst. rewrite split_whole by (rewrite B1; exact F3). cst.
      pose proof (room_no_item _ _ _ _ _ R N1) as H.
      replace (match bst with [] => false | b :: _ => is_dlist_item b end) with false by (destruct bst as [|[[] ? ? ?] ?]; try reflexivity; destruct H; discriminate).
      match goal with |- context [push_block_to_stack (new_dlist ?l) ?p] =>
        change p with (tstate here resolve None attrs bst None ol (g_keep g) a l1 [] m1 None false false false (g_flag g || macros t1) None);
        destruct (push_worn HDList [] l None attrs bst None ol (g_keep g) a l1 [] m1 None false false (g_flag g || macros t1) None Hc eq_refl) as (me & E & Me);
        change (new_dlist l) with (Blk HDList None [] l); rewrite E end.
      cst. unfold push_block_to_stack. pst. rewrite Hc. pst.
      eexists _, (new_dlist_item (rev i1) (token_locations tm)). split; [reflexivity|]. split.
      - unfold is_terms. cbn [unplaced unplaced_head map]. now rewrite Me, M1.
      - unfold is_term, new_dlist_item. cbn. now rewrite B1. }
    destruct (terms_loop k r t4 t x (flag_page (macros t1) (keeping g)) _ [] ls _ it attrs bst ol a W Wt F4 Hl Hi eq_refl eq_refl Kd A R) with (b := first_term g (option_map unplaced_meta m) t1 x r)
      as (p' & E3 & P3); auto.
    { rewrite flag_twice, orb_assoc. exact C. }
    rewrite flag_twice, orb_assoc in P3. exists p'. split; [|exact P3].
    rewrite <- app_assoc. apply (loop_join w fuel _ _ _ _ _ E1). cbn [app]. rewrite (loop_cons w fuel _ _ _ _ E2), (word_type _ _ Wm). exact E3.
  Qed.

  (** *** Verbatim blocks: an opening fence, the words, and the closing fence *)
  Definition vt lst attrs bst ist ol keep force close a ot dang : pstate :=
    tstate here resolve None attrs bst None ol keep a lst ist None ot false false force close dang.
  (** the fences, and the words they hold *)
  Definition shouts (ty : token_type) (x : word) : bool := tt_eqb ty TSourceBlock && tt_eqb (fst x) TCodeCallout.
  Definition holds_words (ty : token_type) (e : env) (ws : list word) : bool :=
    match ty with
    | TSourceBlock => closes TSourceBlock ws && closes TInclude ws && forallb (fun x => negb (shouts ty x) || callout_fits e (snd x)) ws
    | TLiteralBlock | TPassthroughBlock | TCommentBlock => closes ty ws
    | _ => false
    end.
  Definition fence_name (ty : token_type) : leaf_name :=
    match ty with TLiteralBlock => NLiteral | TPassthroughBlock => NPass | _ => NListing end.
  Lemma holds_cons ty e x ws : holds_words ty e (x :: ws) = true -> holds_words ty e [x] = true /\ holds_words ty e ws = true.
  Proof.
    unfold holds_words, closes. cbn [existsb forallb]. destruct ty; try discriminate; rewrite ?orb_false_r, ?andb_true_r; intros H;
      repeat match goal with K : _ && _ = true |- _ => apply andb_prop in K as [? ?] end;
      repeat match goal with K : negb (_ || existsb _ _) = true |- _ => rewrite negb_orb in K; apply andb_prop in K as [? ?] end;
      repeat match goal with K : _ = true |- _ => rewrite K; clear K end; split; reflexivity.
  Qed.
  Lemma pass_token ty e x t lst attrs bst ist ol keep force close a dang : holds_words ty e [x] = true -> shouts ty x = false -> is_word x t ->
    token_into w fuel t (vt lst attrs bst ist ol keep force close a (Some ty) dang)
    = pass_text_through t (vt lst attrs bst ist ol keep force close a (Some ty) dang).
  Proof.
    intros H Sh W. assert (pre_dispatch t (vt lst attrs bst ist ol keep force close a (Some ty) dang) = PrePass) as E.
    { unfold pre_dispatch, vt. pst. rewrite (word_type _ _ W). unfold holds_words, closes in H. cbn [existsb] in H. rewrite ?orb_false_r in H. unfold shouts in Sh.
      destruct ty; try discriminate H; repeat match goal with K : _ && _ = true |- _ => apply andb_prop in K as [? ?] end;
        repeat match goal with K : negb (tt_eqb _ _) = true |- _ => apply negb_true_iff in K; rewrite K end; try reflexivity.
      cbn [tt_eqb andb] in Sh. change (tt_eqb (fst x) TCodeCallout = false) in Sh. now rewrite Sh. }
    destruct fuel; cbn [token_into]; unfold vt in *; pst; rewrite E; reflexivity.
  Qed.
  Definition fence_write (ty : token_type) (keep : manner) (d : draft) (x : word) : draft :=
    if shouts ty x then (conum (snd x) :: fst d, snd d) else put keep false d (said (snd x)).
  Lemma callout_inner s : 2 <= List.length s -> forallb is_ascii s = true -> Meta.inner s 1 1 = (Ok (removelast (tl s)) : result bytes).
  Proof.
    destruct s as [|c s]; cbn [List.length]; [lia|]. destruct s as [|d s]; cbn [List.length]; [lia|]. intros _ H.
    cbn [tl]. destruct (exists_last (l := d :: s)) as (m & z & E); [discriminate|]. rewrite E. rewrite removelast_last. rewrite E in H. clear d s E.
    unfold Meta.inner. cbn [List.length]. rewrite app_length. cbn [List.length]. replace (S (List.length m + 1) <? 1) with false by reflexivity.
    cbn [forallb] in H. apply andb_prop in H as [_ H]. rewrite forallb_app in H. apply andb_prop in H as [Hm Hz]. cbn [forallb] in Hz. rewrite andb_true_r in Hz.
    assert (starts_char [z]) as Z by (now apply ascii_starts).
    pose proof (slice_mid (E := error) [c] m [z]) as M. cbn [app List.length] in M.
    replace (S (List.length m + 1) - 1) with (1 + List.length m) by lia. apply M; [|exact Z].
    destruct m as [|x m]; [exact Z|]. cbn. apply ascii_starts. cbn [forallb] in Hm. now apply andb_prop in Hm as [? _].
  Qed.
  Lemma callout_step ty e x t lst attrs bst ist ol keep force close a dang : holds_words ty e [x] = true -> shouts ty x = true -> is_word x t -> agrees attrs e ->
    exists i, token_into w fuel t (vt lst attrs bst ist ol keep force close a (Some ty) dang)
      = Ok (vt lst attrs bst (i :: ist) ol keep force close a (Some ty) dang) /\ unplaced_inline i = conum (snd x).
  Proof.
    intros H Sh W A. unfold shouts in Sh. apply andb_prop in Sh as [S1 S2]. destruct ty; try discriminate S1. clear S1.
    destruct x as [xt xs]. cbn [fst] in S2. destruct xt; try discriminate S2. clear S2.
    pose proof (word_type _ _ W) as Ty. pose proof (word_text _ _ W) as Tx. cbn [fst snd] in Ty, Tx.
    cbn [holds_words closes existsb forallb snd fst tt_eqb orb andb negb] in H. unfold shouts in H. cbn in H. rewrite andb_true_r in H.
    unfold callout_fits in H. apply andb_prop in H as [H Ic]. apply andb_prop in H as [Le As]. apply Nat.leb_le in Le.
    assert (span_from_token t = Ok (ISpan SStrong FConstrained [ILit LText false (bs "(" ++ removelast (tl xs) ++ bs ")") (token_locations t)]
      (Some (meta_with_role (bs "conum"))) (token_locations t) true)) as Es.
    { unfold span_from_token. rewrite Ty, Tx, (callout_inner _ Le As). reflexivity. }
    eexists. split.
    - assert (token_into w fuel t (vt lst attrs bst ist ol keep force close a (Some TSourceBlock) dang)
        = parse_code_callout t (vt lst attrs bst ist ol keep force close a (Some TSourceBlock) dang)) as ->.
      { destruct fuel; cbn [token_into]; unfold vt, pre_dispatch; pst; rewrite Ty; unfold dispatch; rewrite ?Ty; reflexivity. }
      unfold parse_code_callout, vt. pst. rewrite (A (bs "icons")), Es. cbn [bind].
      destruct (e (bs "icons")) as [i|]; [|reflexivity]. apply negb_true_iff in Ic. rewrite Ic. destruct ist; reflexivity.
    - reflexivity.
  Qed.
  Definition calls (l : list inline) : Prop := match l with IRef _ _ _ _ _ :: _ => False | _ => True end.
  Lemma calls_ref close l : calls l -> ref_closed close l.
  Proof. destruct l as [|[] ?]; try exact (fun _ => I); intros []. Qed.
  Lemma calls_write ty keep d x : calls (fst d) -> calls (fst (fence_write ty keep d x)).
  Proof.
    intros H. unfold fence_write. destruct (shouts ty x); [exact I|]. destruct d as [l wt]. cbn [fst] in H.
    assert (forall l s, calls l -> calls (weld false l (said s))) as G.
    { intros l0 s0 K. destruct l0 as [|[| |[] ? ? ?|] ?]; try exact I; destruct K. }
    unfold put. cbn [fst snd]. destruct wt; [destruct (keeps_breaks keep); [exact I|]|]; auto.
  Qed.
  Lemma body_loop ty e ws : holds_words ty e ws = true -> forall ts lst attrs bst ist ol keep force close a wait dang, are_words ws ts -> pending wait dang ->
    agrees attrs e -> calls (map unplaced_inline ist) ->
    exists lst' ist' dang', loop ts (vt lst attrs bst ist ol keep force close a (Some ty) dang)
      = Ok (vt lst' attrs bst ist' ol keep force close a (Some ty) dang')
      /\ map unplaced_inline ist' = fst (fold_left (fence_write ty keep) ws (map unplaced_inline ist, wait)).
  Proof.
    induction ws as [|x ws IH]; intros H ts lst attrs bst ist ol keep force close a wait dang W D A Ca.
    - inversion W. subst. exists lst, ist, dang. auto.
    - apply holds_cons in H as [H1 H2]. apply words_cons in W as (t & ts' & -> & W1 & W2).
      assert (exists i1 d1, token_into w fuel t (vt lst attrs bst ist ol keep force close a (Some ty) dang)
        = Ok (vt lst attrs bst i1 ol keep force close a (Some ty) d1)
        /\ pending (snd (fence_write ty keep (map unplaced_inline ist, wait) x)) d1
        /\ map unplaced_inline i1 = fst (fence_write ty keep (map unplaced_inline ist, wait) x)) as (i1 & d1 & E1 & D1 & B1).
      { unfold fence_write. destruct (shouts ty x) eqn:Sh.
        - destruct (callout_step ty e x t lst attrs bst ist ol keep force close a dang H1 Sh W1 A) as (i & E & B).
          exists (i :: ist), dang. split; [exact E|]. split; [exact D|]. cbn [map fst snd]. now rewrite B.
        - destruct (pass_out here resolve None attrs bst None ol keep a t lst ist None (Some ty) false force close dang wait (calls_ref _ _ Ca) D) as (i1 & E1 & B1).
          exists i1, None. split; [rewrite (pass_token ty e x) by assumption; exact E1|]. split; [reflexivity|].
          rewrite B1. destruct W1 as (_ & -> & _). reflexivity. }
      destruct (IH H2 ts' (ttype t) attrs bst i1 ol keep force close a _ d1 W2 D1 A) as (l2 & i2 & d2 & E2 & B2).
      { rewrite B1. now apply calls_write. }
      exists l2, i2, d2. split; [rewrite (loop_cons w fuel _ _ _ _ E1); exact E2|]. rewrite B2. cbn [fold_left]. rewrite B1. now destruct (fence_write ty keep (map unplaced_inline ist, wait) x).
  Qed.
  Lemma fence_written v keep wait l : rev (fst (fold_left (fence_write (fst (fence_word v)) keep) l ([], wait))) = fenced_text v keep wait l.
  Proof.
    unfold fenced_text. f_equal. f_equal. generalize (@nil inline, wait). induction l as [|x l IH]; intros d; [reflexivity|]. cbn [fold_left]. rewrite IH. f_equal.
    unfold fence_write, callout, shouts. destruct v, x as [[] ?]; reflexivity.
  Qed.
  Definition fence_block (ty : token_type) (d : bytes) (x : list inline) (me : option metadata) (loc : list location) : block :=
    Blk (HLeaf (fence_name ty) FmDelimited (Some d) x) me [] loc.
  Definition fence_type (ty : token_type) : Prop := In ty [TSourceBlock; TLiteralBlock; TPassthroughBlock; TCommentBlock].
  Lemma fence_text ty d t : fence_type ty -> is_word (ty, d) t -> token_text t = d.
  Proof. intros H W. pose proof (word_text _ _ W) as T. repeat (destruct H as [<-|H]; [exact T|]). destruct H. Qed.
  Lemma open_fence ty d t m lst attrs bst ol keep force close dang a : held ol keep -> fence_type ty -> is_word (ty, d) t ->
    exists me, token_into w fuel t (stm m lst attrs bst [] ol keep false force close dang a)
      = Ok (vt lst attrs (fence_block ty d [] me (token_locations t) :: bst) [] ol keep false close a (Some ty) dang)
      /\ option_map unplaced_meta me = worn (option_map unplaced_meta m).
  Proof.
    intros Hc H W. pose proof (fence_text ty d t H W) as Td.
    assert (token_into w fuel t (stm m lst attrs bst [] ol keep false force close dang a)
      = parse_delimited_leaf_block t (stm m lst attrs bst [] ol keep false force close dang a)) as ->.
    { rewrite (go (ty, d)); [|assumption|cbn [fst]; intros ->; repeat (destruct H as [H|H]; [discriminate|]); destruct H..].
      unfold dispatch. rewrite (word_type _ _ W). cbn [fst]. repeat (destruct H as [<-|H]; [reflexivity|]). destruct H. }
    assert (leaf_from_token t = Ok (fence_block ty d [] None (token_locations t))) as El.
    { unfold leaf_from_token. rewrite (word_type _ _ W), Td. cbn [fst]. repeat (destruct H as [<-|H]; [reflexivity|]). destruct H. }
    unfold parse_delimited_leaf_block. cst. rewrite El. pst. unfold fence_block.
    match goal with |- context [push_block_to_stack _ ?p] =>
      change p with (tstate here resolve None attrs bst None ol keep a lst [] m (Some (ttype t)) false false force close dang) end.
    destruct (push_worn (HLeaf (fence_name ty) FmDelimited (Some d) []) [] (token_locations t) None attrs bst None ol keep a lst [] m (Some (ttype t)) false force close dang Hc eq_refl)
      as (me & -> & E).
    exists me. pst. split; [|exact E]. rewrite (word_type _ _ W). reflexivity.
  Qed.
  Lemma close_token ty d t lst attrs bst ist ol keep force close a dang : fence_type ty -> is_word (ty, d) t ->
    token_into w fuel t (vt lst attrs bst ist ol keep force close a (Some ty) dang) = dispatch w t (vt lst attrs bst ist ol keep force close a (Some ty) dang).
  Proof.
    intros H W. destruct fuel; cbn [token_into]; unfold vt; pst; unfold pre_dispatch; pst; rewrite (word_type _ _ W);
      repeat (destruct H as [<-|H]; [reflexivity|]); destruct H.
  Qed.

  Lemma verbatim_step k g me wait p v l ts t : primed k g me wait p -> fenced_fits v (g_env g) l = true ->
    are_words (leaf_words (Fenced v l)) ts -> is_word newline t ->
    forall b, b = Blk (HLeaf (verbatim_name v) FmDelimited (Some (fence v)) (fenced_text v (g_keep g) wait l)) (worn me) [] [] ->
    shows k (land b g) ->
    exists p', loop (ts ++ [t]) p = Ok p' /\ at_rest k (land b g) p'.
  Proof.
    intros (m & lst & attrs & bst & ol & force & a & dang & -> & <- & D & L & A & R & Hc & F & N1 & N2) Fok W Wt b Ebb C.
    cbn [leaf_words] in W. apply words_cons in W as (t1 & t2 & -> & W1 & W). apply words_split in W as (t3 & t4 & -> & W3 & W).
    apply words_cons in W as (t5 & t6 & -> & W5 & W). apply words_cons in W as (t7 & t8 & -> & W7 & W). inversion W. subst t8.
    set (ty := fst (fence_word v)). assert (fence_type ty) as Ft by (destruct v; cbn; tauto).
    assert (holds_words ty (g_env g) l = true) as Hw by (destruct v; exact Fok).
    assert (fence_word v = (ty, fence v)) as Ef by (now destruct v). rewrite Ef in W1, W5.
    destruct (open_fence ty (fence v) t1 m lst attrs bst ol (g_keep g) force (g_flag g) dang a Hc Ft W1) as (m1 & E1 & M1).
    set (loc := token_locations t1) in *.
    destruct (body_loop ty (g_env g) l Hw t3 (ttype t1) attrs (fence_block ty (fence v) [] m1 loc :: bst) [] ol (g_keep g) false (g_flag g) a wait dang W3 D A I) as (l3 & i3 & d3 & E3 & B3).
    set (B := fence_block ty (fence v) (rev i3) m1 (reconcile loc (token_locations t5))).
    assert (token_into w fuel t5 (vt l3 attrs (fence_block ty (fence v) [] m1 loc :: bst) i3 ol (g_keep g) false (g_flag g) a (Some ty) d3)
      = Ok (st l3 attrs (B :: bst) [] ol (g_keep g) false false (g_flag g) d3 a)) as E5.
    { rewrite (close_token ty (fence v)) by assumption. unfold dispatch. rewrite (word_type _ _ W5). cbn [fst].
      assert (parse_delimited_leaf_block t5 (vt l3 attrs (fence_block ty (fence v) [] m1 loc :: bst) i3 ol (g_keep g) false (g_flag g) a (Some ty) d3)
        = Ok (st l3 attrs (B :: bst) [] ol (g_keep g) false false (g_flag g) d3 a)) as E.
      { unfold parse_delimited_leaf_block, vt. pst. unfold add_inlines_to_block_stack, push_block_to_stack. pst.
        destruct i3 as [|i i3]; [cbn [bind]; pst; now rewrite Hc|]. unfold fence_block. cbn [takes_inlines b_head]. pst. rewrite ArticleProofs.push_inlines_leaf. cbn [bind]. pst. cbn [add_locations bind]. pst. now rewrite Hc. }
      destruct v; exact E. }
    destruct (soft_newline t7 None (ttype t5) attrs (B :: bst) [] ol (g_keep g) false false (g_flag g) d3 a W7) as (d & E7 & _).
    { rewrite (word_type _ _ W5). now destruct v. }
    assert (unplaced B = b) as EB.
    { rewrite Ebb. unfold B, fence_block. cbn [unplaced unplaced_head map]. rewrite map_rev, B3, M1. unfold ty. rewrite fence_written. now destruct v. }
    destruct (blank_settle k g t TNewLineChar attrs B bst ol false false d a Wt eq_refl A R Hc N1 N2) as (p' & E8 & P8).
    { apply sound_unplaced. rewrite EB, Ebb. repeat split. }
    { now left. }
    { rewrite EB. exact C. }
    rewrite EB in P8. exists p'. split; [|exact P8].
    cbn [app]. rewrite (loop_cons w fuel _ _ _ _ E1), <- app_assoc. apply (loop_join w fuel _ _ _ _ _ E3).
    cbn [app]. rewrite (loop_cons w fuel _ _ _ _ E5). exact (loop_join w fuel [t7] [t] _ _ _ E7 E8).
  Qed.

  (** *** Verse blocks *)
  Definition verse_write (keep : manner) (d : draft) (x : word) : draft :=
    match fst x with TNewLineChar => (fst d, negb (drops_breaks keep)) | _ => put keep false d (said (snd x)) end.
  Lemma verse_newline t lst attrs bst ist ol keep force close a dang : is_word newline t -> tt_eqb lst TNewLineChar || tt_eqb lst TEof = false ->
    exists dang', token_into w fuel t (vt lst attrs bst ist ol keep force close a (Some TQuoteVerseBlock) dang)
      = Ok (vt lst attrs bst ist ol keep force close a (Some TQuoteVerseBlock) dang')
      /\ pending (negb (drops_breaks keep || clears_newline_after lst)) dang'.
  Proof.
    intros W L.
    assert (token_into w fuel t (vt lst attrs bst ist ol keep force close a (Some TQuoteVerseBlock) dang)
      = parse_new_line_char w t (vt lst attrs bst ist ol keep force close a (Some TQuoteVerseBlock) dang)) as ->.
    { destruct fuel; cbn [token_into]; unfold vt, pre_dispatch, is_inline; pst; rewrite (word_type _ _ W); pst; unfold dispatch; rewrite (word_type _ _ W); reflexivity. }
    unfold parse_new_line_char, vt. pst. rewrite L. cbn [orb]. destruct (drops_breaks keep || clears_newline_after lst).
    - exists None. split; reflexivity.
    - exists (Some t). split; [reflexivity|]. split; [reflexivity|exact W].
  Qed.
  Lemma verse_token x t lst attrs bst ist ol keep force close a dang : verse_word x = true -> fst x <> TNewLineChar -> is_word x t ->
    token_into w fuel t (vt lst attrs bst ist ol keep force close a (Some TQuoteVerseBlock) dang)
    = parse_text t (vt lst attrs bst ist ol keep force close a (Some TQuoteVerseBlock) dang)
    /\ token_text t = snd x /\ steady (ttype t).
  Proof.
    intros V N W. pose proof (word_text _ _ W) as T. pose proof (word_type _ _ W) as Ty. unfold verse_word in V. destruct x as [ty lx]. cbn [fst snd] in *.
    split; [|split].
    - destruct ty; try discriminate V; try congruence; (destruct fuel; cbn [token_into]; unfold vt, pre_dispatch, is_inline; pst; rewrite Ty; pst; [unfold dispatch; rewrite ?Ty; reflexivity..]).
    - destruct ty; try discriminate V; exact T.
    - rewrite Ty. destruct ty; try discriminate V; try congruence; split; reflexivity.
  Qed.
  Definition texts (l : list inline) : Prop := match l with [] | ILit _ _ _ _ :: _ => True | _ => False end.
  Lemma texts_put keep l wait s : texts l -> texts (fst (put keep false (l, wait) (said s))).
  Proof.
    assert (forall l s, texts l -> texts (weld false l (said s))) as H.
    { intros l0 s0 H. destruct l0 as [|[| |[] ? ? ?|] ?]; try exact I; destruct H. }
    intros T. unfold put. cbn [fst snd]. destruct wait; [destruct (keeps_breaks keep); [exact I|]|]; auto.
  Qed.
  Lemma texts_ref close l : texts l -> ref_closed close l.
  Proof. destruct l as [|[] ?]; try exact (fun _ => I); intros []. Qed.
  Lemma verse_loop ws : forallb verse_word ws = true -> forall ts broken lst attrs bst ist ol keep force close a wait dang, calm broken ws = true ->
    are_words ws ts -> pending wait dang -> (broken = false -> steady lst) -> texts (map unplaced_inline ist) ->
    exists lst' ist' dang', loop ts (vt lst attrs bst ist ol keep force close a (Some TQuoteVerseBlock) dang)
      = Ok (vt lst' attrs bst ist' ol keep force close a (Some TQuoteVerseBlock) dang')
      /\ steady lst' /\ map unplaced_inline ist' = fst (fold_left (verse_write keep) ws (map unplaced_inline ist, wait)).
  Proof.
    induction ws as [|x ws IH]; intros V ts broken lst attrs bst ist ol keep force close a wait dang Ca W D St Tx.
    - inversion W. subst. exists lst, ist, dang. split; [reflexivity|]. split; [|reflexivity]. apply St. cbn in Ca. now destruct broken.
    - cbn [forallb] in V. apply andb_prop in V as [V1 V2]. apply words_cons in W as (t & ts' & -> & W1 & W2).
      destruct (tt_eqb (fst x) TNewLineChar) eqn:Nl.
      + destruct x as [ty lx]. cbn [fst] in Nl. destruct ty; try discriminate Nl. cbn [calm fst] in Ca. apply andb_prop in Ca as [Cb Ca].
        apply negb_true_iff in Cb. subst broken.
        assert (is_word newline t) as Wn.
        { cbn in V1. apply ScanLemmas.beqb_eq in V1. subst lx. exact W1. }
        destruct (St eq_refl) as [S1 S2]. destruct (verse_newline t lst attrs bst ist ol keep force close a dang Wn S1) as (d1 & E1 & D1). rewrite S2, orb_false_r in D1.
        destruct (IH V2 ts' true (ttype t) attrs bst ist ol keep force close a _ d1 Ca W2 D1) as (l2 & i2 & d2 & E2 & S' & B2); auto; [discriminate|].
        exists l2, i2, d2. split; [rewrite (loop_cons w fuel _ _ _ _ E1); exact E2|]. split; [exact S'|]. rewrite B2. reflexivity.
      + assert (fst x <> TNewLineChar) as N by (intros X; rewrite X in Nl; discriminate).
        destruct (verse_token x t lst attrs bst ist ol keep force close a dang V1 N W1) as (E & T & S).
        destruct (text_out here resolve None attrs bst None ol keep a t lst ist None (Some TQuoteVerseBlock) false force close dang wait (texts_ref _ _ Tx) D) as (i1 & E1 & B1).
        rewrite T in B1.
        destruct (IH V2 ts' false (ttype t) attrs bst i1 ol keep force close a false None) as (l2 & i2 & d2 & E2 & S2 & B2); auto.
        { cbn [calm] in Ca. destruct (fst x); try exact Ca; congruence. }
        { reflexivity. }
        { rewrite B1. now apply texts_put. }
        exists l2, i2, d2. split; [|split; [exact S2|]].
        * unfold vt in E at 2. rewrite E1 in E. rewrite (loop_cons w fuel _ _ _ _ E). exact E2.
        * rewrite B2, B1. cbn [fold_left]. f_equal. f_equal. unfold verse_write. cbn [fst snd]. destruct (fst x); try congruence; reflexivity.
  Qed.
  Lemma verse_step k g c wait p l ts t : primed k g (dress c) wait p -> forallb verse_word l = true -> calm true l = true ->
    option_map m_type (dress c) = Some (Some AVerse) ->
    are_words (leaf_words (Verse l)) ts -> is_word newline t ->
    forall b, b = Blk (HLeaf NVerse FmDelimited (Some (box_fence Quote)) (verse_text (g_keep g) l)) (worn (dress c)) [] [] ->
    shows k (land b g) ->
    exists p', loop (ts ++ [t]) p = Ok p' /\ at_rest k (land b g) p'.
  Proof.
    intros (m & lst & attrs & bst & ol & force & a & dang & -> & Em & D & L & A & R & Hc & F & N1 & N2) V Ca Ty W Wt b Ebb C.
    cbn [leaf_words] in W. apply words_cons in W as (t1 & t2 & -> & W1 & W). apply words_cons in W as (tn & t2' & -> & Wn & W). apply words_split in W as (t3 & ty & -> & W3 & W).
    apply words_cons in W as (t4 & t4' & -> & W4 & W). apply words_cons in W as (t5 & t6 & -> & W5 & W). apply words_cons in W as (t7 & t8 & -> & W7 & W). inversion W. subst t8.
    set (loc := token_locations t1) in *.
    pose proof (word_text _ _ W1) as T1.
    assert (exists m1, token_into w fuel t1 (stm m lst attrs bst [] ol (g_keep g) false force (g_flag g) dang a)
      = Ok (vt lst attrs (Blk (HLeaf NVerse FmDelimited (Some (box_fence Quote)) []) m1 [] loc :: bst) [] ol (g_keep g) false (g_flag g) a (Some TQuoteVerseBlock) dang)
      /\ option_map unplaced_meta m1 = worn (dress c)) as (m1 & E1 & M1).
    { rewrite (go (box_word Quote)) by (assumption || discriminate). unfold dispatch. rewrite (word_type _ _ W1). cbn [fst box_word].
      unfold parse_quote_verse. cst. rewrite <- Em in Ty. destruct m as [m|]; [|discriminate]. cbn [option_map unplaced_meta m_type] in Ty. injection Ty as Ty. rewrite Ty.
      unfold parse_delimited_leaf_block. cst.
      assert (leaf_from_token t1 = Ok (Blk (HLeaf NVerse FmDelimited (Some (box_fence Quote)) []) None [] loc)) as ->.
      { unfold leaf_from_token. rewrite (word_type _ _ W1). cbn [fst box_word]. rewrite T1. reflexivity. }
      pst.
      match goal with |- context [push_block_to_stack _ ?p] =>
        change p with (tstate here resolve None attrs bst None ol (g_keep g) a lst [] (Some m) (Some (ttype t1)) false false force (g_flag g) dang) end.
      destruct (push_worn (HLeaf NVerse FmDelimited (Some (box_fence Quote)) []) [] loc None attrs bst None ol (g_keep g) a lst [] (Some m) (Some (ttype t1)) false force (g_flag g) dang Hc eq_refl)
        as (me & -> & E).
      exists me. pst. split; [|rewrite <- Em; exact E]. rewrite (word_type _ _ W1). reflexivity. }
    set (B0 := Blk (HLeaf NVerse FmDelimited (Some (box_fence Quote)) []) m1 [] loc) in *.
    destruct (verse_newline tn (ttype t1) attrs (B0 :: bst) [] ol (g_keep g) false (g_flag g) a dang Wn) as (d2 & E2 & D2).
    { now rewrite (word_type _ _ W1). }
    rewrite (word_type _ _ W1) in D2. cbn [fst box_word clears_newline_after] in D2. rewrite orb_true_r in D2.
    destruct (verse_loop l V t3 true (ttype tn) attrs (B0 :: bst) [] ol (g_keep g) false (g_flag g) a false d2 Ca W3 D2) as (l3 & i3 & d3 & E3 & [S3 _] & B3); [discriminate|exact I|].
    destruct (verse_newline t4 l3 attrs (B0 :: bst) i3 ol (g_keep g) false (g_flag g) a d3 W4 S3) as (d4 & E4 & _).
    set (B := Blk (HLeaf NVerse FmDelimited (Some (box_fence Quote)) (rev i3)) m1 [] (reconcile loc (token_locations t5))).
    assert (token_into w fuel t5 (vt (ttype t4) attrs (B0 :: bst) i3 ol (g_keep g) false (g_flag g) a (Some TQuoteVerseBlock) d4)
      = Ok (st (ttype t4) attrs (B :: bst) [] ol (g_keep g) false false (g_flag g) d4 a)) as E5.
    { assert (token_into w fuel t5 (vt (ttype t4) attrs (B0 :: bst) i3 ol (g_keep g) false (g_flag g) a (Some TQuoteVerseBlock) d4)
        = parse_delimited_leaf_block t5 (vt (ttype t4) attrs (B0 :: bst) i3 ol (g_keep g) false (g_flag g) a (Some TQuoteVerseBlock) d4)) as ->.
      { destruct fuel; cbn [token_into]; unfold vt, pre_dispatch; pst; rewrite (word_type _ _ W5); pst; unfold dispatch; rewrite (word_type _ _ W5); reflexivity. }
      unfold parse_delimited_leaf_block, vt. pst. unfold add_inlines_to_block_stack, push_block_to_stack. pst.
      destruct i3 as [|i i3]; [cbn [bind]; pst; now rewrite Hc|]. unfold B0. cbn [takes_inlines b_head]. pst. rewrite ArticleProofs.push_inlines_leaf. cbn [bind]. pst. cbn [add_locations bind]. pst. now rewrite Hc. }
    destruct (soft_newline t7 None (ttype t5) attrs (B :: bst) [] ol (g_keep g) false false (g_flag g) d4 a W7) as (d & E7 & _).
    { now rewrite (word_type _ _ W5). }
    assert (unplaced B = b) as EB.
    { rewrite Ebb. unfold B, verse_text. cbn [unplaced unplaced_head map]. rewrite map_rev, B3, M1. reflexivity. }
    destruct (blank_settle k g t TNewLineChar attrs B bst ol false false d a Wt eq_refl A R Hc N1 N2) as (p' & E8 & P8).
    { apply sound_unplaced. rewrite EB, Ebb. repeat split. }
    { now left. }
    { rewrite EB. exact C. }
    rewrite EB in P8. exists p'. split; [|exact P8].
    cbn [app]. rewrite (loop_cons w fuel _ _ _ _ E1). rewrite (loop_cons w fuel _ _ _ _ E2), <- app_assoc. apply (loop_join w fuel _ _ _ _ _ E3).
    cbn [app]. rewrite (loop_cons w fuel _ _ _ _ E4). rewrite (loop_cons w fuel _ _ _ _ E5). exact (loop_join w fuel [t7] [t] _ _ _ E7 E8).
  Qed.
  Lemma comments_step k g p l ts t : at_rest k g p -> closes TCommentBlock l = true ->
    are_words (leaf_words (Commented l)) ts -> is_word newline t ->
    exists p', loop (ts ++ [t]) p = Ok p' /\ at_rest k g p'.
  Proof.
    intros (lst & attrs & bst & ol & force & a & -> & L & A & R & Hc & F & N1 & N2) Fok W Wt.
    cbn [leaf_words] in W. apply words_cons in W as (t1 & t2 & -> & W1 & W). apply words_split in W as (t3 & t4 & -> & W3 & W).
    apply words_cons in W as (t5 & t6 & -> & W5 & W). apply words_cons in W as (t7 & t8 & -> & W7 & W). inversion W. subst t8.
    unfold comment_word in *. assert (fence_type TCommentBlock) as Ft by (cbn; tauto).
    destruct (open_fence TCommentBlock _ t1 None lst attrs bst ol (g_keep g) force (g_flag g) None a Hc Ft W1) as (m1 & E1 & _).
    match type of E1 with _ = Ok (vt _ _ (?b :: _) _ _ _ _ _ _ _ _) => set (B := b) in * end.
    destruct (body_loop TCommentBlock (g_env g) l Fok t3 (ttype t1) attrs (B :: bst) [] ol (g_keep g) false (g_flag g) a false None W3 eq_refl A I) as (l3 & i3 & d3 & E3 & B3).
    assert (token_into w fuel t5 (vt l3 attrs (B :: bst) i3 ol (g_keep g) false (g_flag g) a (Some TCommentBlock) d3)
      = Ok (st l3 attrs bst [] ol (g_keep g) false true (g_flag g) d3 a)) as E5.
    { rewrite (close_token TCommentBlock (bs "////")) by assumption. unfold dispatch. rewrite (word_type _ _ W5). reflexivity. }
    destruct (soft_newline t7 None (ttype t5) attrs bst [] ol (g_keep g) false true (g_flag g) d3 a W7) as (d & E7 & _).
    { now rewrite (word_type _ _ W5). }
    destruct (blank_idle k g t TNewLineChar attrs bst ol false true d a Wt eq_refl A R Hc N1 N2) as (p' & E8 & P8).
    exists p'. split; [|exact P8].
    cbn [app]. rewrite (loop_cons w fuel _ _ _ _ E1), <- app_assoc. apply (loop_join w fuel _ _ _ _ _ E3).
    cbn [app]. rewrite (loop_cons w fuel _ _ _ _ E5). exact (loop_join w fuel [t7] [t] _ _ _ E7 E8).
  Qed.
  Lemma comment_step k g p s ts t : at_rest k g p -> are_words (leaf_words (Aside s)) ts -> is_word newline t ->
    exists p', loop (ts ++ [t]) p = Ok p' /\ at_rest k g p'.
  Proof.
    intros (lst & attrs & bst & ol & force & a & -> & L & A & R & Hc & F & N1 & N2) W Wt.
    cbn [leaf_words] in W. apply words_cons in W as (t1 & t2 & -> & W1 & W). apply words_cons in W as (t3 & t4 & -> & W3 & W). inversion W. subst t4.
    cbn [app parse_loop]. rewrite (go (TComment, s)) by (assumption || discriminate). unfold dispatch. rewrite (word_type _ _ W1). cbn [fst bind].
    rewrite set_last_st.
    destruct (soft_newline t3 None TComment attrs bst [] ol (g_keep g) false force (g_flag g) None a W3 eq_refl) as (d & E3 & _).
    destruct (blank_idle k g t TNewLineChar attrs bst ol false force d a Wt eq_refl A R Hc N1 N2) as (p' & E8 & P8).
    exists p'. split; [|exact P8]. exact (loop_join w fuel [t3] [t] _ _ _ E3 E8).
  Qed.
  Lemma entry_token name value t hd lst attrs bst ist ol keep il force close dang a : simple_line (Entry name value) -> is_word (entry_word name value) t ->
    token_into w fuel t (tstate here resolve hd attrs bst None ol keep a lst ist None None il false force close dang)
    = Ok (tstate here resolve hd (minsert name value attrs) bst None ol keep a lst ist None None il false force close dang).
  Proof.
    intros H W. pose proof (word_text _ _ W) as T. cbn [fst snd entry_word] in T.
    destruct (entry_parts name value H) as (comps & E & V). destruct H as (_ & Nl & _).
    rewrite (step w fuel here resolve hd attrs bst None ol keep a (entry_word name value)); [|assumption|now right|discriminate|discriminate].
    unfold dispatch. rewrite (word_type _ _ W). cbn [fst entry_word]. unfold parse_attribute. rewrite T.
    replace (spell (Entry name value)) with (":" :: name ++ ":" :: body_of value) by reflexivity.
    rewrite E, V. destruct (beqb name (bs "leveloffset")) eqn:Bq; [apply ScanLemmas.beqb_eq in Bq; contradiction|reflexivity].
  Qed.
  Lemma setting_step k g p name value ts t : at_rest k g p -> simple_line (Entry name value) ->
    are_words (leaf_words (Setting name value)) ts -> is_word newline t ->
    exists p', loop (ts ++ [t]) p = Ok p' /\ at_rest k (set_page name value g) p'.
  Proof.
    intros (lst & attrs & bst & ol & force & a & -> & L & A & R & Hc & F & N1 & N2) H W Wt.
    cbn [leaf_words] in W. apply words_cons in W as (t1 & t2 & -> & W1 & W). apply words_cons in W as (t3 & t4 & -> & W3 & W). inversion W. subst t4.
    cbn [app]. pose proof (entry_token name value t1 None lst attrs bst [] ol (g_keep g) false force (g_flag g) None a H W1) as E1.
    rewrite (loop_cons w fuel _ _ _ _ E1), (word_type _ _ W1).
    destruct (soft_newline t3 None TAttribute (minsert name value attrs) bst [] ol (g_keep g) false force (g_flag g) None a W3 eq_refl) as (d & E3 & _).
    destruct (blank_idle k (set_page name value g) t TNewLineChar (minsert name value attrs) bst ol false force d a Wt eq_refl) as (p' & E8 & P8); auto.
    { now apply agrees_insert. }
    exists p'. split; [|exact P8]. exact (loop_join w fuel [t3] [t] _ _ _ E3 E8).
  Qed.

  (** *** Attribute lines and anchors *)
  Lemma decor_step k g me wait p d ts m' : primed k g me wait p -> are_words [decor_word d; newline] ts -> decor_fits d ->
    decor_meta d (match me with Some m => m | None => SpecScript.blank end) = Some m' ->
    exists p', loop ts p = Ok p' /\ primed k g (Some m') (negb (drops_breaks (g_keep g)) && match d with Anchor _ => true | _ => false end) p'.
  Proof.
    intros (m & lst & attrs & bst & ol & force & a & dang & -> & <- & D & L & A & R & Hc & F & N1 & N2) W Fd M.
    apply words_cons in W as (t1 & t2 & -> & W1 & W). apply words_cons in W as (t3 & t4 & -> & W3 & W). inversion W. subst t4.
    assert (exists m1, token_into w fuel t1 (stm m lst attrs bst [] ol (g_keep g) false force (g_flag g) dang a)
      = Ok (stm (Some m1) lst attrs bst [] ol (g_keep g) false true (g_flag g) dang a) /\ unplaced_meta m1 = m') as (m1 & E1 & U).
    { rewrite (go (decor_word d)) by (assumption || now destruct d).
      assert (dispatch w t1 (stm m lst attrs bst [] ol (g_keep g) false force (g_flag g) dang a)
        = parse_block_attributes w t1 (stm m lst attrs bst [] ol (g_keep g) false force (g_flag g) dang a)) as ->.
      { unfold dispatch. rewrite (word_type _ _ W1). now destruct d. }
      unfold parse_block_attributes, p_add_metadata_from_token. cst. destruct m as [m|]; cbn [option_map] in M.
      - destruct (decor_add w d t1 m m' W1 Fd M) as (m1 & -> & U). exists m1. split; [reflexivity|exact U].
      - destruct (decor_new w d t1 m' W1 Fd M) as (m1 & -> & U). exists m1. split; [reflexivity|exact U]. }
    destruct (soft_newline t3 (Some m1) (ttype t1) attrs bst [] ol (g_keep g) false true (g_flag g) dang a W3) as (d3 & E3 & D3).
    { rewrite (word_type _ _ W1). now destruct d. }
    eexists. split; [rewrite (loop_cons w fuel _ _ _ _ E1); exact E3|].
    exists (Some m1), TNewLineChar, attrs, bst, ol, true, a, d3. cbn [option_map]. rewrite U. rewrite (word_type _ _ W1) in D3.
    split; [reflexivity|]. split; [reflexivity|]. split; [|split; [reflexivity|]; split; [assumption|]; split; [assumption|]; split; [assumption|]; split; [now left|]; auto].
    destruct (drops_breaks (g_keep g)); now destruct d.
  Qed.
  Lemma waits_cons keep d d' c : waits keep (d :: d' :: c) = waits keep (d' :: c).
  Proof. unfold waits. f_equal. cbn [rev]. destruct (rev c) as [|x r]; reflexivity. Qed.
  Lemma decors_loop k g c : forall me wait p ts m', c <> [] -> primed k g me wait p -> are_words (decor_words c) ts -> Forall decor_fits c ->
    decors_meta c (match me with Some m => m | None => SpecScript.blank end) = Some m' ->
    exists p', loop ts p = Ok p' /\ primed k g (Some m') (waits (g_keep g) c) p'.
  Proof.
    induction c as [|d c IH]; [congruence|]. intros me wait p ts m' _ P W F M. inversion F as [|? ? F1 F2]. subst.
    unfold decor_words in W. cbn [map List.concat] in W. apply words_split in W as (t1 & t2 & -> & W1 & W2). cbn [decors_meta] in M.
    destruct (decor_meta d _) as [m1|] eqn:E; [|discriminate]. destruct (decor_step k g me wait p d t1 m1 P W1 F1 E) as (p1 & E1 & P1).
    destruct c as [|d' c].
    - inversion W2. subst. injection M as <-. exists p1. rewrite app_nil_r. split; [exact E1|]. unfold waits. now destruct d.
    - destruct (IH (Some m1) _ p1 t2 m' ltac:(discriminate) P1 W2 F2 M) as (p2 & E2 & P2). exists p2. rewrite waits_cons. split; [|exact P2].
      exact (loop_join w fuel _ _ _ _ _ E1 E2).
  Qed.
  Lemma waits_nil keep : waits keep [] = false. Proof. unfold waits. apply andb_false_r. Qed.
  Lemma decors_step k g p c ts : at_rest k g p -> decors_ok c -> are_words (decor_words c) ts ->
    exists p', loop ts p = Ok p' /\ primed k g (dress c) (waits (g_keep g) c) p'.
  Proof.
    intros P [F N] W. destruct c as [|d c].
    - inversion W. subst. exists p. split; [reflexivity|]. rewrite waits_nil. now apply rest_primed.
    - unfold dress. destruct (decors_meta (d :: c) SpecScript.blank) as [m'|] eqn:M; [|congruence].
      apply (decors_loop k g (d :: c) None false p ts m'); auto; [discriminate|]. now apply rest_primed.
  Qed.

  (** what stands before, and a leaf *)
  Lemma leaf_step k g p c x ts : at_rest k g p -> decors_ok c -> leaf_ok g c x -> (bare_leaf x = true -> c = []) ->
    (forall l, x = Text l -> c = [] \/ exists h, k = KTop h) ->
    are_words (decor_words c ++ leaf_words x ++ [newline]) ts -> shows k (leaf_page c x g) ->
    exists p', loop ts p = Ok p' /\ at_rest k (leaf_page c x g) p'.
  Proof.
    intros R Hc H Hb Ht W C. apply words_split in W as (t0 & t' & -> & W0 & W). apply words_split in W as (t1 & t2 & -> & W1 & W2).
    apply words_cons in W2 as (t & t3 & -> & Wt & W3). inversion W3. subst t3.
    destruct (decors_step k g p c t0 R Hc W0) as (p0 & E0 & P0).
    assert (bare_leaf x = true -> at_rest k g p0) as R0.
    { intros X. rewrite (Hb X) in P0. rewrite waits_nil in P0. now apply primed_rest. }
    assert (exists p', loop (t1 ++ [t]) p0 = Ok p' /\ at_rest k (leaf_page c x g) p') as (p' & E' & P').
    { destruct x as [l|o l|l|v l|l|l|s|name value|].
      - cbn [leaf_words] in W1. apply words_split in W1 as (t4 & t5 & -> & W4 & W5). apply words_cons in W5 as (t6 & t7 & -> & W6 & W7). inversion W7. subst t7.
        apply (para_step k g (dress c) (waits (g_keep g) c)); auto. destruct (Ht l eq_refl) as [->|Hk]; [now left|now right].
      - destruct H as [H1 H2]. refine (items_step k g (dress c) (waits (g_keep g) c) p0 o l t1 t P0 H1 H2 W1 Wt _ _ C). now destruct o.
      - destruct l as [|[[te below] x] r]; [destruct H|]. destruct H as (H1 & H2 & H3 & H4 & H5 & H6). rewrite H2 in P0.
        exact (terms_step k g (dress c) p0 te below x r t1 t P0 H1 H3 H4 H5 H6 W1 Wt C).
      - exact (verbatim_step k g (dress c) (waits (g_keep g) c) p0 v l t1 t P0 H W1 Wt _ eq_refl C).
      - destruct H as (H1 & H2 & H3). exact (verse_step k g c (waits (g_keep g) c) p0 l t1 t P0 H1 H2 H3 W1 Wt _ eq_refl C).
      - apply (comments_step k g p0 l); auto.
      - apply (comment_step k g p0 s); auto.
      - apply setting_step; auto.
      - inversion W1. subst t1. destruct (R0 eq_refl) as (lst & attrs & bst & ol & force & a & -> & L & A & R' & Hc' & F & N1 & N2). now apply blank_idle. }
    exists p'. split; [|exact P']. exact (loop_join w fuel _ _ _ _ _ E0 E').
  Qed.
  Definition leaves_words (l : list (list decor * leaf)) : list word :=
    List.concat (map (fun x => decor_words (fst x) ++ leaf_words (snd x) ++ [newline]) l).
  Lemma leaves_step n b base a l : forall g p ts, at_rest (KBox n b base a) g p -> leaves_ok g l -> are_words (leaves_words l) ts ->
    exists p', loop ts p = Ok p' /\ at_rest (KBox n b base a) (fold_left (fun h x => leaf_page (fst x) (snd x) h) l g) p'.
  Proof.
    induction l as [|[c x] l IH]; intros g p ts R F W.
    - inversion W. subst. exists p. auto.
    - destruct F as [(F1 & F2 & F3) F']. cbn [fst snd] in *. unfold leaves_words in W. cbn [map List.concat fst snd] in W.
      apply words_split in W as (t1 & t2 & -> & W1 & W2).
      destruct (leaf_step _ g p c x t1 R F1 F2) as (p1 & E1 & R1); auto; try exact I.
      { destruct x; intros X; auto; discriminate. }
      { intros l0 ->. now left. }
      destruct (IH (leaf_page c x g) p1 t2 R1) as (p2 & E2 & R2); [exact F'|exact W2|].
      exists p2. split; [|exact R2]. exact (loop_join w fuel _ _ _ _ _ E1 E2).
  Qed.
End Blocks.
