(** * Articles: what the parser makes of them *)
From Verif Require Import Base World Location Token Scanner Meta Inline Block Asg Parser SpecScan SpecStart SpecLoc
  SpecDoc SpecArticle ScanLemmas ScanStart ScanDoc LocProofs DocProofs DocGraph ArticleScan ArticleGraph ArticleText GraphLemmas.
Local Open Scope char_scope.
Local Open Scope nat_scope.
Local Arguments reconcile : simpl never.
Local Arguments token_locations : simpl never.
Local Arguments token_text : simpl never.
Local Arguments consolidate_locations : simpl never.
Local Arguments last_opt : simpl never.
Local Arguments push_block : simpl never.

Ltac pst := cbn [ArticleText.state p_origin p_last p_header p_attrs p_bstack p_istack p_files p_title p_meta p_open_lines p_open_type p_offset p_in_line p_in_span p_in_cont p_force_new p_preserve_nl p_close_parent p_dangling p_resolve p_asg set_last set_header set_attrs set_bstack set_istack set_files set_title set_meta set_open_lines set_open_type set_offset set_in_line set_in_span set_in_cont set_force_new set_preserve_nl set_close_parent set_dangling set_asg bind andb orb negb empty].
(** ** The lines of a text, without their places *)
Inductive lines_toks (files : list bytes) : list rich -> list token -> Prop :=
| ls_nil : lines_toks files [] []
| ls_cons n col col' r rs ts ts' : rich_toks files n col r ts -> lines_toks files rs ts' ->
    lines_toks files (r :: rs) (ts ++ nl_tok files n col' :: ts').
Lemma lines_of files l : forall n ts, plines_toks files n (map ArticleScan.LText l) ts -> lines_toks files l ts.
Proof.
  induction l as [|r l IH]; intros n ts H; cbn [map plines_toks] in H.
  - subst. constructor.
  - destruct H as (t1 & t2 & -> & H1 & H2). econstructor; [exact H1|]. eapply IH. exact H2.
Qed.
Lemma led_lines files l r rest n ts : plines_toks files n (LLed l r :: map ArticleScan.LText rest) ts ->
  exists ts', ts = lead_tok files n l :: ts' /\ lines_toks files (r :: rest) ts'.
Proof.
  intros (t1 & t2 & -> & (t3 & -> & H1) & H2). eexists. split; [reflexivity|]. econstructor; [exact H1|]. eapply lines_of. exact H2.
Qed.

Lemma push_inlines_leaf n f d l m k loc : forall x, push_inlines (Blk (HLeaf n f d x) m k loc) l = Ok (Blk (HLeaf n f d (x ++ l)) m k loc).
Proof. induction l as [|i l IH]; intros x; cbn; [now rewrite app_nil_r|]. now rewrite IH, <- app_assoc. Qed.
Lemma push_inlines_item mk l m k loc : forall x, push_inlines (Blk (HListItem mk x) m k loc) l = Ok (Blk (HListItem mk (x ++ l)) m k loc).
Proof. induction l as [|i l IH]; intros x; cbn; [now rewrite app_nil_r|]. now rewrite IH, <- app_assoc. Qed.
Lemma push_inlines_section a lv l m k loc : forall x, push_inlines (Blk (HSection a x lv) m k loc) l = Ok (Blk (HSection a (x ++ l) lv) m k loc).
Proof. induction l as [|i l IH]; intros x; cbn; [now rewrite app_nil_r|]. now rewrite IH, <- app_assoc. Qed.
Lemma rev_stack ist ps : map bare_inline ist = stack ps -> map bare_inline (rev ist) = map part_inline (merge ps).
Proof. intros H. rewrite map_rev, H. unfold stack. now rewrite <- map_rev, rev_involutive. Qed.

(** ** Where blocks go: to the graph, or onto the stack above an open delimited block *)
Inductive kind := KTop (h : option (list inline)) | KBox (n : nat) (b : block) (base : list block) (a : asg).
Definition title_of (a : asg) : option (list inline) := option_map (fun h => map bare_inline (hd_title h)) (a_header a).
Definition room (k : kind) (ol : list nat) (bst : list block) (a : asg) (done : list block) : Prop :=
  match k with
  | KTop h => ol = [] /\ holds bst (a_blocks a) done /\ title_of a = h
  | KBox n b base a0 => ol = [n] /\ a = a0 /\ is_parent b = true /\ exists acc, bst = acc ++ b :: base /\ map bare (rev acc) = done
  end.
Definition fresh (k : kind) (bst : list block) : Prop :=
  match k with KTop _ => bst = [] | KBox _ b _ _ => bst = [b] end.
Definition simple_block (b : block) : Prop :=
  is_section b = false /\ is_list_item b = false /\ is_dlist_item b = false /\ is_parent b = false.

Definition no_items (done : list block) : Prop := Forall (fun b => is_list_item b = false /\ is_dlist_item b = false) done.
Definition kept (k : kind) (done : list block) : Prop :=
  match k with KBox _ _ _ _ => Forall (fun b => is_parent b = false /\ is_section b = false) done | _ => True end.
Lemma kept_snoc k done b : kept k done -> is_parent b = false -> is_section b = false -> kept k (done ++ [b]).
Proof. destruct k; cbn; [trivial|]. intros F H H'. apply Forall_app. split; [assumption|]. now apply Forall_cons. Qed.
Lemma heads_bare b : is_section (bare b) = is_section b /\ is_list_item (bare b) = is_list_item b
  /\ is_dlist_item (bare b) = is_dlist_item b /\ is_parent (bare b) = is_parent b.
Proof. now destruct b as [[] ? ? ?]. Qed.
Lemma simple_bare b : simple_block (bare b) <-> simple_block b.
Proof. unfold simple_block. destruct (heads_bare b) as (-> & -> & -> & ->). tauto. Qed.

Lemma rich_parts_some e r : rich_line r -> rich_parts e r <> [].
Proof.
  destruct r as [c l]. unfold rich_line, rich_parts, spell_rich. cbn [fst snd]. intros (Ne & _).
  destruct l as [|[[k i] a] l].
  - cbn [map List.concat] in *. rewrite app_nil_r in *. unfold chunk_part. destruct (spell_chunk c); [now contradiction Ne|discriminate].
  - cbn. intros H. apply app_eq_nil in H as [_ H]. discriminate.
Qed.
Lemma stack_some ist ps : map bare_inline ist = stack ps -> ps <> [] -> ist <> [].
Proof.
  intros E N ->. cbn in E. symmetry in E. unfold stack in E. apply map_eq_nil in E.
  apply (f_equal (@rev _)) in E. rewrite rev_involutive in E. now apply merge_nil in E.
Qed.

(** the tokens of text *)
Definition text_type (t : token) : Prop := inline_type (ttype t) \/ ttype t = TNewLineChar.
Lemma texts_types files n col ts s : texts files n col ts s -> Forall text_type ts /\ List.concat (map lexeme ts) = s.
Proof.
  induction 1 as [|col s ts s' _ _ _ [IH1 IH2]]; [now split|]. split; [apply Forall_cons; [|assumption]; left; cbn; auto|].
  cbn. now rewrite IH2.
Qed.
Lemma refs_types files n col l ts : refs files n col l ts ->
  Forall text_type ts /\ List.concat (map lexeme ts) = List.concat (map (fun x => "{" :: fst x ++ "}" :: snd x) l).
Proof.
  induction 1 as [|col name s l ts ts' T _ [IH1 IH2]]; [now split|]. apply texts_types in T as [T1 T2]. split.
  - apply Forall_cons; [left; cbn; auto|]. now apply Forall_app.
  - cbn [map List.concat]. rewrite map_app, concat_app, T2, IH2. cbn. now rewrite <- !app_assoc.
Qed.
Lemma chunk_types files n col c ts : chunk_toks files n col c ts -> Forall text_type ts /\ List.concat (map lexeme ts) = spell_chunk c.
Proof.
  intros (t1 & t2 & -> & T1 & T2). apply texts_types in T1 as [A1 B1]. apply refs_types in T2 as [A2 B2].
  split; [now apply Forall_app|]. rewrite map_app, concat_app, B1, B2. reflexivity.
Qed.
Lemma marks_types files n col l ts : marks_toks files n col l ts ->
  Forall text_type ts /\ List.concat (map lexeme ts) = List.concat (map spell_marked l).
Proof.
  induction 1 as [|col k i a l t1 t2 ts T1 T2 _ [IH1 IH2]]; [now split|].
  apply chunk_types in T1 as [A1 B1]. apply chunk_types in T2 as [A2 B2].
  assert (forall c, text_type (mark_tok files n c k)) as M by (intros c; left; destruct k; cbn; tauto). split.
  - apply Forall_cons; [apply M|]. apply Forall_app. split; [assumption|]. apply Forall_cons; [apply M|]. now apply Forall_app.
  - cbn [map List.concat spell_marked]. rewrite map_app, concat_app, B1. cbn [map List.concat]. rewrite map_app, concat_app, B2, IH2.
    assert (forall c, lexeme (mark_tok files n c k) = [mark_char k]) as Hl by (intros; now destruct k). rewrite !Hl.
    cbn [app]. rewrite <- !app_assoc. cbn [app]. now rewrite <- ?app_assoc.
Qed.
Lemma rich_types files n col r ts : rich_toks files n col r ts -> Forall text_type ts /\ List.concat (map lexeme ts) = spell_rich r.
Proof.
  intros (t1 & t2 & -> & T1 & T2). apply chunk_types in T1 as [A1 B1]. apply marks_types in T2 as [A2 B2].
  split; [now apply Forall_app|]. rewrite map_app, concat_app, B1, B2. reflexivity.
Qed.
Definition body_pline (o : option rich) : pline := match o with Some r => ArticleScan.LText r | None => LBlank end.
Lemma body_types files l : forall n ts, plines_toks files n (map body_pline l) ts ->
  Forall text_type ts /\ List.concat (map lexeme ts) = List.concat (map (fun o => body_line o ++ [NL]) l).
Proof.
  induction l as [|o l IH]; intros n ts H; cbn [map plines_toks] in H; [subst; now split|].
  destruct H as (t1 & t2 & -> & H1 & H2). apply IH in H2 as [A2 B2].
  assert (Forall text_type t1 /\ List.concat (map lexeme t1) = body_line o) as [A1 B1].
  { destruct o as [r|]; cbn in H1 |- *; [exact (rich_types _ _ _ _ _ H1)|subst; now split]. }
  split; [apply Forall_app; split; [assumption|]; apply Forall_cons; [now right|assumption]|].
  rewrite map_app, concat_app, B1. cbn [map List.concat]. rewrite B2. cbn. now rewrite <- app_assoc.
Qed.

(** the lines of leaves, with what they begin with *)
Definition led (l : lead) (x : list rich) : list pline :=
  match x with [] => [LAlone l] | r :: rest => LLed l r :: map ArticleScan.LText rest end.
Definition leaf_plines (x : leaf) : list pline :=
  match x with
  | Para l => map ArticleScan.LText l
  | Items o l => List.concat (map (led (LItem o)) l)
  | Verbatim v body => LAlone (LVerbatim v) :: map body_pline body ++ [LAlone (LVerbatim v)]
  | CommentLine s => [LAlone (LComment s)]
  | CommentBlock body => LAlone LComments :: map body_pline body ++ [LAlone LComments]
  | Setting name value => [LAlone (LEntry name value)]
  | Gap => []
  end.
Lemma alone_toks files n l ts : plines_toks files n [LAlone l] ts -> exists col, ts = [lead_tok files n l; nl_tok files n col].
Proof. intros (t1 & t2 & -> & -> & ->). eexists. reflexivity. Qed.
Lemma blank_toks files n ts : plines_toks files n [LBlank] ts -> ts = [nl_tok files n 1].
Proof. intros (t1 & t2 & -> & -> & ->). reflexivity. Qed.
Lemma led_toks files n l x ts : x <> [] -> plines_toks files n (led l x) ts -> exists ts', ts = lead_tok files n l :: ts' /\ lines_toks files x ts'.
Proof. destruct x as [|r rest]; [congruence|]. intros _. apply led_lines. Qed.
Lemma fenced_toks files n l body ts : plines_toks files n (LAlone l :: map body_pline body ++ [LAlone l]) ts ->
  exists c1 ts' n' c2, ts = [lead_tok files n l] ++ [nl_tok files n c1] ++ ts' ++ [lead_tok files n' l; nl_tok files n' c2]
    /\ Forall text_type ts' /\ List.concat (map lexeme ts') = List.concat (map (fun o => body_line o ++ [NL]) body).
Proof.
  intros (t1 & t2 & -> & -> & H). apply plines_app in H as (t3 & t4 & -> & H3 & H4).
  apply alone_toks in H4 as (c & ->). apply body_types in H3 as [A B]. eexists _, t3, _, _. split; [reflexivity|]. auto.
Qed.

Section Blocks.
  Variables (w : world) (fuel : nat) (origin : bytes) (resolve : bool).
  Notation state := (state origin resolve).
  Notation go := (go w fuel).
  Notation loop := (parse_loop w fuel).

  (** *** Newlines *)
  Definition ended (lst : token_type) : Prop := tt_eqb lst TNewLineChar || tt_eqb lst TEof = true.
  Lemma dispatch_nl files n col p : dispatch w (nl_tok files n col) p = parse_new_line_char w (nl_tok files n col) p.
  Proof. reflexivity. Qed.
  Lemma soft_newline files n col lst hd attrs bst ist ol il force close dang a :
    tt_eqb lst TNewLineChar || tt_eqb lst TEof = false ->
    exists dang', loop [nl_tok files n col] (state lst hd attrs bst ist ol None il false force close dang a)
      = Ok (state TNewLineChar hd attrs bst ist ol None false false force close dang' a)
      /\ nl_dang dang' /\ (if clears_newline_after lst then dang' = None else dang' <> None).
  Proof.
    intros L. cbn [parse_loop]. rewrite go; [|now right|reflexivity|discriminate|discriminate].
    rewrite dispatch_nl. unfold parse_new_line_char. pst. rewrite L. cbn [orb].
    destruct (clears_newline_after lst).
    - exists None. split; [reflexivity|]. split; [discriminate|reflexivity].
    - exists (Some (nl_tok files n col)). split; [reflexivity|]. split; [|discriminate]. intros t [= <-]. reflexivity.
  Qed.
  Definition blank_tail (p : pstate) : result pstate :=
    let p := set_force_new true p in
    match p_bstack p with
    | [] => Ok p
    | b :: r =>
        let p := set_bstack r p in
        if negb (is_section b) && empty (p_open_lines p) then
          let* p := add_to_block_stack_or_graph b p in
          if p_close_parent p && negb (empty (p_bstack p)) then
            let* p := add_last_to_block_stack_or_graph p in
            Ok (set_close_parent false p)
          else Ok p
        else push_block_to_stack b p
    end.
  Definition no_item (bst : list block) : Prop :=
    match bst with b :: _ => is_list_item b = false /\ is_dlist_item b = false | [] => True end.
  Lemma blank_newline files n col lst attrs bst ist ol il force close dang a : ended lst -> no_item bst ->
    token_into w fuel (nl_tok files n col) (state lst None attrs bst ist ol None il false force close dang a)
    = (let* p := add_inlines_to_block_stack (state lst None attrs bst ist ol None false false force close None a) in blank_tail p).
  Proof.
    intros L N. rewrite go; [|now left|reflexivity|discriminate|discriminate].
    rewrite dispatch_nl. unfold parse_new_line_char. pst. rewrite L. cbn [orb].
    pst.
    destruct bst as [|b bst]; [reflexivity|].
    destruct N as [-> ->]. reflexivity.
  Qed.

  Lemma blank_item files n col lst attrs b bst ist ol il force close dang a : ended lst -> is_list_item b = true ->
    token_into w fuel (nl_tok files n col) (state lst None attrs (b :: bst) ist ol None il false force close dang a)
    = (let* p := add_last_list_item_to_list (state lst None attrs (b :: bst) ist ol None false false force close None a) in
       let* p := add_inlines_to_block_stack (set_in_span false p) in blank_tail p).
  Proof.
    intros L N. rewrite go; [|now left|reflexivity|discriminate|discriminate].
    rewrite dispatch_nl. unfold parse_new_line_char. pst. rewrite L. pst. rewrite N. reflexivity.
  Qed.
  Lemma add_nothing lst hd attrs bst ol ot il sp force close dang a :
    add_inlines_to_block_stack (state lst hd attrs bst [] ol ot il sp force close dang a)
    = Ok (state lst hd attrs bst [] ol ot il sp force close dang a).
  Proof. reflexivity. Qed.

  (** *** Delivering a block *)
  Lemma deliver h lst attrs b bst ist il sp force close dang a done : room (KTop h) [] bst a done -> is_section b = false -> is_list_item b = false ->
    exists bst' a', add_to_block_stack_or_graph b (state lst None attrs bst ist [] None il sp force close dang a)
      = Ok (state lst None attrs bst' ist [] None il sp force close dang a')
      /\ add_last_to_block_stack_or_graph (state lst None attrs (b :: bst) ist [] None il sp force close dang a)
      = Ok (state lst None attrs bst' ist [] None il sp force close dang a')
      /\ room (KTop h) [] bst' a' (done ++ [bare b]).
  Proof.
    intros R S Li. destruct R as (_ & H & Ht). unfold add_to_block_stack_or_graph, add_last_to_block_stack_or_graph. pst.
    destruct H as [(-> & F & E)|(s & i & t & lv & pre & leaves & -> & Es & Ed & F & E)].
    - unfold take_metadata. pst. unfold p_asg_push, asg_push_block. pst.
      assert (is_section (consolidate_locations b) = false) as -> by (rewrite <- is_section_bare, bare_consolidate, is_section_bare; assumption).
      pst. eexists _, _. split; [reflexivity|]. split; [reflexivity|]. cbn [room a_blocks]. split; [reflexivity|]. split; [|exact Ht].
      left. split; [reflexivity|]. split.
      + apply Forall_app. split; [assumption|]. apply Forall_cons; [|apply Forall_nil]. unfold plain_block. now rewrite is_section_bare.
      + rewrite map_app, E. cbn. now rewrite bare_consolidate.
    - destruct s as [hs ms ks locs]. cbn [bare] in Es. injection Es as Eh -> Ek.
      destruct hs as [i' t' lv'| | | | | | | | | ]; try discriminate Eh. cbn in Eh. injection Eh as -> Eh ->.
      assert (takes_block (Blk (HSection i t' lv) None ks locs) b = true) as ->.
      { unfold takes_block, level_check. cbn. now destruct b as [[] ? ? ?]. }
      destruct (push_block_leaf (HSection i t' lv) None ks locs b S Li) as (loc' & ->); [discriminate|exact I|].
      pst. eexists _, _. split; [reflexivity|]. split; [reflexivity|]. cbn [room a_blocks]. split; [reflexivity|]. split; [|exact Ht].
      right. eexists _, i, t, lv, pre, (leaves ++ [bare b]). split; [reflexivity|]. split; [|split; [|split]].
      + cbn [bare bare_head]. rewrite map_app, Ek, Eh. reflexivity.
      + rewrite Ed, <- app_assoc. reflexivity.
      + apply Forall_app. split; [assumption|]. apply Forall_cons; [|apply Forall_nil]. unfold plain_block. now rewrite is_section_bare.
      + exact E.
  Qed.
  Lemma settle k lst attrs b bst ol force a done : room k ol bst a done -> is_section b = false -> is_list_item b = false ->
    exists bst' a', blank_tail (state lst None attrs (b :: bst) [] ol None false false force false None a)
      = Ok (state lst None attrs bst' [] ol None false false true false None a')
      /\ room k ol bst' a' (done ++ [bare b]).
  Proof.
    intros R S Li. unfold blank_tail. pst. rewrite S. cbn [negb andb].
    destruct k as [h|n p base a0].
    - destruct R as (-> & H & Ht). cbn [empty].
      destruct (deliver h lst attrs b bst [] false false true false None a done) as (bst' & a' & E & _ & R'); [split; auto|assumption..|].
      match goal with |- context [add_to_block_stack_or_graph b ?p] => change p with (state lst None attrs bst [] [] None false false true false None a) end.
      rewrite E. pst. eauto.
    - destruct R as (-> & -> & Hp & acc & -> & E). cbn [empty andb]. unfold push_block_to_stack. pst.
      eexists _, _. split; [reflexivity|]. cbn [room]. split; [reflexivity|]. split; [reflexivity|]. split; [assumption|].
      exists (b :: acc). split; [reflexivity|]. cbn [rev]. now rewrite map_app, E.
  Qed.
  Lemma idle k lst attrs bst ol force a done : room k ol bst a done ->
    blank_tail (state lst None attrs bst [] ol None false false force false None a)
      = Ok (state lst None attrs bst [] ol None false false true false None a).
  Proof.
    intros R. unfold blank_tail. pst. destruct bst as [|b bst]; [reflexivity|].
    destruct k as [h|n p base a0].
    - destruct R as (-> & [(E & _)|(s & i & t & lv & pre & leaves & Eb & Es & _)] & _); [discriminate|]. injection Eb as -> ->.
      assert (is_section s = true) as -> by (rewrite <- is_section_bare, Es; reflexivity). reflexivity.
    - destruct R as (-> & _). cbn [empty]. rewrite andb_false_r. reflexivity.
  Qed.

  Definition free (k : kind) (force : bool) (bst : list block) : Prop := force = true \/ fresh k bst.
  Lemma new_para lst attrs bst ist ps ol force close a : map bare_inline ist = stack ps ->
    exists b, new_paragraph (state lst None attrs bst ist ol None false false force close None a)
      = Ok (state lst None attrs (b :: bst) [] ol None false false force close None a)
      /\ bare b = Blk (HLeaf NParagraph FmParagraph None (map part_inline (merge ps))) None [] [].
  Proof.
    intros E. unfold new_paragraph. pst. rewrite push_inlines_leaf. pst.
    eexists. split; [reflexivity|]. cbn [bare bare_head app]. now rewrite (rev_stack _ _ E).
  Qed.
  Lemma add_para k lst attrs bst ist ps ol force close a done : map bare_inline ist = stack ps -> ist <> [] -> room k ol bst a done -> free k force bst ->
    exists b, add_inlines_to_block_stack (state lst None attrs bst ist ol None false false force close None a)
      = Ok (state lst None attrs (b :: bst) [] ol None false false force close None a)
      /\ bare b = Blk (HLeaf NParagraph FmParagraph None (map part_inline (merge ps))) None [] [].
  Proof.
    intros E Ne R F. unfold add_inlines_to_block_stack. pst.
    destruct ist as [|i ist]; [congruence|].
    destruct bst as [|b bst]; [apply (new_para lst attrs [] _ ps ol force close a E)|].
    replace (takes_inlines b && true && negb force) with false; [apply (new_para lst attrs _ _ ps ol force close a E)|].
    destruct F as [-> | F]; [now rewrite andb_false_r|].
    destruct k as [h|n p base a0]; cbn [fresh] in F; [discriminate|]. injection F as -> ->.
    destruct R as (_ & _ & Hp & _). now destruct p as [[] ? ? ?].
  Qed.

  (** *** The state between blocks *)
  Definition at_rest (k : kind) (e : env) (done : list block) (p : pstate) : Prop :=
    exists lst attrs bst ol force a,
      p = state lst None attrs bst [] ol None false false force false None a
      /\ ended lst /\ agrees attrs e /\ room k ol bst a done /\ free k force bst /\ no_items done
      /\ kept k done.
  Lemma room_no_item k ol bst a done : room k ol bst a done -> no_items done -> no_item bst.
  Proof.
    intros R F. destruct bst as [|b bst]; [exact I|]. cbn. destruct k as [h|n p base a0].
    - destruct R as (_ & [(E & _)|(s & i & t & lv & pre & leaves & Eb & Es & _)] & _); [discriminate|]. injection Eb as -> ->.
      destruct (heads_bare s) as (_ & <- & <- & _). now rewrite Es.
    - destruct R as (_ & _ & Hp & acc & E & Ed). destruct acc as [|x acc]; cbn in E; injection E as -> ->.
      + now destruct p as [[] ? ? ?].
      + cbn in Ed. rewrite map_app in Ed. rewrite <- Ed in F. apply Forall_app in F as [_ F]. inversion F as [|? ? F1 _]. subst.
        destruct (heads_bare x) as (_ & <- & <- & _). exact F1.
  Qed.

  Lemma blank_idle k e files n col lst attrs bst ol force dang a done : ended lst -> agrees attrs e -> room k ol bst a done ->
    no_items done ->
    kept k done ->
    exists p', loop [nl_tok files n col] (state lst None attrs bst [] ol None false false force false dang a) = Ok p' /\ at_rest k e done p'.
  Proof.
    intros L A R F1 F2. cbn [parse_loop]. rewrite blank_newline by (assumption || eapply room_no_item; eassumption).
    rewrite add_nothing. cbn [bind]. rewrite (idle k lst attrs bst ol force a done R). cbn [bind].
    eexists. split; [reflexivity|]. exists TNewLineChar, attrs, bst, ol, true, a. repeat split; auto. now left.
  Qed.
  Lemma blank_settle k e files n col lst attrs b bst ol force dang a done : ended lst -> agrees attrs e -> room k ol bst a done ->
    no_items done ->
    kept k (done ++ [bare b]) ->
    is_section b = false -> is_list_item b = false -> is_dlist_item b = false ->
    exists p', loop [nl_tok files n col] (state lst None attrs (b :: bst) [] ol None false false force false dang a) = Ok p' /\ at_rest k e (done ++ [bare b]) p'.
  Proof.
    intros L A R F1 F2 S1 S2 S3. cbn [parse_loop]. rewrite blank_newline by (assumption || cbn; auto).
    rewrite add_nothing. cbn [bind].
    destruct (settle k lst attrs b bst ol force a done R S1 S2) as (bst' & a' & E & R'). rewrite E. cbn [bind].
    eexists. split; [reflexivity|]. exists TNewLineChar, attrs, bst', ol, true, a'. repeat split; auto; [now left|].
    apply Forall_app. split; [assumption|]. apply Forall_cons; [|apply Forall_nil]. destruct (heads_bare b) as (_ & -> & -> & _). auto.
  Qed.
  Lemma blank_para k e files n col lst attrs bst ist ps ol force dang a done : ended lst -> agrees attrs e -> room k ol bst a done -> free k force bst ->
    no_items done ->
    kept k done ->
    map bare_inline ist = stack ps -> ist <> [] ->
    exists p', loop [nl_tok files n col] (state lst None attrs bst ist ol None false false force false dang a) = Ok p'
      /\ at_rest k e (done ++ [Blk (HLeaf NParagraph FmParagraph None (map part_inline (merge ps))) None [] []]) p'.
  Proof.
    intros L A R Fr F1 F2 B Ne. cbn [parse_loop]. rewrite blank_newline by (assumption || eapply room_no_item; eassumption).
    destruct (add_para k lst attrs bst ist ps ol force false a done B Ne R Fr) as (b & -> & Eb). cbn [bind].
    assert (is_section b = false /\ is_list_item b = false /\ is_dlist_item b = false) as (S1 & S2 & S3).
    { destruct (heads_bare b) as (<- & <- & <- & _). now rewrite Eb. }
    destruct (settle k lst attrs b bst ol force a done R S1 S2) as (bst' & a' & E & R'). rewrite E. cbn [bind].
    eexists. split; [reflexivity|]. exists TNewLineChar, attrs, bst', ol, true, a'. rewrite <- Eb. repeat split; auto; [now left| |].
    - apply Forall_app. split; [assumption|]. apply Forall_cons; [|apply Forall_nil]. destruct (heads_bare b) as (_ & -> & -> & _). auto.
    - destruct k; [exact I|]. apply Forall_app. split; [assumption|]. apply Forall_cons; [|apply Forall_nil]. now rewrite Eb.
  Qed.

  (** *** Lines of text *)
  Lemma lines_loop files l ts : lines_toks files l ts -> forall hd attrs e bst ol il force close a lst ist ps dang,
    l <> [] -> Forall (settled hd) ts -> lines_fit l -> agrees attrs e ->
    map bare_inline ist = stack ps -> nl_dang dang -> (forall r rs, l = r :: rs -> starts_marked r -> ~ top_marked ps) ->
    exists ist' dang', loop ts (state lst hd attrs bst ist ol None il false force close dang a)
      = Ok (state TNewLineChar hd attrs bst ist' ol None false false force close dang' a)
      /\ nl_dang dang' /\ map bare_inline ist' = stack (ps ++ nl_part dang ++ lines_parts e l) /\ ist' <> [].
  Proof.
    induction 1 as [|n col col' r rs ts ts' T1 T2 IH]; intros hd attrs e bst ol il force close a lst ist ps dang Ne F L A B D Tp; [congruence|].
    apply Forall_app in F as [F1 F2]. inversion F2 as [|? ? F3 F4]. subst. cbn [lines_fit] in L. destruct L as (Hr & Hn & L).
    destruct (rich_loop w fuel origin resolve hd attrs bst ol il force close a e A files n col r ts lst ist ps dang T1 F1 Hr B D)
      as (l1 & i1 & E1 & B1 & I1); [now apply (Tp r rs)|].
    rewrite (loop_app w fuel _ _ _ _ E1). change (nl_tok files n col' :: ts') with ([nl_tok files n col'] ++ ts').
    destruct (soft_newline files n col' l1 hd attrs bst i1 ol il force close None a) as (d2 & E2 & D2 & C2).
    { repeat (destruct I1 as [<-|I1]; [reflexivity|]). destruct I1. }
    rewrite (loop_app w fuel _ _ _ _ E2).
    destruct rs as [|r' rs].
    - inversion T2. subst. exists i1, d2. split; [reflexivity|]. split; [assumption|]. cbn [lines_parts]. rewrite app_nil_r. split; [assumption|].
      eapply stack_some; [exact B1|]. intros Z. apply app_eq_nil in Z as [_ Z]. apply app_eq_nil in Z as [_ Z].
      now apply (rich_parts_some e r Hr).
    - destruct (IH hd attrs e bst ol false force close a TNewLineChar i1 (ps ++ nl_part dang ++ rich_parts e r) d2) as (i3 & d3 & E3 & D3 & B3 & N3); auto; try discriminate.
      { intros r0 rs0 [= <- <-] Hs Ht. apply Hn. split; [|assumption]. rewrite app_assoc in Ht. eapply rich_top; eassumption. }
      exists i3, d3. split; [exact E3|]. split; [assumption|]. split; [|assumption]. rewrite B3. f_equal.
      assert (d2 <> None) as Nd by (repeat (destruct I1 as [<-|I1]; [exact C2|]); destruct I1).
      destruct d2; [|congruence]. cbn [nl_part lines_parts]. now rewrite <- !app_assoc.
  Qed.

  (** *** Verbatim blocks *)
  Definition body_type (ty : token_type) : Prop := In ty [TSourceBlock; TLiteralBlock; TPassthroughBlock; TCommentBlock].
  Lemma pass_step ty t lst attrs bst ist ol il force close a s : body_type ty -> text_type t ->
    map bare_inline ist = match s with Some s => [ILit Inline.LText false s []] | None => [] end ->
    exists ist', token_into w fuel t (state lst None attrs bst ist ol (Some ty) il false force close None a)
      = Ok (state lst None attrs bst ist' ol (Some ty) il false force close None a)
      /\ map bare_inline ist' = [ILit Inline.LText false (match s with Some s => s ++ lexeme t | None => lexeme t end) []].
  Proof.
    intros T P B.
    replace (token_into w fuel t (state lst None attrs bst ist ol (Some ty) il false force close None a))
      with (pass_text_through t (state lst None attrs bst ist ol (Some ty) il false force close None a)).
    - unfold pass_text_through, flush_dangling. pst. unfold pass_text_to_last_inline, add_to_last_inline. pst. destruct s as [s|].
      + destruct ist as [|i [|j ist]]; try discriminate B. cbn [map] in B. injection B as B.
        destruct i as [| |n k v loc|]; try discriminate B. cbn in B. injection B as -> -> ->.
        eexists. split; [reflexivity|]. reflexivity.
      + destruct ist; [|discriminate]. eexists. split; reflexivity.
    - destruct fuel; cbn [token_into]; pst; unfold pre_dispatch; pst;
        repeat (destruct T as [<-|T]); try contradiction;
        destruct P as [P| ->]; try reflexivity; repeat (destruct P as [<-|P]); try contradiction; reflexivity.
  Qed.
  Lemma pass_loop ty ts : Forall text_type ts -> forall lst attrs bst ist ol il force close a s, body_type ty ->
    map bare_inline ist = [ILit Inline.LText false s []] ->
    exists lst' ist', loop ts (state lst None attrs bst ist ol (Some ty) il false force close None a)
      = Ok (state lst' None attrs bst ist' ol (Some ty) il false force close None a)
      /\ map bare_inline ist' = [ILit Inline.LText false (s ++ List.concat (map lexeme ts)) []].
  Proof.
    induction 1 as [|t ts P F IH]; intros lst attrs bst ist ol il force close a s T B.
    - eexists _, _. split; [reflexivity|]. cbn. now rewrite app_nil_r.
    - cbn [parse_loop]. destruct (pass_step ty t lst attrs bst ist ol il force close a (Some s) T P B) as (i1 & E1 & B1).
      rewrite E1. cbn [bind]. rewrite set_last_state.
      destruct (IH (ttype t) attrs bst i1 ol il force close a _ T B1) as (l2 & i2 & E2 & B2). exists l2, i2. split; [exact E2|].
      rewrite B2. cbn. now rewrite <- app_assoc.
  Qed.

  (** *** Leaves *)

  Lemma para_step k e done p files l ts n col : at_rest k e done p -> lines_ok l -> lines_toks files l ts ->
    exists p', loop (ts ++ [nl_tok files n col]) p = Ok p' /\ at_rest k e (done ++ [para_block e l]) p'.
  Proof.
    intros (lst & attrs & bst & ol & force & a & -> & L & A & R & F & N1 & N2) [Ne Lf] T.
    destruct (lines_loop files l ts T None attrs e bst ol false force false a lst [] [] None) as (i1 & d1 & E1 & D1 & B1 & Ni); auto.
    { apply Forall_forall. intros; now left. } { discriminate. } { intros r rs _ _ (k0 & s & r0 & H). discriminate. }
    rewrite (loop_app w fuel _ _ _ _ E1). cbn [nl_part app] in B1.
    exact (blank_para k e files n col TNewLineChar attrs bst i1 (lines_parts e l) ol force d1 a done eq_refl A R F N1 N2 B1 Ni).
  Qed.

  (** one item is complete when the next begins, or at the blank line *)
  Definition mark_of (o : bool) : bytes := if o then bs "." else bs "*".
  Definition item_of (o : bool) (e : env) (i : list rich) : block := Blk (HListItem (mark_of o) (text_inlines e i)) None [] [].
  Definition variant_of (o : bool) : list_variant := if o then LOrdered else LUnordered.
  Definition is_bare_list (o : bool) (kids : list block) (b : block) : Prop := bare b = Blk (HList (variant_of o)) None kids [].
  Definition is_bare_item (o : bool) (b : block) : Prop := bare b = Blk (HListItem (mark_of o) []) None [] [].
  Lemma close_item o kids ls it lst attrs bst ist ps ol force close dang a : is_bare_list o kids ls -> is_bare_item o it ->
    map bare_inline ist = stack ps ->
    exists ls', add_last_list_item_to_list (state lst None attrs (it :: ls :: bst) ist ol None false false force close dang a)
      = Ok (state lst None attrs (ls' :: bst) [] ol None false false false close dang a)
      /\ is_bare_list o (kids ++ [Blk (HListItem (mark_of o) (map part_inline (merge ps))) None [] []]) ls'.
  Proof.
    intros Hl Hi B. unfold is_bare_list, is_bare_item in *. unfold add_last_list_item_to_list.
    destruct it as [hi mi ki li]. cbn [bare] in Hi. injection Hi as Hh -> Hk. destruct hi as [|mk x| | | | | | | |]; try discriminate Hh.
    cbn in Hh. injection Hh as -> Hx. apply map_eq_nil in Hx as ->. apply map_eq_nil in Hk as ->.
    assert (exists li', add_inlines_to_block_stack (set_force_new false (state lst None attrs (Blk (HListItem (mark_of o) []) None [] li :: ls :: bst) ist ol None false false force close dang a))
      = Ok (state lst None attrs (Blk (HListItem (mark_of o) (rev ist)) None [] li' :: ls :: bst) [] ol None false false false close dang a)) as (li' & ->).
    { exists li. unfold add_inlines_to_block_stack. pst. destruct ist as [|i ist]; [reflexivity|].
      cbn [takes_inlines b_head]. pst. rewrite push_inlines_item. reflexivity. }
    cbn [bind]. pst. cbn [is_list_item is_dlist_item b_head]. pst.
    destruct ls as [hl ml kl ll]. cbn [bare] in Hl. injection Hl as Hh -> Hk. destruct hl as [| | | |v| | | | |]; try discriminate Hh. injection Hh as ->.
    eexists. split; [reflexivity|]. rewrite bare_consolidate. cbn [bare bare_head]. rewrite map_app, Hk. cbn [map bare bare_head].
    now rewrite (rev_stack _ _ B).
  Qed.
  Lemma item_token o files n p : p_open_type p = None -> p_header p = None ->
    token_into w fuel (lead_tok files n (LItem o)) p
    = (if o then parse_ordered_list_item else parse_unordered_list_item) (lead_tok files n (LItem o)) p.
  Proof. intros O H. rewrite (ArticleText.go w fuel); [now destruct o|left; assumption|assumption|now destruct o..]. Qed.
  Lemma mark_lexeme o files n : trim (lexeme (lead_tok files n (LItem o))) = mark_of o.
  Proof. now destruct o. Qed.

  Lemma items_loop k e files o rest : forall n ts kids ls it lst attrs bst ist ps ol force dang a done,
    plines_toks files n (List.concat (map (led (LItem o)) rest) ++ [LBlank]) ts -> Forall lines_ok rest ->
    is_bare_list o kids ls -> is_bare_item o it -> map bare_inline ist = stack ps -> ended lst ->
    agrees attrs e -> room k ol bst a done -> no_items done -> kept k done ->
    exists p', loop ts (state lst None attrs (it :: ls :: bst) ist ol None false false force false dang a) = Ok p'
      /\ at_rest k e (done ++ [Blk (HList (variant_of o)) None (kids ++ Blk (HListItem (mark_of o) (map part_inline (merge ps))) None [] [] :: map (item_of o e) rest) []]) p'.
  Proof.
    induction rest as [|i rest IH]; intros n ts kids ls it lst attrs bst ist ps ol force dang a done T F Hl Hi B L A R N1 N2.
    - cbn [map List.concat app] in T. apply blank_toks in T as ->. cbn [parse_loop].
      assert (is_list_item it = true) as Hit by (destruct (heads_bare it) as (_ & <- & _); now rewrite Hi).
      rewrite blank_item by assumption.
      destruct (close_item o kids ls it lst attrs bst ist ps ol force false None a Hl Hi B) as (ls' & E & Hl'). rewrite E. cbn [bind].
      match goal with |- context [add_inlines_to_block_stack ?p] => change p with (state lst None attrs (ls' :: bst) [] ol None false false false false None a) end.
      rewrite add_nothing. cbn [bind].
      assert (is_section ls' = false /\ is_list_item ls' = false /\ is_dlist_item ls' = false /\ is_parent ls' = false) as (S1 & S2 & S3 & S4).
      { destruct (heads_bare ls') as (<- & <- & <- & <-). now rewrite Hl'. }
      destruct (settle k lst attrs ls' bst ol false a done R S1 S2) as (bst' & a' & E' & R').
      rewrite E'. cbn [bind]. rewrite Hl' in R'. eexists. split; [reflexivity|].
      exists TNewLineChar, attrs, bst', ol, true, a'. cbn [map]. repeat split; auto; [now left| |].
      + apply Forall_app. split; [assumption|]. now apply Forall_cons.
      + now apply kept_snoc.
    - inversion F as [|? ? [Ne Lf] F2]. subst. cbn [map List.concat] in T. rewrite <- app_assoc in T.
      apply plines_app in T as (t1 & t2 & -> & T1 & T2). apply led_toks in T1 as (t3 & -> & T1); [|assumption].
      cbn [app parse_loop]. rewrite item_token by reflexivity.
      set (t := lead_tok files n (LItem o)).
      assert (exists ls' it', (if o then parse_ordered_list_item else parse_unordered_list_item) t
                 (state lst None attrs (it :: ls :: bst) ist ol None false false force false dang a)
               = Ok (state lst None attrs (it' :: ls' :: bst) [] ol None false false false false None a)
               /\ is_bare_list o (kids ++ [Blk (HListItem (mark_of o) (map part_inline (merge ps))) None [] []]) ls' /\ is_bare_item o it')
        as (ls' & it' & E & Hl' & Hi').
      { destruct (close_item o kids ls it lst attrs bst ist ps ol force false None a Hl Hi B) as (ls' & E & Hl').
        exists ls', (Blk (HListItem (mark_of o) []) None [] (token_locations t)). split; [|split; [assumption|reflexivity]].
        assert (if o then is_ordered_list_item it = true else is_unordered_list_item it = true) as Ho.
        { unfold is_bare_item in Hi. destruct it as [hi mi ki li]. cbn [bare] in Hi. injection Hi as Hh _ _.
          destruct hi as [|mk x| | | | | | | |]; try discriminate Hh. cbn in Hh. injection Hh as -> _. now destruct o. }
        pose proof (mark_lexeme o files n) as Hm. fold t in Hm.
        destruct o; unfold parse_ordered_list_item, parse_unordered_list_item, new_list_item; rewrite Hm; pst; rewrite Ho;
          match goal with |- context [add_last_list_item_to_list ?p] => change p with (state lst None attrs (it :: ls :: bst) ist ol None false false force false None a) end;
          rewrite E; reflexivity. }
      rewrite E. cbn [bind]. rewrite set_last_state.
      destruct (lines_loop files i t3 T1 None attrs e (it' :: ls' :: bst) ol false false false a (ttype t) [] [] None) as (i1 & d1 & E1 & D1 & B1 & Ni); auto.
      { apply Forall_forall. intros; now left. } { discriminate. } { intros r rs _ _ (k0 & s & r0 & H). discriminate. }
      rewrite (loop_app w fuel _ _ _ _ E1). cbn [nl_part app] in B1.
      destruct (IH _ t2 _ ls' it' TNewLineChar attrs bst i1 (lines_parts e i) ol false d1 a done T2 F2 Hl' Hi' B1 eq_refl A R N1 N2) as (p' & E2 & P2).
      exists p'. split; [exact E2|]. rewrite <- app_assoc in P2. exact P2.
  Qed.
  Lemma items_step k e done p files o l n ts : at_rest k e done p -> leaf_ok (Items o l) ->
    plines_toks files n (leaf_plines (Items o l) ++ [LBlank]) ts ->
    exists p', loop ts p = Ok p' /\ at_rest k e (done ++ leaf_blocks e (Items o l)) p'.
  Proof.
    intros (lst & attrs & bst & ol & force & a & -> & L & A & R & F & N1 & N2) [Ne Lf] T.
    destruct l as [|i rest]; [congruence|]. inversion Lf as [|? ? [Ni Fi] F2]. subst. cbn [leaf_plines map List.concat] in T. rewrite <- app_assoc in T.
    apply plines_app in T as (t1 & t2 & -> & T1 & T2). apply led_toks in T1 as (t3 & -> & T1); [|assumption].
    cbn [app parse_loop]. rewrite item_token by reflexivity.
    set (t := lead_tok files n (LItem o)).
    set (ls := Blk (HList (variant_of o)) None [] (token_locations t)).
    set (it := Blk (HListItem (mark_of o) []) None [] (token_locations t)).
    assert ((if o then parse_ordered_list_item else parse_unordered_list_item) t
              (state lst None attrs bst [] ol None false false force false None a)
            = Ok (state lst None attrs (it :: ls :: bst) [] ol None false false force false None a)) as E.
    { pose proof (mark_lexeme o files n) as Hm. fold t in Hm. pose proof (room_no_item _ _ _ _ _ R N1) as H.
      destruct o; unfold parse_ordered_list_item, parse_unordered_list_item, new_list_item; rewrite Hm; pst.
      - replace (match bst with [] => false | b :: _ => is_ordered_list_item b end) with false; [reflexivity|].
        destruct bst as [|[[] ? ? ?] ?]; try reflexivity. destruct H; discriminate.
      - replace (match bst with [] => false | b :: _ => is_unordered_list_item b end) with false; [reflexivity|].
        destruct bst as [|[[] ? ? ?] ?]; try reflexivity. destruct H; discriminate. }
    rewrite E. cbn [bind]. rewrite set_last_state.
    destruct (lines_loop files i t3 T1 None attrs e (it :: ls :: bst) ol false force false a (ttype t) [] [] None) as (i1 & d1 & E1 & D1 & B1 & Nn); auto.
    { apply Forall_forall. intros; now left. } { discriminate. } { intros r rs _ _ (k0 & s & r0 & H). discriminate. }
    rewrite (loop_app w fuel _ _ _ _ E1). cbn [nl_part app] in B1.
    destruct (items_loop k e files o rest _ t2 [] ls it TNewLineChar attrs bst i1 (lines_parts e i) ol force d1 a done T2 F2 eq_refl eq_refl B1 eq_refl A R N1 N2)
      as (p' & E2 & P2).
    exists p'. split; [exact E2|exact P2].
  Qed.

  (** an opening fence, the lines, and the closing fence *)
  Definition fence_lead (l : lead) : Prop := match l with LVerbatim _ | LComments => True | _ => False end.
  Definition fence_block (l : lead) (t : token) (x : list inline) (loc : list location) : block :=
    Blk (HLeaf (match l with LVerbatim v => verbatim_name v | _ => NListing end) FmDelimited (Some (lead_text l)) x) None [] loc.
  Lemma lead_token_text files n l : token_text (lead_tok files n l) = lead_text l.
  Proof. now destruct l as [[|[|[|[|]]]]|[]|[]|[]|[]| |[]| |]. Qed.
  Lemma lead_token_type files n l : ttype (lead_tok files n l) = lead_type l.
  Proof. now destruct l as [[|[|[|[|]]]]|[]|[]|[]|[]| |[]| |]. Qed.
  Lemma open_fence files n l lst attrs bst ol force close dang a : fence_lead l ->
    token_into w fuel (lead_tok files n l) (state lst None attrs bst [] ol None false false force close dang a)
    = Ok (state lst None attrs (fence_block l (lead_tok files n l) [] (token_locations (lead_tok files n l)) :: bst) [] ol (Some (lead_type l)) false false false close dang a).
  Proof.
    intros H. rewrite go; [|now left|reflexivity|..]; [|destruct l as [| | |[]| | |[]| |]; try contradiction; discriminate..].
    destruct l as [| | |v| | | | |]; try contradiction; [destruct v|]; reflexivity.
  Qed.
  Lemma body_loop files n l body ts lst attrs bst ol force close a : fence_lead l ->
    plines_toks files n (LAlone l :: map body_pline body ++ [LAlone l]) ts ->
    exists n' c lst' i t1 b, ts = t1 ++ [lead_tok files n' l; nl_tok files n' c]
      /\ loop t1 (state lst None attrs bst [] ol None false false force close None a)
         = Ok (state lst' None attrs (b :: bst) [i] ol (Some (lead_type l)) false false false close None a)
      /\ (exists loc, b = fence_block l (lead_tok files n l) [] loc)
      /\ bare_inline i = ILit Inline.LText false (NL :: List.concat (map (fun o => body_line o ++ [NL]) body)) [].
  Proof.
    intros H T. apply fenced_toks in T as (c1 & t2 & n' & c2 & -> & F & B).
    assert (body_type (lead_type l)) as Hb by (destruct l as [| | |[]| | | | |]; try contradiction; cbn; tauto).
    exists n', c2. set (b := fence_block l (lead_tok files n l) [] (token_locations (lead_tok files n l))).
    destruct (pass_step (lead_type l) (nl_tok files n c1) (lead_type l) attrs (b :: bst) [] ol false false close a None Hb) as (i1 & E1 & B1);
      [now right|reflexivity|].
    destruct (pass_loop (lead_type l) t2 F TNewLineChar attrs (b :: bst) i1 ol false false close a _ Hb B1) as (l2 & i2 & E2 & B2).
    destruct i2 as [|i [|j i2]]; try discriminate B2. cbn [map] in B2. injection B2 as B2.
    exists l2, i, ([lead_tok files n l] ++ [nl_tok files n c1] ++ t2), b. split; [now rewrite <- !app_assoc|]. split; [|split; [now eexists|]].
    - cbn [app parse_loop]. rewrite open_fence by assumption. cbn [bind]. rewrite set_last_state. fold b. rewrite lead_token_type.
      rewrite E1. cbn [bind]. rewrite set_last_state. exact E2.
    - rewrite B2, B. reflexivity.
  Qed.
  Lemma close_token files n l p : fence_lead l -> p_header p = None -> p_open_type p = Some (lead_type l) ->
    token_into w fuel (lead_tok files n l) p = dispatch w (lead_tok files n l) p.
  Proof.
    intros H Hh Ho. destruct fuel; cbn [token_into]; rewrite Hh; cbn [bind]; unfold pre_dispatch; rewrite Ho;
      destruct l as [| | |[]| | | | |]; try contradiction; reflexivity.
  Qed.

  Lemma verbatim_step k e done p files v body n ts : at_rest k e done p ->
    plines_toks files n (leaf_plines (Verbatim v body) ++ [LBlank]) ts ->
    exists p', loop ts p = Ok p' /\ at_rest k e (done ++ leaf_blocks e (Verbatim v body)) p'.
  Proof.
    intros (lst & attrs & bst & ol & force & a & -> & L & A & R & F & N1 & N2) T.
    apply plines_app in T as (t1 & t2 & -> & T1 & T2). apply blank_toks in T2 as ->. cbn [leaf_plines] in T1.
    destruct (body_loop files n (LVerbatim v) body t1 lst attrs bst ol force false a I T1) as (n' & c & l1 & i & t3 & b & -> & E & (loc & ->) & Bi).
    rewrite <- app_assoc, (loop_app w fuel _ _ _ _ E). cbn [app parse_loop].
    rewrite close_token by (exact I || reflexivity).
    set (t := lead_tok files n' (LVerbatim v)).
    assert (dispatch w t (state l1 None attrs (fence_block (LVerbatim v) (lead_tok files n (LVerbatim v)) [] loc :: bst) [i] ol (Some (lead_type (LVerbatim v))) false false false false None a)
      = Ok (state l1 None attrs (fence_block (LVerbatim v) (lead_tok files n (LVerbatim v)) [i] (reconcile loc (token_locations t)) :: bst) [] ol None false false false false None a)) as E2.
    { now destruct v. }
    rewrite E2. cbn [bind]. rewrite set_last_state.
    set (b := fence_block (LVerbatim v) (lead_tok files n (LVerbatim v)) [i] (reconcile loc (token_locations t))).
    destruct (soft_newline files n' c (ttype t) None attrs (b :: bst) [] ol false false false None a) as (d & E3 & _ & _).
    { unfold t. rewrite lead_token_type. now destruct v. }
    change (exists p', loop ([nl_tok files n' c] ++ [nl_tok files (n + List.length (leaf_plines (Verbatim v body))) 1]) (state (ttype t) None attrs (b :: bst) [] ol None false false false false None a) = Ok p' /\ at_rest k e (done ++ leaf_blocks e (Verbatim v body)) p').
    rewrite (loop_app w fuel _ _ _ _ E3).
    assert (bare b = Blk (HLeaf (verbatim_name v) FmDelimited (Some (fence v)) [ILit Inline.LText false (NL :: List.concat (map (fun o => body_line o ++ [NL]) body)) []]) None [] []) as Eb.
    { unfold b, fence_block. cbn [bare bare_head map]. now rewrite Bi. }
    change (leaf_blocks e (Verbatim v body)) with [Blk (HLeaf (verbatim_name v) FmDelimited (Some (fence v)) [ILit Inline.LText false (NL :: List.concat (map (fun o => body_line o ++ [NL]) body)) []]) None [] []].
    rewrite <- Eb.
    apply blank_settle; auto; try reflexivity. destruct k; [exact I|]. apply Forall_app. split; [assumption|]. rewrite Eb. now apply Forall_cons.
  Qed.
  Lemma comments_step k e done p files body n ts : at_rest k e done p ->
    plines_toks files n (leaf_plines (CommentBlock body) ++ [LBlank]) ts ->
    exists p', loop ts p = Ok p' /\ at_rest k e done p'.
  Proof.
    intros (lst & attrs & bst & ol & force & a & -> & L & A & R & F & N1 & N2) T.
    apply plines_app in T as (t1 & t2 & -> & T1 & T2). apply blank_toks in T2 as ->. cbn [leaf_plines] in T1.
    destruct (body_loop files n LComments body t1 lst attrs bst ol force false a I T1) as (n' & c & l1 & i & t3 & b & -> & E & _ & _).
    rewrite <- app_assoc, (loop_app w fuel _ _ _ _ E). cbn [app parse_loop].
    rewrite close_token by (exact I || reflexivity).
    change (exists p', loop ([nl_tok files n' c] ++ [nl_tok files (n + List.length (leaf_plines (CommentBlock body))) 1]) (state TCommentBlock None attrs bst [] ol None false false true false None a) = Ok p' /\ at_rest k e done p').
    destruct (soft_newline files n' c TCommentBlock None attrs bst [] ol false true false None a eq_refl) as (d & E3 & _ & _).
    rewrite (loop_app w fuel _ _ _ _ E3). eapply blank_idle; eauto. reflexivity.
  Qed.
  Lemma comment_step k e done p files s n ts : at_rest k e done p ->
    plines_toks files n (leaf_plines (CommentLine s) ++ [LBlank]) ts ->
    exists p', loop ts p = Ok p' /\ at_rest k e done p'.
  Proof.
    intros (lst & attrs & bst & ol & force & a & -> & L & A & R & F & N1 & N2) T.
    apply plines_app in T as (t1 & t2 & -> & T1 & T2). apply blank_toks in T2 as ->. apply alone_toks in T1 as (c & ->).
    cbn [app parse_loop]. rewrite go; [|now left|reflexivity|discriminate|discriminate].
    change (exists p', loop ([nl_tok files n c] ++ [nl_tok files (n + List.length (leaf_plines (CommentLine s))) 1]) (state TComment None attrs bst [] ol None false false force false None a) = Ok p' /\ at_rest k e done p').
    destruct (soft_newline files n c TComment None attrs bst [] ol false force false None a eq_refl) as (d & E3 & _ & _).
    rewrite (loop_app w fuel _ _ _ _ E3). eapply blank_idle; eauto. reflexivity.
  Qed.
  Lemma entry_token files n name value lst hd attrs bst ist ol il force close dang a : simple_line (Entry name value) ->
    token_into w fuel (lead_tok files n (LEntry name value)) (state lst hd attrs bst ist ol None il false force close dang a)
    = Ok (state lst hd (minsert name value attrs) bst ist ol None il false force close dang a).
  Proof.
    intros H. destruct (entry_parts name value H) as (comps & E & V). destruct H as (_ & Nl & _).
    rewrite go; [|now right|reflexivity|discriminate|discriminate].
    change (parse_attribute w (lead_tok files n (LEntry name value)) (state lst hd attrs bst ist ol None il false force close dang a)
      = Ok (state lst hd (minsert name value attrs) bst ist ol None il false force close dang a)).
    unfold parse_attribute. rewrite lead_token_text.
    replace (lead_text (LEntry name value)) with (":" :: name ++ ":" :: body_of value) by reflexivity.
    rewrite E, V. destruct (beqb name (bs "leveloffset")) eqn:Bq; [apply beqb_eq in Bq; contradiction|reflexivity].
  Qed.
  Lemma setting_step k e done p files name value n ts : at_rest k e done p -> simple_line (Entry name value) ->
    plines_toks files n (leaf_plines (Setting name value) ++ [LBlank]) ts ->
    exists p', loop ts p = Ok p' /\ at_rest k (set_env e name value) done p'.
  Proof.
    intros (lst & attrs & bst & ol & force & a & -> & L & A & R & F & N1 & N2) H T.
    apply plines_app in T as (t1 & t2 & -> & T1 & T2). apply blank_toks in T2 as ->. apply alone_toks in T1 as (c & ->).
    cbn [app parse_loop]. rewrite entry_token by assumption. cbn [bind]. rewrite set_last_state.
    change (exists p', loop ([nl_tok files n c] ++ [nl_tok files (n + List.length (leaf_plines (Setting name value))) 1]) (state TAttribute None (minsert name value attrs) bst [] ol None false false force false None a) = Ok p' /\ at_rest k (set_env e name value) done p').
    destruct (soft_newline files n c TAttribute None (minsert name value attrs) bst [] ol false force false None a eq_refl) as (d & E3 & _ & _).
    rewrite (loop_app w fuel _ _ _ _ E3). eapply blank_idle; eauto; [reflexivity|]. now apply agrees_insert.
  Qed.

  Lemma leaf_step k e done p files x n ts : at_rest k e done p -> leaf_ok x ->
    plines_toks files n (leaf_plines x ++ [LBlank]) ts ->
    exists p', loop ts p = Ok p' /\ at_rest k (leaf_env e x) (done ++ leaf_blocks e x) p'.
  Proof.
    intros R H T. destruct x as [l|o l|v body|s|body|name value|]; cbn [leaf_env leaf_blocks]; rewrite ?app_nil_r.
    - apply plines_app in T as (t1 & t2 & -> & T1 & T2). apply blank_toks in T2 as ->. eapply para_step; eauto. eapply lines_of. exact T1.
    - eapply items_step; eauto.
    - eapply verbatim_step; eauto.
    - eapply comment_step; eauto.
    - eapply comments_step; eauto.
    - eapply setting_step; eauto.
    - apply blank_toks in T as ->. destruct R as (lst & attrs & bst & ol & force & a & -> & L & A & R & F & N1 & N2).
      eapply blank_idle; eauto.
  Qed.
  Definition leaves_plines (l : list leaf) : list pline := List.concat (map (fun x => leaf_plines x ++ [LBlank]) l).
  Lemma leaves_step k files l : forall e done p n ts, at_rest k e done p -> Forall leaf_ok l -> plines_toks files n (leaves_plines l) ts ->
    exists p', loop ts p = Ok p' /\ at_rest k (snd (leaves_blocks e l)) (done ++ fst (leaves_blocks e l)) p'.
  Proof.
    induction l as [|x l IH]; intros e done p n ts R F T.
    - cbn in T. subst. exists p. cbn. rewrite app_nil_r. auto.
    - inversion F as [|? ? F1 F2]. subst. unfold leaves_plines in T. cbn [map List.concat] in T. apply plines_app in T as (t1 & t2 & -> & T1 & T2).
      destruct (leaf_step k e done p files x n t1 R F1 T1) as (p1 & E1 & R1). rewrite (loop_app w fuel _ _ _ _ E1).
      destruct (IH _ _ p1 _ t2 R1 F2 T2) as (p2 & E2 & R2). exists p2. split; [exact E2|].
      cbn [leaves_blocks]. destruct (leaves_blocks (leaf_env e x) l) as [bl e']. cbn [fst snd] in *. now rewrite app_assoc.
  Qed.
End Blocks.
