(** * Articles: what the parser makes of the text of a line *)
From Verif Require Import Base World Location Token Scanner Meta Inline Block Asg Parser SpecScan SpecStart SpecLoc
  SpecDoc SpecArticle ScanLemmas ScanStart ScanDoc LocProofs DocProofs DocGraph ArticleScan ArticleGraph.
Local Open Scope char_scope.
Local Open Scope nat_scope.
Local Arguments reconcile : simpl never.
Local Arguments token_locations : simpl never.
Local Arguments token_text : simpl never.

(** ** Parts *)
Definition push_text (s : bytes) (l : list part) : list part :=
  match l with PText a :: r => PText (a ++ s) :: r | _ => PText s :: l end.
Lemma push_text_app a b l : push_text b (push_text a l) = push_text (a ++ b) l.
Proof. destruct l as [|[c|k c] l]; cbn; [reflexivity|now rewrite app_assoc|reflexivity]. Qed.
Lemma push_text_snoc s l x : l <> [] -> push_text s l ++ [x] = push_text s (l ++ [x]).
Proof. destruct l as [|[] l]; [congruence|reflexivity..]. Qed.
Lemma merge_nil l : merge l = [] -> l = [].
Proof. destruct l as [|[a|k a] l]; cbn; [reflexivity| |discriminate]. destruct (merge l) as [|[] ?]; discriminate. Qed.
Lemma merge_marked l k s : rev (merge (l ++ [PMarked k s])) = PMarked k s :: rev (merge l).
Proof.
  assert (merge (l ++ [PMarked k s]) = merge l ++ [PMarked k s]) as ->; [|now rewrite rev_app_distr].
  induction l as [|[a|q a] l IH]; cbn; [reflexivity| |now rewrite IH]. rewrite IH.
  destruct (merge l) as [|[b|q b] r]; reflexivity.
Qed.
Lemma merge_text l s : rev (merge (l ++ [PText s])) = push_text s (rev (merge l)).
Proof.
  induction l as [|[a|q a] l IH]; [reflexivity| |].
  - cbn [app merge]. destruct (merge l) as [|x r] eqn:M.
    + apply merge_nil in M as ->. reflexivity.
    + assert (merge (l ++ [PText s]) = rev (push_text s (rev (x :: r)))) as -> by now rewrite <- IH, rev_involutive.
      destruct (exists_last (l := x :: r)) as (k & y & E); [discriminate|]. rewrite E, rev_app_distr. cbn [rev app].
      destruct y as [b|q b]; cbn [push_text rev]; rewrite rev_involutive.
      * destruct k as [|[c|q c] k]; cbn [app] in *.
        -- injection E as -> ->. cbn. now rewrite app_assoc.
        -- injection E as -> ->. cbn. rewrite !rev_app_distr. reflexivity.
        -- injection E as -> ->. cbn. rewrite !rev_app_distr. reflexivity.
      * destruct k as [|[c|q' c] k]; cbn [app] in *; injection E as -> ->; cbn; rewrite ?rev_app_distr; reflexivity.
  - cbn [app merge rev]. rewrite IH. destruct (rev (merge l)) as [|[b|k b] r]; reflexivity.
Qed.
(** the stack for parts [l], most recent first *)
Definition stack (l : list part) : list inline := map part_inline (rev (merge l)).
Definition top_marked (l : list part) : Prop := exists k s r, rev (merge l) = PMarked k s :: r.
Lemma top_after_text l s : ~ top_marked (l ++ [PText s]).
Proof. intros (k & x & r & E). rewrite merge_text in E. destruct (rev (merge l)) as [|[b|q b] t]; discriminate. Qed.

Definition nl_part (dang : option token) : list part := match dang with Some _ => [PText [NL]] | None => [] end.

Section State.
  Variables (w : world) (fuel : nat) (origin : bytes) (resolve : bool).
  Definition state lst hd attrs bst ist ol ot il sp force close dang a : pstate :=
    mkP origin lst hd attrs bst ist [] None None ol ot 0%Z il sp false force false close dang resolve a.

  Lemma set_last_state lst lst' hd attrs bst ist ol ot il sp force close dang a :
    set_last lst' (state lst hd attrs bst ist ol ot il sp force close dang a)
    = state lst' hd attrs bst ist ol ot il sp force close dang a.
  Proof. reflexivity. Qed.
  Definition settled (hd : option header) (t : token) : Prop := hd = None \/ can_be_in_document_header t = true.
  Lemma go t p : settled (p_header p) t -> p_open_type p = None -> ttype t <> TInclude -> ttype t <> TTableCell ->
    token_into w fuel t p = dispatch w t p.
  Proof.
    intros H O N1 N2. destruct fuel as [|f]; cbn [token_into];
      (replace (match p_header p with Some _ => if can_be_in_document_header t then Ok p else check_and_move_header w p | None => Ok p end)
         with (Ok p : result pstate) by (destruct H as [-> | ->]; [reflexivity|now destruct (p_header p)]));
      cbn [bind]; unfold pre_dispatch; rewrite O; destruct (ttype t); congruence || reflexivity.
  Qed.

  Section Content.
    Variables (hd : option header) (attrs : list (bytes * bytes)) (bst : list block) (ol : list nat) (il force close : bool) (a : asg).
    Notation C lst ist sp dang := (state lst hd attrs bst ist ol None il sp force close dang a).

    Definition inline_type (t : token_type) : Prop :=
      In t [TText; TAttributeReference; TStrong; TEmphasis; TMonospace; TMark; TSuperscript; TSubscript].

    (** *** Text outside marks *)
    Lemma add_text_out t lst ist l sp dang : sp = false -> map bare_inline ist = map part_inline l ->
      exists ist', add_text_to_last_inline t (C lst ist sp dang) = Ok (C lst ist' sp dang)
        /\ map bare_inline ist' = map part_inline (push_text (token_text t) l).
    Proof.
      intros -> E. destruct l as [|p l].
      - apply map_eq_nil in E as ->. eexists. split; reflexivity.
      - destruct ist as [|i ist]; [discriminate|]. cbn [map] in E. injection E as E1 E2.
        destruct p as [s|k s].
        + destruct i; try discriminate. cbn in E1. injection E1 as -> -> ->.
          eexists. split; [reflexivity|]. cbn. now rewrite E2.
        + destruct i; try discriminate. cbn [part_inline] in E1. eexists. split; [reflexivity|]. cbn [push_text]. rewrite !map_cons.
          cbn [state p_istack]. rewrite !map_cons.
          rewrite E2, E1. reflexivity.
    Qed.
    Lemma parse_text_out t lst ist l dang : map bare_inline ist = map part_inline l -> nl_dang dang ->
      exists ist', parse_text t (C lst ist false dang) = Ok (C lst ist' false None)
        /\ map bare_inline ist' = map part_inline (push_text (token_text t) (match dang with Some _ => push_text [NL] l | None => l end)).
    Proof.
      intros E D. unfold parse_text, flush_dangling. cbn [state p_dangling p_preserve_nl]. destruct dang as [d|].
      - destruct (add_text_out d lst ist l false (Some d) eq_refl E) as (i1 & E1 & B1). unfold state in *. rewrite E1. cbn [bind].
        rewrite (D d eq_refl) in B1.
        destruct (add_text_out t lst i1 (push_text [NL] l) false None eq_refl B1) as (i2 & E2 & B2). exists i2. split; [exact E2|exact B2].
      - cbn [bind]. destruct (add_text_out t lst ist l false None eq_refl E) as (i2 & E2 & B2). exists i2. split; [exact E2|exact B2].
    Qed.
    (** *** Text in an open mark *)
    Definition open_span (k : mark) (kids : list part) (i : inline) : Prop :=
      bare_inline i = ISpan (mark_variant k) FConstrained (map part_inline kids) None [] true.
    Lemma parse_text_in t lst i ist k kids : open_span k kids i -> (forall q s, ~ In (PMarked q s) kids) -> List.length kids <= 1 ->
      exists i', parse_text t (C lst (i :: ist) true None) = Ok (C lst (i' :: ist) true None)
        /\ open_span k (push_text (token_text t) kids) i'.
    Proof.
      intros E N L. unfold open_span in *. destruct i as [v f l m loc o| | |]; try discriminate. cbn in E. injection E as -> -> E -> ->.
      unfold parse_text, flush_dangling. cbn [state p_dangling bind]. unfold add_text_to_last_inline, add_to_last_inline. cbn [state p_istack p_in_span].
      eexists. split; [reflexivity|].
      destruct kids as [|[s|q s] [|]]; cbn in L; try lia.
      - apply map_eq_nil in E as ->. reflexivity.
      - destruct l as [|j [|]]; try discriminate. cbn in E. injection E as E. destruct j; try discriminate. cbn in E. injection E as -> -> ->. reflexivity.
      - exfalso. apply (N q s). now left.
    Qed.

    Definition word_token (t : token) : Prop := ttype t = TText \/ ttype t = TAttributeReference.
    (** what a text or reference token adds *)
    Definition words_to (t u : token) : Prop :=
      forall p, p_header p = hd -> p_open_type p = None -> p_attrs p = attrs -> token_into w fuel t p = parse_text u p.

    Inductive reads : list token -> bytes -> Prop :=
    | reads_nil : reads [] []
    | reads_cons t u ts s : words_to t u -> word_token t -> reads ts s -> reads (t :: ts) (token_text u ++ s).
    Lemma reads_app x s y s' : reads x s -> reads y s' -> reads (x ++ y) (s ++ s').
    Proof. induction 1 as [|t u ts s H W R IH]; intros Y; [exact Y|]. cbn [app]. rewrite <- app_assoc. constructor; auto. Qed.
    Lemma reads_out ts s : reads ts s -> forall lst ist l dang, ts <> [] -> map bare_inline ist = map part_inline l -> nl_dang dang ->
      exists lst' ist', parse_loop w fuel ts (C lst ist false dang) = Ok (C lst' ist' false None)
        /\ map bare_inline ist' = map part_inline (push_text s (match dang with Some _ => push_text [NL] l | None => l end))
        /\ inline_type lst'.
    Proof.
      induction 1 as [|t u ts s H W R IH]; intros lst ist l dang Ne E D; [congruence|]. cbn [parse_loop].
      rewrite H by reflexivity. destruct (parse_text_out u lst ist l dang E D) as (i1 & E1 & B1). rewrite E1. cbn [bind].
      rewrite set_last_state. assert (inline_type (ttype t)) as It by (destruct W as [-> | ->]; cbn; tauto).
      destruct ts as [|t' ts].
      - inversion R. subst. exists (ttype t), i1. rewrite app_nil_r. auto.
      - destruct (IH (ttype t) i1 (push_text (token_text u) (match dang with Some _ => push_text [NL] l | None => l end)) None) as (l2 & i2 & E2 & B2 & T2); [discriminate|exact B1|discriminate|].
        exists l2, i2. rewrite push_text_app in B2. auto.
    Qed.
    Lemma reads_in ts s : reads ts s -> forall lst i ist k kids, ts <> [] -> open_span k kids i -> (forall q s, ~ In (PMarked q s) kids) -> List.length kids <= 1 ->
      exists lst' i', parse_loop w fuel ts (C lst (i :: ist) true None) = Ok (C lst' (i' :: ist) true None)
        /\ open_span k (push_text s kids) i'.
    Proof.
      induction 1 as [|t u ts s H W R IH]; intros lst i ist k kids Ne E N L; [congruence|]. cbn [parse_loop].
      rewrite H by reflexivity. destruct (parse_text_in u lst i ist k kids E N L) as (i1 & E1 & B1). rewrite E1. cbn [bind].
      rewrite set_last_state.
      destruct ts as [|t' ts].
      - inversion R. subst. exists (ttype t), i1. rewrite app_nil_r. auto.
      - destruct (IH (ttype t) i1 ist k (push_text (token_text u) kids)) as (l2 & i2 & E2 & B2); [discriminate|exact B1| | |].
        + intros q x. destruct kids as [|[y|q' y] [|]]; cbn in L; try lia; cbn; try (intros [K|[]]; discriminate).
          exfalso. apply (N q' y). now left.
        + destruct kids as [|[y|q' y] [|]]; cbn in L |- *; try lia. exfalso. apply (N q' y). now left.
        + exists l2, i2. rewrite push_text_app in B2. auto.
    Qed.

    (** *** Marks *)
    Lemma mark_token files n col k p : settled (p_header p) (mark_tok files n col k) -> p_open_type p = None ->
      token_into w fuel (mark_tok files n col k) p
      = parse_inline_span (new_span (mark_variant k) FConstrained (token_locations (mark_tok files n col k))) p.
    Proof. intros H O. rewrite go; [|assumption..|destruct k; discriminate|destruct k; discriminate]. destruct k; reflexivity. Qed.

    Lemma no_open ist l : map bare_inline ist = map part_inline l -> split_at_first is_open ist = None.
    Proof.
      revert l. induction ist as [|i ist IH]; intros l E; [reflexivity|]. destruct l as [|p l]; [discriminate|]. cbn in E. injection E as E1 E2.
      cbn. replace (is_open i) with false; [now rewrite (IH l E2)|]. destruct p, i; try discriminate; [reflexivity|]. cbn in E1. now injection E1 as _ _ _ _ <-.
    Qed.
    Lemma open_mark files n col k lst ist l dang : settled hd (mark_tok files n col k) ->
      map bare_inline ist = map part_inline l -> nl_dang dang -> (forall q s r, l <> PMarked q s :: r) ->
      exists i ist', token_into w fuel (mark_tok files n col k) (C lst ist false dang) = Ok (C lst (i :: ist') true None)
        /\ open_span k [] i
        /\ map bare_inline ist' = map part_inline (match dang with Some _ => push_text [NL] l | None => l end).
    Proof.
      intros Hs E D Nl. rewrite mark_token by (exact Hs || reflexivity).
      set (i := new_span (mark_variant k) FConstrained (token_locations (mark_tok files n col k))).
      assert (parse_inline_span i (C lst ist false dang) = parse_inline_span_new i (C lst ist false dang)) as ->.
      { unfold parse_inline_span. cbn [state p_istack]. destruct ist as [|j ist]; [reflexivity|].
        destruct l as [|[s|q s] l]; [discriminate| |now apply Nl in E || (exfalso; now apply (Nl q s l))].
        cbn in E. injection E as E1 E2. destruct j; try discriminate. reflexivity. }
      unfold parse_inline_span_new. cbn [state p_dangling]. exists i.
      destruct dang as [d|].
      - destruct (add_text_out d lst ist l false (Some d) eq_refl E) as (i1 & E1 & B1). unfold state in *. rewrite E1. cbn [bind].
        rewrite (D d eq_refl) in B1. exists i1. unfold handle_dangling_spans. cbn [set_dangling p_istack].
        rewrite (no_open _ _ B1). cbn [bind]. split; [reflexivity|]. split; [reflexivity|exact B1].
      - exists ist. cbn [bind]. unfold handle_dangling_spans. cbn [state p_istack]. rewrite (no_open _ _ E). cbn [bind].
        split; [reflexivity|]. split; [reflexivity|exact E].
    Qed.
    Lemma close_mark files n col k lst i ist s : settled hd (mark_tok files n col k) -> open_span k [PText s] i ->
      exists i', token_into w fuel (mark_tok files n col k) (C lst (i :: ist) true None) = Ok (C lst (i' :: ist) false None)
        /\ bare_inline i' = part_inline (PMarked k s).
    Proof.
      intros Hs E. rewrite mark_token by (exact Hs || reflexivity). unfold parse_inline_span. cbn [state p_istack].
      unfold open_span in E. destruct i as [v f l m loc o| | |]; try discriminate. cbn in E. injection E as -> -> E -> ->.
      replace (inline_eqb _ _) with true by (destruct k; reflexivity). cbn [inline_reconcile inline_close bind].
      eexists. split; [reflexivity|]. cbn. rewrite E. reflexivity.
    Qed.

    (** *** Chunks and lines *)
    Variable e : env.
    Hypothesis He : agrees attrs e.

    Lemma text_words t : settled hd t -> ttype t = TText -> words_to t t.
    Proof. intros Hs E p H1 H2 _. rewrite go; rewrite ?E; try discriminate; [|now rewrite H1|assumption]. unfold dispatch. now rewrite E. Qed.
    Lemma ref_words files n col name : settled hd (ref_tok files n col name) -> Forall name_char name ->
      words_to (ref_tok files n col name) (filled attrs name (ref_tok files n col name)).
    Proof.
      intros Hs F p H1 H2 H3. set (t := ref_tok files n col name) in *.
      rewrite go; [|now rewrite H1|assumption|discriminate|discriminate].
      change (dispatch w t p) with (parse_attribute_reference t p).
      assert (inner (token_text t) 1 1 = (Ok name : result bytes)) as I.
      { unfold t, ref_tok, tok, token_text, inner, slice. cbn [validate ttype literal lexeme].
        cbn [List.length]. rewrite app_length. cbn [List.length].
        replace (S (List.length name + 1) <? 1) with false by (symmetry; apply Nat.ltb_ge; lia).
        replace (S (List.length name + 1) - 1) with (S (List.length name)) by lia.
        replace ((1 <=? S (List.length name)) && (S (List.length name) <=? S (List.length name + 1))) with true
          by (symmetry; apply andb_true_intro; split; apply Nat.leb_le; lia).
        replace (is_boundary ("{" :: name ++ ["}"]) 1) with true.
        2:{ unfold is_boundary. cbn [nth_error]. destruct F as [|c r Hc _]; [reflexivity|]. cbn.
            apply name_graphic in Hc as [Hc _]. apply graphic_facts in Hc as [-> _]. reflexivity. }
        replace (is_boundary ("{" :: name ++ ["}"]) (S (List.length name))) with true.
        2:{ unfold is_boundary. cbn [nth_error]. rewrite nth_error_app2, Nat.sub_diag by lia. reflexivity. }
        cbn [andb skipn]. rewrite Nat.sub_succ, Nat.sub_0_r, firstn_app, Nat.sub_diag, firstn_all. cbn. now rewrite app_nil_r. }
      unfold parse_attribute_reference. rewrite I. cbn [bind]. unfold filled. now rewrite H3.
    Qed.
    Lemma texts_reads files n col ts s : texts files n col ts s -> Forall (settled hd) ts -> reads ts s.
    Proof.
      induction 1 as [|col s ts s' Hs Hn T IH]; intros F; [constructor|]. inversion F. subst.
      change s with (token_text (tok TText true files n col s)). constructor; [now apply text_words|now left|auto].
    Qed.
    Lemma refs_reads files n col l ts : refs files n col l ts -> Forall (settled hd) ts ->
      Forall (fun x => Forall name_char (fst x) /\ plain (snd x)) l ->
      reads ts (List.concat (map (fun x => value_of e (fst x) ++ snd x) l)).
    Proof.
      induction 1 as [|col name s l ts ts' T R IH]; intros Fs F; [constructor|].
      inversion F as [|? ? [F1 _] F2]. inversion Fs as [|? ? G1 G2]. subst. apply Forall_app in G2 as [G2 G3].
      cbn [map List.concat fst snd]. rewrite <- app_assoc.
      replace (value_of e name) with (token_text (filled attrs name (ref_tok files n col name))).
      - constructor; [now apply ref_words|now right|]. apply reads_app; [eapply texts_reads; eassumption|auto].
      - unfold filled, value_of. rewrite <- (He name). destruct (mget name attrs); reflexivity.
    Qed.
    Lemma chunk_reads files n col c ts : chunk_toks files n col c ts -> Forall (settled hd) ts -> plain_chunk c ->
      reads ts (chunk_text e c) /\ (ts = [] <-> spell_chunk c = []).
    Proof.
      intros (t1 & t2 & -> & T & R) F [P1 P2]. apply Forall_app in F as [F1 F2]. split.
      - apply reads_app; [eapply texts_reads; eassumption|eapply refs_reads; eassumption].
      - destruct c as [s l]. unfold spell_chunk. cbn [fst snd spell] in *. split.
        + intros E. apply app_eq_nil in E as [-> ->]. inversion T. inversion R. subst. reflexivity.
        + intros E. apply app_eq_nil in E as [-> E]. destruct l as [|[x y] l]; [|discriminate]. inversion R. subst.
          inversion T as [|? s' ? s'' Hs]; [reflexivity|]. subst. destruct s'; [congruence|discriminate].
    Qed.

    Lemma chunk_loop files n col c ts lst ist ps dang : chunk_toks files n col c ts -> Forall (settled hd) ts -> plain_chunk c ->
      map bare_inline ist = stack ps -> nl_dang dang ->
      exists lst' ist' dang', parse_loop w fuel ts (C lst ist false dang) = Ok (C lst' ist' false dang')
        /\ nl_dang dang'
        /\ (spell_chunk c = [] /\ ist' = ist /\ dang' = dang /\ lst' = lst
            \/ spell_chunk c <> [] /\ map bare_inline ist' = stack (ps ++ nl_part dang ++ chunk_part e c) /\ dang' = None /\ inline_type lst').
    Proof.
      intros T F P E D. destruct (chunk_reads _ _ _ _ _ T F P) as [R N].
      destruct (list_eq_dec Ascii.ascii_dec (spell_chunk c) []) as [Z|Z].
      - apply N in Z as K. subst ts. exists lst, ist, dang. split; [reflexivity|]. split; [assumption|]. left. auto.
      - destruct (reads_out ts _ R lst ist (rev (merge ps)) dang) as (l1 & i1 & E1 & B1 & T1); auto.
        { intros K. apply N in K. contradiction. }
        exists l1, i1, None. split; [exact E1|]. split; [discriminate|]. right. repeat split; auto.
        rewrite B1. unfold stack. f_equal. unfold chunk_part. destruct (spell_chunk c); [congruence|].
        unfold nl_part. destruct dang; cbn [app]; [|now rewrite merge_text].
        change [PText [NL]; PText (chunk_text e c)] with ([PText [NL]] ++ [PText (chunk_text e c)]).
        now rewrite app_assoc, !merge_text.
    Qed.

    Definition marked_parts (l : list (mark * chunk * chunk)) : list part :=
      List.concat (map (fun x => let '(k, inside, after) := x in PMarked k (chunk_text e inside) :: chunk_part e after) l).
    Lemma marks_loop files n l : forall col ts prev lst ist ps dang, marks_toks files n col l ts -> Forall (settled hd) ts ->
      marks_fit prev l -> l <> [] -> map bare_inline ist = stack ps -> nl_dang dang -> ~ top_marked ps ->
      exists lst' ist', parse_loop w fuel ts (C lst ist false dang) = Ok (C lst' ist' false None)
        /\ map bare_inline ist' = stack (ps ++ nl_part dang ++ marked_parts l) /\ inline_type lst'.
    Proof.
      induction l as [|[[k inside] after] l IH]; intros col ts prev lst ist ps dang T F M Ne E D Tp; [congruence|].
      inversion T as [|? ? ? ? ? t1 t2 t3 T1 T2 T3]. subst. destruct M as (P1 & Z1 & P2 & _ & Z2 & M).
      inversion F as [|? ? F1 F2]. subst. apply Forall_app in F2 as [F2 F3]. inversion F3 as [|? ? F4 F5]. subst.
      apply Forall_app in F5 as [F5 F6].
      destruct (open_mark files n col k lst ist (rev (merge ps)) dang) as (i & i1 & E1 & O1 & B1); auto.
      { intros q s r K. apply Tp. now exists q, s, r. }
      cbn [parse_loop]. rewrite E1. cbn [bind]. rewrite set_last_state.
      destruct (chunk_reads _ _ _ _ _ T1 F2 P1) as [R1 N1].
      destruct (reads_in t1 _ R1 (ttype (mark_tok files n col k)) i i1 k []) as (l2 & i2 & E2 & O2); auto.
      { intros K. apply N1 in K. contradiction. }
      rewrite (loop_app w fuel _ _ _ _ E2). cbn [parse_loop].
      destruct (close_mark files n (col + 1 + List.length (spell_chunk inside)) k l2 i2 i1 (chunk_text e inside)) as (i3 & E3 & B3); auto.
      rewrite E3. cbn [bind]. rewrite set_last_state.
      set (ps' := ps ++ nl_part dang ++ [PMarked k (chunk_text e inside)]).
      assert (map bare_inline (i3 :: i1) = stack ps') as B4.
      { cbn [map]. rewrite B3, B1. unfold stack, ps'. rewrite app_assoc, merge_marked. cbn [map]. f_equal. f_equal.
        unfold nl_part. destruct dang; [now rewrite merge_text|now rewrite app_nil_r]. }
      set (lm := ttype (mark_tok files n (col + 1 + List.length (spell_chunk inside)) k)).
      assert (inline_type lm) as Lm by (destruct k; cbn; tauto).
      destruct (chunk_loop files n _ after t2 lm (i3 :: i1) ps' None T2 F5 P2 B4) as (l5 & i5 & d5 & E5 & D5 & H5); [discriminate|].
      rewrite (loop_app w fuel _ _ _ _ E5).
      assert (d5 = None) as -> by (destruct H5 as [(_ & _ & -> & _)|(_ & _ & -> & _)]; reflexivity).
      assert (marked_parts ((k, inside, after) :: l) = [PMarked k (chunk_text e inside)] ++ chunk_part e after ++ marked_parts l) as Mp by reflexivity.
      destruct l as [|x l].
      - inversion T3. subst. exists l5, i5. split; [reflexivity|]. rewrite Mp. change (marked_parts []) with (@nil part). rewrite app_nil_r.
        destruct H5 as [(Z & -> & _ & ->)|(_ & B5 & _ & T5)].
        + split; [|assumption]. rewrite B4. unfold ps', chunk_part. rewrite Z. now rewrite app_nil_r.
        + split; [|assumption]. rewrite B5. unfold ps'. cbn [nl_part app]. now rewrite <- !app_assoc.
      - destruct H5 as [(Z & _)|(Z & B5 & _ & T5)]; [exfalso; now apply Z2|].
        cbn [nl_part app] in B5.
        destruct (IH _ t3 _ l5 i5 (ps' ++ chunk_part e after) None T3 F6 M) as (l6 & i6 & E6 & B6 & T6); auto; try discriminate.
        { unfold chunk_part. destruct (spell_chunk after); [congruence|]. apply top_after_text. }
        exists l6, i6. split; [exact E6|]. split; [|assumption]. rewrite B6, Mp. unfold ps'. cbn [nl_part app]. now rewrite <- !app_assoc.
    Qed.

    Lemma rich_loop files n col r ts lst ist ps dang : rich_toks files n col r ts -> Forall (settled hd) ts -> rich_line r ->
      map bare_inline ist = stack ps -> nl_dang dang -> (starts_marked r -> ~ top_marked ps) ->
      exists lst' ist', parse_loop w fuel ts (C lst ist false dang) = Ok (C lst' ist' false None)
        /\ map bare_inline ist' = stack (ps ++ nl_part dang ++ rich_parts e r) /\ inline_type lst'.
    Proof.
      destruct r as [c l]. unfold rich_line, starts_marked, rich_parts. cbn [fst snd].
      intros (t1 & t2 & -> & T1 & T2) F (Ne & P & _ & M) E D Tp. cbn [fst snd] in *. apply Forall_app in F as [F1 F2].
      fold (marked_parts l).
      destruct (chunk_loop files n col c t1 lst ist ps dang T1 F1 P E D) as (l1 & i1 & d1 & E1 & D1 & H1).
      rewrite (loop_app w fuel _ _ _ _ E1).
      destruct l as [|x l].
      - inversion T2. subst. unfold spell_rich in Ne. cbn in Ne. rewrite app_nil_r in Ne.
        destruct H1 as [(Z & _)|(_ & B & -> & I)]; [contradiction|]. exists l1, i1. split; [reflexivity|]. split; [|assumption].
        change (marked_parts []) with (@nil part). rewrite app_nil_r. exact B.
      - destruct H1 as [(Z & -> & -> & ->)|(Z & B & -> & I)].
        + destruct (marks_loop files n (x :: l) _ t2 _ lst ist ps dang T2 F2 M) as (l2 & i2 & E2 & B2 & I2); auto; try discriminate.
          { apply Tp. split; [assumption|discriminate]. }
          exists l2, i2. unfold chunk_part. rewrite Z. auto.
        + destruct (marks_loop files n (x :: l) _ t2 _ l1 i1 (ps ++ nl_part dang ++ chunk_part e c) None T2 F2 M) as (l2 & i2 & E2 & B2 & I2); auto; try discriminate.
          { rewrite app_assoc. unfold chunk_part. destruct (spell_chunk c); [congruence|]. apply top_after_text. }
          exists l2, i2. cbn [nl_part app] in B2. rewrite <- !app_assoc in B2. auto.
    Qed.

    Lemma rich_top r ps : top_marked (ps ++ rich_parts e r) -> rich_line r -> ends_marked r.
    Proof.
      destruct r as [c l]. intros H (Ne & _). unfold rich_parts, spell_rich, ends_marked in *. cbn [fst snd] in *. fold (marked_parts l) in H.
      destruct l as [|x0 l0] eqn:El.
      - change (marked_parts []) with (@nil part) in H. cbn [map List.concat] in Ne. rewrite app_nil_r in H, Ne. unfold chunk_part in H.
        destruct (spell_chunk c) eqn:Z; [congruence|]. exfalso. revert H. apply top_after_text.
      - rewrite <- El in *. destruct (exists_last (l := l)) as (l' & [[k i] af] & ->); [subst l; discriminate|]. clear El.
        exists l', k, i, af. split; [reflexivity|].
        unfold marked_parts in H. rewrite map_app, concat_app in H. cbn [map List.concat] in H. rewrite app_nil_r in H.
        destruct (spell_chunk af) eqn:Z; [reflexivity|]. exfalso. revert H.
        replace (PMarked k (chunk_text e i) :: chunk_part e af) with ([PMarked k (chunk_text e i)] ++ [PText (chunk_text e af)])
          by (unfold chunk_part; now rewrite Z).
        rewrite !app_assoc. apply top_after_text.
    Qed.
  End Content.
End State.
