(** * The tokens of a source are those of the grammar, and no others *)
From Verif Require Import Base Location Token Scanner SpecScan SpecLex ScanLemmas ScanFacts ScanMain ScanMain2
  ScanLine ScanFail ScanFail2 ScanPanic ScanView ScanLex ScanGrammar ScanComplete.
Local Open Scope char_scope.
Local Open Scope nat_scope.

(** ** What the tokens carry *)
Definition lit_ok (r : result (scanner * token)) : Prop :=
  forall sc' t, r = Ok (sc', t) -> ttype t <> TCharRef ->
    literal t = if carries_text (ttype t) then Some (lexeme t) else None.
Lemma lk_if (b : bool) x y : lit_ok x -> lit_ok y -> lit_ok (if b then x else y).
Proof. destruct b; auto. Qed.
Lemma lk_bind {A} (m : result A) f : (forall a, m = Ok a -> lit_ok (f a)) -> lit_ok (bind m f).
Proof. intros H sc' t E. apply bind_ok in E as (a & Ha & E). exact (H a Ha sc' t E). Qed.
Lemma lk_fail r : (forall x, r <> Ok x) -> lit_ok r.
Proof. intros H sc' t E. now apply H in E. Qed.
Lemma lk_token sc ty lit adv : ty = TCharRef \/ lit = carries_text ty -> lit_ok (add_token sc ty lit adv).
Proof.
  intros H sc' t E Hc. apply add_token_ok in E as (_ & _ & _ & -> & _).
  remember (firstn _ _) as text eqn:Et. clear Et.
  destruct ty; cbn [validate ttype lexeme literal] in *;
    try (destruct H as [H | ->]; [discriminate | reflexivity]).
  - destruct (charref_replacement text); now elim Hc.
  - destruct H as [H | ->]; [discriminate|]. destruct (_ || _); reflexivity.
  - destruct H as [H | ->]; [discriminate|]. destruct (_ || _); reflexivity.
Qed.
Lemma lk_text sc : lit_ok (add_text_until_next_markup sc).
Proof. apply lk_token. now right. Qed.
Lemma lk_bracket sc ty : carries_text ty = true -> lit_ok (add_until_bracket sc ty).
Proof. intros H. apply lk_bind. intros. apply lk_token. now right. Qed.
Lemma lk_stop sc stop ty : carries_text ty = true -> lit_ok (add_until_stop sc stop ty).
Proof. intros H. apply lk_bind. intros. apply lk_token. now right. Qed.
Lemma lk_inline sc c ty1 ty2 : carries_text ty1 = false -> carries_text ty2 = false ->
  lit_ok (handle_inline_formatting sc c ty1 ty2).
Proof. intros. unfold handle_inline_formatting. repeat apply lk_if; first [apply lk_text | apply lk_token; now right]. Qed.
Lemma lk_cell : forall fuel sc, lit_ok (add_table_cell_fuel fuel sc).
Proof.
  induction fuel as [|f IH]; intros sc; cbn [add_table_cell_fuel]; apply lk_if;
    first [apply IH | apply lk_token; now right | apply lk_fail; discriminate].
Qed.
Lemma lk_link : forall fuel sc, lit_ok (add_link_fuel fuel sc).
Proof.
  induction fuel as [|f IH]; intros sc; cbn [add_link_fuel]; repeat apply lk_if;
    first [apply IH | apply lk_token; now right | apply lk_fail; discriminate].
Qed.
Lemma lk_block sc c : lit_ok (let* ty := block_from_char c in add_token sc ty false 0).
Proof.
  apply lk_bind. intros ty H. apply lk_token. right.
  unfold block_from_char in H. repeat match type of H with (if ?b then _ else _) = _ => destruct b end;
    try discriminate; injection H as <-; reflexivity.
Qed.
Lemma lk_tag sc : lit_ok (add_tag sc).
Proof.
  apply lk_bind. intros sc0 _. apply lk_bind. intros text _. apply lk_bind. intros [ty e] H.
  intros sc' t E. apply bind_ok in E as ((sc3, tok) & E & K). injection K as _ <-. revert E. apply lk_token. right.
  destruct (contains (bs "tag") text); [|destruct (contains (bs "end") text)];
    [injection H as <- _ | injection H as <- _ | discriminate]; reflexivity.
Qed.
Ltac lk_step :=
  first [ apply lk_tag | apply lk_text | apply lk_bracket; reflexivity | apply lk_stop; reflexivity
        | apply lk_inline; reflexivity | apply lk_cell | apply lk_link
        | apply lk_token; first [right; reflexivity | left; reflexivity]
        | apply lk_fail; discriminate | apply lk_block | apply lk_if | apply lk_bind; intros ].
Lemma lk_heading sc : lit_ok (add_heading sc).
Proof. unfold add_heading. destruct (sc_cur _ - 1 - sc_start sc) as [|[|[|[|[|[|n]]]]]]; lk_step. Qed.
Lemma scan_literal sc0 : lit_ok (scan_token sc0).
Proof.
  unfold scan_token. apply lk_bind. intros c _. cbn zeta. set (sc := bump sc0 1).
  repeat (apply lk_if; [repeat lk_step|]); repeat lk_step.
  - destruct (if starts_new_line sc then _ else _) as [b sc1]. apply lk_if; [lk_step|].
    destruct (starts_code_callout sc1) as [b2 sc2]. repeat lk_step.
  - apply lk_heading.
  - destruct (starts_attribution_line sc) as [b sc1]. apply lk_if; [|repeat lk_step].
    destruct (nth_error _ _) as [y|]; [|apply lk_fail; discriminate].
    unfold attribution_type. repeat (match goal with |- context [if ?b then _ else _] => destruct b end); apply lk_token; now right.
Qed.

Lemma replaced s : charref_replacement s = option_map snd (find (fun p => beqb (fst p) s) replacements).
Proof.
  unfold charref_replacement, replacements. cbn [find fst].
  repeat match goal with |- (if beqb s ?k then _ else _) = _ =>
    let K := fresh in destruct (beqb s k) eqn:K; [apply beqb_eq in K; subst s; reflexivity|] end.
  repeat match goal with |- context [beqb ?k s] => let K := fresh in destruct (beqb k s) eqn:K;
    [apply beqb_eq in K; subst s; rewrite beqb_refl in *; discriminate|] end. reflexivity.
Qed.

Definition is_nl (ty : token_type) : bool := match ty with TNewLineChar => true | _ => false end.
Lemma is_nl_eq ty : is_nl ty = true -> ty = TNewLineChar.
Proof. destruct ty; discriminate || reflexivity. Qed.
(** an ordinary token, and the scanner after it *)
Lemma step_token sc t sc' : next sc = Ok (Some t, sc') -> ~ is_tag t -> ttype t <> TEof ->
  t = mkTok (ttype t) (lexeme t) (content (ttype t) (lexeme t)) (sc_line sc) (sc_startcol sc)
        (sc_startcol sc + List.length (lexeme t) - 1) (sc_files sc)
  /\ sc_line sc' = (if is_nl (ttype t) then S (sc_line sc) else sc_line sc)
  /\ sc_startcol sc' = (if is_nl (ttype t) then 1 else sc_startcol sc + List.length (lexeme t))
  /\ (ttype t = TNewLineChar -> lexeme t = [NL]).
Proof.
  intros H Ht He. pose proof H as H0.
  apply next_some in H as [[_ [P | T]] | E].
  - destruct P as (adv & lit & P1 & P2 & P3 & P4 & P5 & P6 & P7 & P8 & P9 & P10 & P11 & P12 & P13 & P14 & P15 & P16 & P17).
    destruct P15 as [_ Q]. specialize (Q ltac:(lia)). destruct Q as (Q1 & Q2 & _ & _ & _ & _ & _ & _ & _ & Q3 & _).
    assert (literal t = content (ttype t) (lexeme t)) as El.
    { assert (ttype t = TCharRef \/ ttype t <> TCharRef) as [K|K] by (destruct (ttype t); auto; right; discriminate).
      - rewrite (P16 K), K. unfold content. rewrite replaced. rewrite <- P8 in Q3.
        destruct (find _ replacements) as [p|] eqn:Ef; cbn [option_map]; [reflexivity|].
        destruct (Q3 K) as [Q|(-> & _)]; [|reflexivity]. exfalso.
        apply in_map_iff in Q as (p & Ep & Hp). pose proof (find_none _ _ Ef p Hp) as N. cbn in N. rewrite Ep, beqb_refl in N. discriminate.
      - assert (scan_token (restart sc) = Ok (sc', t)) as Hs.
        { unfold next in H0. destruct (negb (is_at_end sc)).
          - fold (restart sc) in H0. apply bind_ok in H0 as ((sc2, t2) & H0 & E). injection E as -> ->. exact H0.
          - destruct (sc_scanning sc); [|discriminate]. injection H0 as <- _. now elim He. }
        rewrite (scan_literal _ _ _ Hs K). unfold content. destruct (ttype t); try reflexivity. now elim K. }
    split; [|split; [|split]].
    + destruct t as [ty lx li ln c1 c2 fs]. cbn [ttype lexeme literal tline startcol endcol tfiles] in *. subst. reflexivity.
    + rewrite P13. destruct (is_nl (ttype t)) eqn:En.
      * apply is_nl_eq in En. destruct (Q1 En) as [-> _]. lia.
      * rewrite Q2; [lia|]. intros K. rewrite K in En. discriminate.
    + rewrite P14. destruct (is_nl (ttype t)) eqn:En.
      * apply is_nl_eq in En. destruct (Q1 En) as [-> _]. reflexivity.
      * rewrite Q2; [reflexivity|]. intros K. rewrite K in En. discriminate.
    + intros K. rewrite P8. now apply Q1.
  - exfalso. apply Ht. destruct T as (T & _). exact T.
  - destruct E as (_ & _ & -> & _). now elim He.
Qed.

(** ** Tags *)
Section Tag.
  Variable sc : scanner.
  Variable before : bytes.
  Variable c : ascii.
  Variable rest : bytes.
  Hypothesis Hsrc : sc_src sc = before ++ c :: rest.
  Hypothesis Hst : sc_start sc = List.length before.
  Hypothesis Hcur : sc_cur sc = S (List.length before).
  Hypothesis Hu : utf8 (sc_src sc).
  Hypothesis H7 : ascii7 c.
  Hypothesis Htag : sc_tagend sc = false.

  Lemma tag_exact s r : rest = s ++ "]" :: r -> ~ In "]" s ->
    contains (bs "tag") (c :: s ++ ["]"]) || contains (bs "end") (c :: s ++ ["]"]) = true ->
    hits c (add_tag sc) (if contains (bs "tag") (c :: s ++ ["]"]) then TStartTag else TEndTag) (s ++ ["]"]).
  Proof using All.
    intros E Hs Hk. unfold add_tag. rewrite Htag. cbn [bind].
    assert (advance sc (fun c0 => negb (c0 == "]")) = bump sc (List.length s)) as ->.
    { unfold advance, bump. f_equal. f_equal. rewrite (v_rest sc before c rest Hsrc Hst Hcur Hu H7), E.
      apply until_exact; [reflexivity | discriminate | exact Hs | right; eauto]. }
    cbn zeta. rewrite bump_bump. replace (List.length s + 1) with (List.length (s ++ ["]"])) by (rewrite app_length; cbn; lia).
    remember (s ++ ["]"]) as s1 eqn:Es1.
    assert (rest = s1 ++ r) as E1 by (rewrite Es1, <- app_assoc; exact E).
    assert (at_char r) as Hr by (apply (after_last sc before c rest Hsrc Hst Hcur Hu H7 Htag s "]" r E); reflexivity).
    destruct (v_token_ok sc before c rest Hsrc Hst Hcur Hu H7 s1 r TText true 0 E1 Hr) as (sc' & Q).
    unfold add_token in Q. apply bind_ok in Q as (text & Hsl & Q). injection Q as _ Q _. subst text.
    rewrite Hsl. cbn [bind].
    destruct (contains (bs "tag") (c :: s1)) eqn:C1.
    - cbn [bind]. unfold add_token. cbn [sc_src sc_start sc_cur]. change (sc_src (bump sc (List.length s1))) with (sc_src sc) in *.
      rewrite Hsl. cbn [bind validate ttype]. eexists. eexists. split; [reflexivity|]. split; reflexivity.
    - cbn [orb] in Hk. rewrite Hk. cbn [bind]. unfold add_token. cbn [sc_src sc_start sc_cur]. change (sc_src (bump sc (List.length s1))) with (sc_src sc) in *.
      rewrite Hsl. cbn [bind validate ttype]. eexists. eexists. split; [reflexivity|]. split; reflexivity.
  Qed.
  Lemma tag_met kw s r : kw = bs "tag::" \/ kw = bs "end::" -> c :: rest = kw ++ s ++ "]" :: r -> ~ In "]" s ->
    meets sc c (if contains (bs "tag") (kw ++ s ++ ["]"]) then TStartTag else TEndTag) (kw ++ s ++ ["]"]).
  Proof using All.
    intros K E Hs. assert (exists kw', kw = c :: kw') as (kw' & Ek) .
    { destruct K as [-> | ->]; cbn in E; injection E as Ec _; [exists (bs "ag::") | exists (bs "nd::")]; now rewrite Ec. }
    assert (rest = (kw' ++ s) ++ "]" :: r) as Er by (rewrite Ek in E; cbn in E; injection E as E; rewrite <- app_assoc; exact E).
    assert (~ In "]" (kw' ++ s)) as Hn.
    { intros Q. apply in_app_or in Q as [Q|Q]; [|contradiction]. assert (In "]" kw) as Q' by (rewrite Ek; now right).
      destruct K as [-> | ->]; cbn in Q'; intuition discriminate. }
    assert (kw ++ s ++ ["]"] = c :: (kw' ++ s) ++ ["]"]) as El by (rewrite Ek; cbn; now rewrite <- app_assoc).
    assert (contains (bs "tag") (c :: (kw' ++ s) ++ ["]"]) || contains (bs "end") (c :: (kw' ++ s) ++ ["]"]) = true) as Hk.
    { rewrite <- El. apply orb_true_iff.
      destruct K as [-> | ->]; [left | right]; apply occurs_contains; exists []; eexists; reflexivity. }
    pose proof (tag_exact _ r Er Hn Hk) as Hh. rewrite El. exists ((kw' ++ s) ++ ["]"]). split; [reflexivity|].
    assert (scan_char sc c = add_tag sc) as ->; [|exact Hh].
    assert (begins kw' rest) as B by (rewrite Er, <- app_assoc; now exists (s ++ "]" :: r)).
    destruct K as [K|K]; rewrite K in Ek; injection Ek as Ec Ek; rewrite <- Ec, <- Ek in *; unfold scan_char;
      cbn [Ascii.eqb Bool.eqb memc existsb orb].
    - change (peeks_ahead sc 4) with (peeks_ahead sc (List.length (bs "ag::"))).
      rewrite (v_peeks sc before "t" rest Hsrc Hst Hcur Hu H7) by (try discriminate; now repeat constructor).
      assert (starts_with (bs "ag::") rest = true) as -> by (apply starts_with_begins; exact B). reflexivity.
    - change (peeks_ahead sc 4) with (peeks_ahead sc (List.length (bs "nd::"))).
      rewrite (v_peeks sc before "e" rest Hsrc Hst Hcur Hu H7) by (try discriminate; now repeat constructor).
      assert (starts_with (bs "nd::") rest = true) as -> by (apply starts_with_begins; exact B). reflexivity.
  Qed.
End Tag.

(** ** Refusals *)
Definition no_err {A} (r : result A) : Prop := forall e, r <> Err e.
Lemma nr_if {A} (b : bool) (x y : result A) : no_err x -> no_err y -> no_err (if b then x else y).
Proof. now destruct b. Qed.
Lemma nr_bind {A B} (m : result A) (f : A -> result B) : no_err m -> (forall a, no_err (f a)) -> no_err (bind m f).
Proof. unfold no_err. destruct m as [a|x| | |]; cbn; intros H1 H2 e; [apply H2 | now elim (H1 x) | discriminate ..]. Qed.
Lemma nr_slice s a b : no_err (slice s a b : result bytes).
Proof. unfold slice. apply nr_if; intros e; discriminate. Qed.
Lemma nr_add sc ty lit adv : no_err (add_token sc ty lit adv).
Proof. unfold add_token. apply nr_bind; [apply nr_slice | intros a e; discriminate]. Qed.
Lemma nr_text sc : no_err (add_text_until_next_markup sc).
Proof. apply nr_add. Qed.
Lemma nr_byte sc : no_err (byte_at sc).
Proof. unfold byte_at. destruct nth_error; intros e; discriminate. Qed.
Lemma nr_hang sc p : no_err (advance_or_hang sc p).
Proof. unfold advance_or_hang. apply nr_if; intros e; discriminate. Qed.
Lemma nr_boundary src stop f : forall cur, no_err (boundary_loop src stop f cur).
Proof.
  induction f as [|f IH]; intros cur; cbn [boundary_loop];
  repeat first [apply nr_if | apply nr_bind; [apply nr_slice|intros ?] | apply IH | intros e; discriminate].
Qed.
Lemma nr_cell f : forall sc, no_err (add_table_cell_fuel f sc).
Proof.
  induction f as [|f IH]; intros sc; cbn [add_table_cell_fuel]; repeat apply nr_if; auto using nr_add; intros e; discriminate.
Qed.
Lemma nr_link f : forall sc, no_err (add_link_fuel f sc).
Proof.
  induction f as [|f IH]; intros sc; cbn [add_link_fuel]; repeat apply nr_if; auto using nr_add; intros e; discriminate.
Qed.
Ltac nr := repeat first
    [ apply nr_text | apply nr_add | apply nr_byte | apply nr_hang | apply nr_boundary | apply nr_cell | apply nr_link
    | apply nr_slice
    | match goal with
      | |- no_err (if _ then _ else _) => apply nr_if
      | |- no_err (bind _ _) => apply nr_bind; [|intros ?]
      | |- no_err (let (_, _) := ?x in _) => destruct x
      | |- no_err (match ?n with None => _ | Some _ => _ end) => destruct n
      | |- no_err (Ok _) => let e := fresh in intros e; discriminate
      | |- no_err Panic => let e := fresh in intros e; discriminate
      | |- no_err Hang => let e := fresh in intros e; discriminate
      end ].
Section Errors.
  Variable sc : scanner.
  Variable before : bytes.
  Variable c : ascii.
  Variable rest : bytes.
  Hypothesis Hsrc : sc_src sc = before ++ c :: rest.
  Hypothesis Hst : sc_start sc = List.length before.
  Hypothesis Hcur : sc_cur sc = S (List.length before).
  Hypothesis Hu : utf8 (sc_src sc).
  Hypothesis H7 : ascii7 c.
  Hypothesis Htag : sc_tagend sc = false.

  Lemma heading_err e : add_heading sc = Err e -> c = "=" -> begins (bs "======") (c :: rest).
  Proof using All.
    intros H Hc. unfold add_heading in H.
    rewrite (v_advance sc before c rest Hsrc Hst Hcur Hu H7) in H. cbn zeta in H. cbn [bump set_cur sc_cur] in H.
    replace (sc_cur sc + span_len (fun c0 => c0 == "=") rest + 1 - 1 - sc_start sc)
      with (S (span_len (fun c0 => c0 == "=") rest)) in H by (rewrite Hst, Hcur; lia).
    assert (forall k l, k <= span_len (fun c0 => c0 == "=") l -> begins (repeat "=" k) l) as K.
    { clear. induction k as [|k IH]; intros l L; [now exists l|]. destruct l as [|x l]; cbn in L; [lia|].
      destruct (peek_byte x == "=") eqn:E; [|lia]. apply Ascii.eqb_eq in E. unfold peek_byte in E.
      destruct (is_cont x); [discriminate|]. subst x. destruct (IH l ltac:(lia)) as (r & ->). now exists r. }
    destruct (span_len (fun c0 => c0 == "=") rest) as [|[|[|[|[|n]]]]] eqn:E;
      try (exfalso; revert H; now apply nr_add).
    destruct (K 5 rest ltac:(lia)) as (r & ->). exists r. now rewrite Hc.
  Qed.
  Lemma deep_err : c = "=" -> at_line_start before -> begins (bs "======") (c :: rest) -> exists e, scan_char sc c = Err e.
  Proof using All.
    intros Hc L (r & E).
    assert (scan_char sc c = scan_delim sc c) as -> by (rewrite Hc; reflexivity).
    rewrite (delim_inner sc before c rest Hsrc Hst Hcur Hu H7 Htag), (delim_inner_view sc before c rest Hsrc Hst Hcur Hu H7).
    - rewrite Hc. cbn [Ascii.eqb Bool.eqb]. assert (hd NUL rest == ">" = false) as -> by (injection E as _ ->; reflexivity).
      apply lineb_spec in L. rewrite L. unfold add_heading. rewrite (v_advance sc before c rest Hsrc Hst Hcur Hu H7).
      cbn zeta. cbn [bump set_cur sc_cur].
      replace (sc_cur sc + span_len (fun c0 => c0 == "=") rest + 1 - 1 - sc_start sc)
        with (S (span_len (fun c0 => c0 == "=") rest)) by (rewrite Hst, Hcur; lia).
      injection E as _ ->. cbn [span_len peek_byte is_cont N_of_ascii]. cbn. eexists. reflexivity.
    - rewrite Hc. discriminate.
    - intros [_ (t & K)]. rewrite Hc in K. injection E as _ ->. discriminate.
  Qed.
  Lemma err_where e : scan_char sc c = Err e -> tag_here (c :: rest) \/ too_deep before (c :: rest).
  Proof using All.
    intros H.
    assert (starts_end_tag_line sc = false) as Hend by (unfold starts_end_tag_line; now rewrite Htag).
    assert (no_err (scan_char sc c) -> tag_here (c :: rest) \/ too_deep before (c :: rest)) as No by (intros K; now apply K in H).
    destruct (c == "t") eqn:E1; [|destruct (c == "e") eqn:E2; [|destruct (c == "=") eqn:E3]].
    - apply Ascii.eqb_eq in E1.
      destruct (starts_with (bs "ag::") rest) eqn:B.
      { left. left. apply starts_with_begins in B as (r & ->). exists r. now rewrite E1. }
      apply No. rewrite E1. unfold scan_char. cbn [Ascii.eqb Bool.eqb memc existsb orb].
      change (peeks_ahead sc 4) with (peeks_ahead sc (List.length (bs "ag::"))).
      rewrite (v_peeks sc before c rest Hsrc Hst Hcur Hu H7), B by (try discriminate; now repeat constructor). nr.
    - apply Ascii.eqb_eq in E2.
      destruct (starts_with (bs "nd::") rest) eqn:B.
      { left. right. apply starts_with_begins in B as (r & ->). exists r. now rewrite E2. }
      apply No. rewrite E2. unfold scan_char. cbn [Ascii.eqb Bool.eqb memc existsb orb].
      change (peeks_ahead sc 4) with (peeks_ahead sc (List.length (bs "nd::"))).
      rewrite (v_peeks sc before c rest Hsrc Hst Hcur Hu H7), B by (try discriminate; now repeat constructor). nr.
    - apply Ascii.eqb_eq in E3. right.
      assert (scan_char sc c = scan_delim sc c) as K by (rewrite E3; reflexivity). rewrite K in H. unfold scan_delim in H. rewrite Hend in H.
      destruct (starts_new_line sc) eqn:L; cbn [andb] in H.
      + split.
        { rewrite (v_line sc before c rest Hsrc Hst Hcur Hu H7) in L. now apply lineb_spec in L. }
        destruct (starts_repeated_char_line sc c 4); [rewrite E3 in H; cbn in H; exfalso; revert H; apply nr_add|].
        unfold scan_delim_inner in H. assert (c == "=" = true) as E by (rewrite E3; reflexivity). rewrite E in H.
        destruct (peek sc == ">"); [exfalso; revert H; apply nr_add|]. rewrite L in H. now apply (heading_err e).
      + exfalso. unfold scan_delim_inner in H. assert (c == "=" = true) as E by (rewrite E3; reflexivity). rewrite E, L in H. revert H.
        enough (no_err (if peek sc == ">" then add_token (bump sc 1) TCharRef false 0 else add_text_until_next_markup sc)) as Q by exact (Q e). nr.
    - apply No. unfold scan_char. rewrite E1, E2.
      unfold scan_apostrophe, scan_lt, scan_delim, scan_delim_inner, scan_lbracket, scan_backquote, scan_colon,
        scan_i, scan_amp, scan_lbrace, scan_bar, scan_keyword, handle_inline_formatting, add_until_bracket,
        add_block_anchor, add_cross_reference, add_until_stop, handle_text_symbol_replacement_parens,
        starts_attr, starts_attribute_reference, starts_charref, add_table_cell, add_link.
      rewrite Hend, E3. destruct (memc c ["+"; "*"; "-"; "_"; "/"; "="; "."]) eqn:Em; nr.
      apply memc_In in Em. cbn in Em. repeat (destruct Em as [<-|Em]; [intros x; discriminate|]). destruct Em.
  Qed.
End Errors.

(** ** One step *)
Section Step.
  Variables (src : bytes) (files : list bytes) (ts : list token) (sc : scanner).
  Hypothesis Hy : yields src files ts sc.
  Hypothesis Hn : no_tags ts.
  Hypothesis Hu : utf8 src.
  #[local] Set Default Proof Using "All".

  Lemma next_char c r : src = text_of ts ++ c :: r ->
    next sc = (let* (sc2, t) := scan_token (restart sc) in Ok (Some t, sc2))
    /\ nth_error (sc_src (restart sc)) (sc_cur (restart sc)) = Some c
    /\ scan_token (restart sc) = scan_char (bump (restart sc) 1) c
    /\ sc_src (bump (restart sc) 1) = text_of ts ++ c :: r
    /\ sc_start (bump (restart sc) 1) = List.length (text_of ts)
    /\ sc_cur (bump (restart sc) 1) = S (List.length (text_of ts))
    /\ utf8 (sc_src (bump (restart sc) 1)) /\ sc_tagend (bump (restart sc) 1) = false.
  Proof.
    intros E. destruct (yields_inv _ _ _ _ Hy) as (I1 & I2 & I3 & I4). destruct (yields_text _ _ _ _ Hy Hn) as [T Tt].
    assert (sc_cur sc = List.length (text_of ts)) as Hc by (rewrite T, firstn_length; lia).
    assert (nth_error (sc_src (restart sc)) (sc_cur (restart sc)) = Some c) as Hx.
    { cbn [restart sc_src sc_cur]. rewrite I1, Hc, E, nth_error_app2, Nat.sub_diag by lia. reflexivity. }
    split; [|split; [|split; [|split; [|split; [|split; [|split]]]]]].
    - assert (is_at_end sc = false) as Ha by (unfold is_at_end; rewrite I1, Hc; apply Nat.leb_gt; rewrite E at 1; rewrite app_length; cbn; lia).
      unfold next. rewrite Ha. reflexivity.
    - exact Hx.
    - unfold scan_token, byte_at. rewrite Hx. reflexivity.
    - cbn. now rewrite I1.
    - cbn. exact Hc.
    - cbn. rewrite Hc. lia.
    - cbn. now rewrite I1.
    - cbn. exact Tt.
  Qed.
  Lemma met c r ty lex : src = text_of ts ++ c :: r -> meets (bump (restart sc) 1) c ty lex ->
    exists t sc', next sc = Ok (Some t, sc') /\ ttype t = ty /\ lexeme t = lex.
  Proof.
    intros E (s & -> & sc' & t & M & Ht & Hl). destruct (next_char c r E) as (-> & _ & K & _). rewrite K, M. cbn [bind]. eauto.
  Qed.
  Lemma at_end : src = text_of ts -> exists o sc', next sc = Ok (o, sc') /\ forall t, o = Some t -> ttype t = TEof.
  Proof.
    intros E. destruct (yields_inv _ _ _ _ Hy) as (I1 & I2 & I3 & I4). destruct (yields_text _ _ _ _ Hy Hn) as [T Tt].
    assert (sc_cur sc = List.length (text_of ts)) as Hc by (rewrite T, firstn_length; lia).
    unfold next, is_at_end. rewrite I1, Hc, <- E, Nat.leb_refl. cbn [negb].
    destruct (sc_scanning sc); do 2 eexists; (split; [reflexivity|]); intros t K; [injection K as <-; reflexivity | discriminate].
  Qed.
  Lemma cut_bracket s : In "]" s -> exists a b, s = a ++ "]" :: b /\ ~ In "]" a.
  Proof.
    clear. induction s as [|x s IH]; [intros []|]. intros H. destruct (Ascii.ascii_dec x "]") as [->|Hx].
    - exists [], s. split; [reflexivity | intros []].
    - destruct H as [H|H]; [now elim Hx|]. destruct (IH H) as (a & b & -> & Ha). exists (x :: a), b.
      split; [reflexivity|]. intros [K|K]; auto.
  Qed.
  (** at an include tag *)
  Lemma tag_step rest : src = text_of ts ++ rest -> tag_here rest ->
    next sc = Panic \/ exists kw s r, (kw = bs "tag::" \/ kw = bs "end::") /\ rest = (kw ++ s ++ ["]"]) ++ r /\ ~ In "]" s
      /\ exists t sc', next sc = Ok (Some t, sc') /\ lexeme t = kw ++ s ++ ["]"]
           /\ ttype t = if contains (bs "tag") (kw ++ s ++ ["]"]) then TStartTag else TEndTag.
  Proof.
    intros E H. assert (exists kw r, (kw = bs "tag::" \/ kw = bs "end::") /\ rest = kw ++ r) as (kw & r & K & Er)
      by (destruct H as [(r & ->)|(r & ->)]; eauto).
    destruct (in_dec Ascii.ascii_dec "]" r) as [Hr|Hr].
    - right. destruct (cut_bracket r Hr) as (s & r' & -> & Hs). exists kw, s, r'. split; [exact K|].
      split; [rewrite Er, <- !app_assoc; reflexivity|]. split; [exact Hs|].
      assert (exists c w, c :: w = kw ++ s ++ "]" :: r' /\ ascii7 c) as (c & w & Ew & H7)
        by (destruct K as [-> | ->]; do 2 eexists; (split; [reflexivity | reflexivity])).
      rewrite Er, <- Ew in E. destruct (next_char c w E) as (_ & _ & _ & Q1 & Q2 & Q3 & Q4 & Q5).
      pose proof (tag_met _ _ _ _ Q1 Q2 Q3 Q4 H7 Q5 kw s r' K Ew Hs) as M.
      destruct (met c w _ _ E M) as (t & sc' & N & Ht & Hl). exists t, sc'. auto.
    - left. apply (breaks_panics src files ts sc Hy Hn Hu rest E). rewrite Er. now apply br_tag.
  Qed.
  Lemma tag_ascii rest : tag_here rest -> forall c r, rest = c :: r -> ascii7 c.
  Proof. clear. intros [(r & ->)|(r & ->)] c r' E; injection E as <- _; reflexivity. Qed.
  Lemma errs_iff rest : src = text_of ts ++ rest -> (exists e, next sc = Err e) <-> too_deep (text_of ts) rest.
  Proof.
    intros E. destruct rest as [|c r].
    - rewrite app_nil_r in E. destruct (at_end E) as (o & sc' & -> & _). split; [intros (e & K); discriminate | intros (_ & (r & K)); discriminate].
    - destruct (next_char c r E) as (N & Hx & Hs & Q1 & Q2 & Q3 & Q4 & Q5). destruct (ascii7_dec c) as [H7|H7].
      + split.
        * intros (e & He). rewrite N, Hs in He.
          destruct (scan_char (bump (restart sc) 1) c) as [[sc2 t]|e'| | |] eqn:Ec; cbn [bind] in He; try discriminate.
          destruct (err_where _ _ _ _ Q1 Q2 Q3 Q4 H7 Q5 e' Ec) as [K|K]; [|exact K]. exfalso.
          destruct (tag_step _ E K) as [P|(kw & s & r' & _ & _ & _ & t & sc' & P & _)]; rewrite N, Hs in P; discriminate P.
        * intros [L B]. assert (c = "=") as Hc by (destruct B as (w & K); now injection K).
          destruct (deep_err _ _ _ _ Q1 Q2 Q3 Q4 H7 Q5 Hc L B) as (e & Ee). exists e. rewrite N, Hs, Ee. reflexivity.
      + split.
        * intros (e & He). rewrite N, (high_text _ c Hx H7) in He.
          destruct (add_text_until_next_markup (bump (restart sc) 1)) as [[sc2 t]|e'| | |] eqn:Ec; cbn [bind] in He; try discriminate.
          now apply nr_text in Ec.
        * intros [_ (w & K)]. exfalso. apply H7. injection K as -> _. reflexivity.
  Qed.
  Lemma run_unique l a l' a' : plain_run l a -> plain_run l' a' -> l ++ a = l' ++ a' -> l = l'.
  Proof.
    clear. intros (x & v & -> & Hv & Ha) (x' & v' & -> & Hv' & Ha') E. cbn in E. injection E as -> E. f_equal.
    revert v' Hv' E. induction v as [|y v IH]; intros [|y' v'] Hv' E.
    - reflexivity.
    - exfalso. cbn in E. destruct Ha as [->|(z & r & -> & Hz)]; [discriminate|]. injection E as -> _. apply (Hv' y'); [now left | exact Hz].
    - exfalso. cbn in E. destruct Ha' as [->|(z & r & -> & Hz)]; [discriminate|]. injection E as -> _. apply (Hv z); [now left | exact Hz].
    - cbn in E. injection E as -> E. f_equal. apply IH; [intros z Hz; apply Hv; now right | intros z Hz; apply Hv'; now right | exact E].
  Qed.
  Lemma wrapped_two b l a : wrapped b l a -> exists x s, l = x :: x :: s /\ In x ends_text /\ ascii7 x.
  Proof.
    clear. intros [[(x & -> & _) _]|(_ & _ & x & E & _)].
    - exists "<". eexists. split; [reflexivity|]. split; [cbn; tauto | reflexivity].
    - rewrite !app_assoc in E. apply app_inj_tail in E as [-> _]. exists "[". eexists. split; [reflexivity|]. split; [cbn; tauto | reflexivity].
  Qed.
  Lemma wrapped_step l a : src = text_of ts ++ l ++ a -> wrapped (text_of ts) l a ->
    exists t sc', next sc = Ok (Some t, sc') /\ lexeme t = l /\ (blankless l -> markup (ttype t)) /\ (~ blankless l -> ttype t = TText).
  Proof.
    intros E W. destruct (wrapped_two _ _ _ W) as (x & s & El & _ & H7).
    assert (src = text_of ts ++ x :: (x :: s) ++ a) as E' by (rewrite E, El; reflexivity).
    destruct (next_char _ _ E') as (N & Hx & Hs & Q1 & Q2 & Q3 & Q4 & Q5).
    assert (l ++ a = x :: (x :: s) ++ a) as E2 by (rewrite El; reflexivity).
    assert (blankless l \/ ~ blankless l) as [B|B].
    { unfold blankless. destruct (in_dec Ascii.ascii_dec " " l), (in_dec Ascii.ascii_dec "010" l); tauto. }
    - assert (exists ty, markup ty /\ lexed ty (text_of ts) l a) as (ty & M & L).
      { destruct W as [[W1 W2]|W]; [exists TCrossReference | exists TBlockAnchor]; (split; [cbv; intuition discriminate | split; assumption]). }
      pose proof (lexed_meets _ _ _ _ Q1 Q2 Q3 Q4 H7 Q5 ty l a E2 L M) as Mt.
      destruct (met _ _ _ _ E' Mt) as (t & sc' & K1 & K2 & K3). exists t, sc'. split; [exact K1|]. split; [exact K3|]. split; [now rewrite K2 | intros K; contradiction].
    - pose proof (m_wrapped _ _ _ _ Q1 Q2 Q3 Q4 H7 Q5 l a E2 W B) as Mt.
      destruct (met _ _ _ _ E' Mt) as (t & sc' & K1 & K2 & K3). exists t, sc'. split; [exact K1|]. split; [exact K3|]. split; [intros K; contradiction | auto].
  Qed.
  Lemma markup_step ty l a : src = text_of ts ++ l ++ a -> markup ty -> lexed ty (text_of ts) l a ->
    exists t sc', next sc = Ok (Some t, sc') /\ ttype t = ty /\ lexeme t = l.
  Proof.
    intros E M L. destruct (lexed_recognised src files ts sc ty l a Hu Hy Hn E L M) as (t & sc' & Y & Ht & Hl).
    inversion Y as [K|a1 b1 c1 d1 Y3 N3 E3]; [destruct ts; discriminate|]. apply app_inj_tail in E3 as [-> ->].
    rewrite (yields_same _ _ _ _ _ Hy Y3). eauto.
  Qed.
  Lemma token_lexed t sc' : next sc = Ok (Some t, sc') -> exists after, src = text_of ts ++ lexeme t ++ after /\ lexed (ttype t) (text_of ts) (lexeme t) after.
  Proof.
    intros N. assert (yields src files (ts ++ [t]) sc') as Y by (econstructor; eassumption).
    destruct (tokens_lexed src files (ts ++ [t]) sc' ts t [] Hu Y eq_refl) as (before & after & E & Eb & Hl).
    rewrite (Eb Hn) in E, Hl. eauto.
  Qed.
  Lemma tag_token t sc' rest : src = text_of ts ++ rest -> next sc = Ok (Some t, sc') -> is_tag t -> tag_here rest.
  Proof.
    intros E N Ht. destruct rest as [|c r].
    { rewrite app_nil_r in E. destruct (at_end E) as (o & sc2 & K & Ho). rewrite N in K. injection K as <- _.
      pose proof (Ho t eq_refl) as Q. destruct Ht; congruence. }
    destruct (next_char c r E) as (N' & Hx & Hs & Q1 & Q2 & Q3 & Q4 & Q5). rewrite N' in N.
    apply bind_ok in N as ((sc2, t2) & N & K). injection K as -> ->.
    destruct (scan_token_untagged (restart sc) Q5) as [U|(c' & kw & K1 & K2 & K3)]; [now elim (U _ _ N)|].
    rewrite Hx in K1. injection K1 as <-.
    assert (begins kw r) as (w & ->).
    { replace 4 with (List.length kw) in K2 by (destruct K3 as [K3|K3]; injection K3 as _ ->; reflexivity).
      apply (peeks_ahead_prefix (bump (restart sc) 1) kw) in K2.
      - destruct K2 as (w & K2). exists w. rewrite <- K2. cbn [bump restart set_cur sc_cur sc_src].
        cbn [bump restart set_cur sc_cur sc_src] in Q1, Q3. rewrite Q1, Q3. symmetry. change (c :: r) with ([c] ++ r). rewrite app_assoc.
        replace (S (List.length (text_of ts))) with (List.length (text_of ts ++ [c])) by (rewrite app_length; cbn; lia). apply skipn_length_app.
      - intros K. rewrite K in K3. destruct K3 as [K3|K3]; discriminate K3. }
    destruct K3 as [K3|K3]; [left | right]; exists w; rewrite <- K3; reflexivity.
  Qed.
  Lemma next_sound t sc' : next sc = Ok (Some t, sc') -> ttype t <> TEof ->
    exists after, src = text_of ts ++ lexeme t ++ after /\ grammar (text_of ts) (ttype t) (lexeme t) after.
  Proof.
    intros N He. destruct (token_lexed t sc' N) as (after & E & Hl). exists after. split; [exact E|].
    assert (forall rest, src = text_of ts ++ rest -> tag_here rest -> is_tag t) as Htg.
    { intros rest E' K. destruct (tag_step rest E' K) as [P|(kw & s & r & _ & _ & _ & t' & sc2 & P & _ & Ht)]; rewrite N in P; [discriminate|].
      injection P as -> _. unfold is_tag. rewrite Ht. destruct (contains _ _); auto. }
    assert (is_tag t \/ ~ is_tag t) as [Ht|Ht] by (unfold is_tag; destruct (ttype t); auto; right; intros [K|K]; discriminate).
    - pose proof (tag_token t sc' _ E N Ht) as K.
      destruct (tag_step _ E K) as [P|(kw & s & r & Hkw & Er & Hs & t' & sc2 & P & Hx & Hty)]; rewrite N in P; [discriminate|].
      injection P as <- _. rewrite Hty, Hx. destruct (contains (bs "tag") (kw ++ s ++ ["]"])) eqn:C.
      + apply gr_start. apply occurs_contains in C. destruct Hkw as [-> | ->]; [left | right; split; [|exact C]]; exists s; auto.
      + destruct Hkw as [-> | ->].
        * exfalso. assert (contains (bs "tag") (bs "tag::" ++ s ++ ["]"]) = true) as Q by (apply occurs_contains; exists []; eexists; reflexivity). congruence.
        * apply gr_end; [exists s; auto|]. intros Q. apply occurs_contains in Q. congruence.
    - assert (ttype t = TText \/ ttype t <> TText) as [K|K] by (destruct (ttype t); auto; right; discriminate).
      + rewrite K in *. destruct Hl as [Hl|[B W]]; [|now apply gr_wrapped].
        apply gr_text; [exact Hl|]. intros [(ty & l & r & El & M & L)|[(l & r & El & W)|[S|[S|[S|S]]]]].
        * rewrite El in E. destruct (markup_step ty l r E M L) as (t' & sc2 & N' & Q & _). rewrite N in N'. injection N' as <- _.
          apply M. rewrite <- Q, K. cbn. auto.
        * pose proof E as E0. rewrite El in E. destruct (wrapped_step l r E W) as (t' & sc2 & N' & Q & Q1 & Q2). rewrite N in N'. injection N' as <- _.
          destruct (wrapped_two _ _ _ W) as (x & s & Ex & Hx & _). destruct Hl as (y & v & Ey & Hv & _).
          rewrite <- Q, Ey in Ex. injection Ex as -> ->. apply (Hv x); [now left | exact Hx].
        * apply Ht. exact (Htg _ E S).
        * apply (hangs_iff src files ts sc _ Hy Hn Hu E) in S. congruence.
        * apply (panics_iff src files ts sc _ Hy Hn Hu E) in S. congruence.
        * apply (errs_iff _ E) in S as (e & S). congruence.
      + apply gr_markup; [|exact Hl]. intros [Q|[Q|[Q|[Q|[]]]]]; [congruence | apply Ht; left; congruence | apply Ht; right; congruence | congruence].
  Qed.
  Lemma tag_only kw s lex after ty : kw = bs "tag::" \/ kw = bs "end::" -> lex = kw ++ s ++ ["]"] -> ~ In "]" s ->
    src = text_of ts ++ lex ++ after -> ty = (if contains (bs "tag") lex then TStartTag else TEndTag) ->
    exists t sc', next sc = Ok (Some t, sc') /\ ttype t = ty /\ lexeme t = lex.
  Proof.
    intros K El Hs E ->.
    assert (exists c w, c :: w = kw ++ s ++ "]" :: after /\ ascii7 c) as (c & w & Ew & H7)
      by (destruct K as [-> | ->]; do 2 eexists; (split; [reflexivity | reflexivity])).
    assert (src = text_of ts ++ c :: w) as E' by (rewrite E, El, Ew, <- !app_assoc; reflexivity).
    destruct (next_char c w E') as (_ & _ & _ & Q1 & Q2 & Q3 & Q4 & Q5).
    pose proof (tag_met _ _ _ _ Q1 Q2 Q3 Q4 H7 Q5 kw s after K Ew Hs) as M. rewrite <- El in M. exact (met c w _ _ E' M).
  Qed.
  Lemma next_only ty lex after : src = text_of ts ++ lex ++ after -> grammar (text_of ts) ty lex after ->
    exists t sc', next sc = Ok (Some t, sc') /\ ttype t = ty /\ lexeme t = lex.
  Proof.
    intros E G. destruct G as [ty lex after M L|lex after W B|lex after R S|lex after S|lex after S1 S2].
    - now apply (markup_step ty lex after).
    - destruct (wrapped_step lex after E W) as (t & sc' & N & Q & _ & Q2). exists t, sc'. auto.
    - destruct (next sc) as [[o sc']|e| | |] eqn:N.
      + destruct o as [t|].
        * assert (ttype t <> TEof) as He.
          { intros K. destruct (token_lexed t sc' N) as (a & Ea & La). rewrite K in La. destruct La as [La ->].
            rewrite La, !app_nil_r in Ea. rewrite Ea in E at 1. rewrite <- (app_nil_r (text_of ts)) in E at 1. apply app_inv_head in E.
            destruct R as (x & v & -> & _). discriminate. }
          exists t, sc'. split; [reflexivity|]. destruct (next_sound t sc' N He) as (a & Ea & Ga).
          assert (lexeme t ++ a = lex ++ after) as El by (rewrite Ea in E at 1; now apply app_inv_head in E).
          clear E Ea N He. remember (ttype t) as ty eqn:Ety. remember (lexeme t) as l eqn:Elx.
          destruct Ga as [ty l a M L|l a W B|l a R' S'|l a S'|l a S1 S2].
          -- exfalso. apply S. left. exists ty, l, a. auto.
          -- exfalso. apply S. right. left. exists l, a. auto.
          -- split; [reflexivity|]. now apply (run_unique l a lex after).
          -- exfalso. apply S. right. right. left. rewrite <- El. destruct S' as [(s & -> & _)|[(s & -> & _) _]]; [left | right]; eexists; rewrite <- !app_assoc; reflexivity.
          -- exfalso. apply S. right. right. left. rewrite <- El. destruct S1 as (s & -> & _). right. eexists; rewrite <- !app_assoc; reflexivity.
        * exfalso. apply next_none in N as (_ & L & _). destruct (yields_inv _ _ _ _ Hy) as (I1 & I2 & I3 & I4). destruct (yields_text _ _ _ _ Hy Hn) as [T Tt].
          assert (text_of ts = src) as T' by (rewrite T; apply firstn_all2; rewrite <- I1; exact L).
          rewrite T' in E. rewrite <- (app_nil_r src) in E at 1. apply app_inv_head in E. destruct R as (x & v & -> & _). discriminate.
      + exfalso. apply S. do 5 right. apply (errs_iff _ E). eauto.
      + exfalso. apply S. do 4 right. left. now apply (panics_iff src files ts sc _ Hy Hn Hu E).
      + exfalso. apply S. do 3 right. left. now apply (hangs_iff src files ts sc _ Hy Hn Hu E).
      + exfalso. exact (next_no_exit _ N).
    - assert (exists kw s, (kw = bs "tag::" \/ kw = bs "end::") /\ lex = kw ++ s ++ ["]"] /\ ~ In "]" s /\ contains (bs "tag") lex = true) as (kw & s & K & El & Hs & Hc).
      { destruct S as [(s & El & Hs)|[(s & El & Hs) Ho]]; do 2 eexists; (split; [|split; [exact El | split; [exact Hs|]]]); auto.
        - apply occurs_contains. rewrite El. exists []. eexists. reflexivity.
        - now apply occurs_contains. }
      apply (tag_only kw s lex after); auto. now rewrite Hc.
    - destruct S1 as (s & El & Hs). apply (tag_only (bs "end::") s lex after); auto.
      destruct (contains (bs "tag") lex) eqn:C; [|reflexivity]. elim S2. now apply occurs_contains.
  Qed.
End Step.

(** ** Whole sources *)
Lemma text_snoc ts t : text_of (ts ++ [t]) = text_of ts ++ lexeme t.
Proof. unfold text_of. rewrite map_app, concat_app. cbn. now rewrite app_nil_r. Qed.
Lemma snoc_untagged ts t : no_tags ts -> ~ is_tag t -> no_tags (ts ++ [t]).
Proof. intros H1 H2. apply Forall_app. split; [exact H1 | now repeat constructor]. Qed.
Lemma grammar_not_eof before ty lexeme after : grammar before ty lexeme after -> ty <> TEof.
Proof. intros [ty' l a M L|l a W B|l a R S|l a S|l a S1 S2]; try discriminate. intros ->. apply M. cbn. auto. Qed.
Lemma laid_cons files line col ty l ks : ty <> TEof -> (ty = TNewLineChar -> l = [NL]) ->
  laid files line col ((ty, l) :: ks)
  = mkTok ty l (content ty l) line col (col + List.length l - 1) files
    :: laid files (if is_nl ty then S line else line) (if is_nl ty then 1 else col + List.length l) ks.
Proof.
  intros He Hn. destruct ty; try reflexivity; [|now elim He].
  rewrite (Hn eq_refl). cbn. now replace (col + 1 - 1) with col by lia.
Qed.

Section Source.
  Variables (src : bytes) (files : list bytes).
  Hypothesis Hu : utf8 src.
  #[local] Set Default Proof Using "All".

  Lemma scanning_steps sc t sc' : next sc = Ok (Some t, sc') -> ttype t <> TEof -> sc_scanning sc' = sc_scanning sc.
  Proof.
    clear. intros N He. apply next_some in N as [[Hlt [P | T]] | E].
    - destruct P as (adv & lit & P1 & P2 & P3 & P4 & P5 & _). congruence.
    - destruct T as (T1 & T2 & T3 & T3' & T4 & _). cbn in T3'. congruence.
    - destruct E as (E1 & E2 & -> & ->). now elim He.
  Qed.
  Lemma step_with ts sc lex after rest ty : yields src files ts sc -> no_tags ts ->
    src = text_of ts ++ rest -> rest = lex ++ after -> grammar (text_of ts) ty lex after -> ty <> TStartTag -> ty <> TEndTag ->
    exists t sc', next sc = Ok (Some t, sc') /\ ttype t = ty /\ lexeme t = lex
      /\ yields src files (ts ++ [t]) sc' /\ no_tags (ts ++ [t]) /\ text_of (ts ++ [t]) = text_of ts ++ lex.
  Proof.
    intros Y Hn E -> G G1 G2. destruct (next_only src files ts sc Y Hn Hu ty lex after E G) as (t & sc' & N & Ht & Hl).
    exists t, sc'. split; [exact N|]. split; [exact Ht|]. split; [exact Hl|]. split; [econstructor; eassumption|].
    split; [apply snoc_untagged; [exact Hn|]; intros [K|K]; congruence|]. now rewrite text_snoc, Hl.
  Qed.
  Lemma end_step ts sc : yields src files ts sc -> src = text_of ts -> no_tags ts -> sc_scanning sc = true ->
    next sc = Ok (Some (final_token (sc_line sc) files), mkSc (sc_src sc) (sc_start sc) (sc_startcol sc) (sc_cur sc) (sc_line sc) false (sc_tagend sc) (sc_files sc)).
  Proof.
    intros Y E Hn Hs. destruct (yields_inv _ _ _ _ Y) as (I1 & I2 & I3 & I4). destruct (yields_text _ _ _ _ Y Hn) as [T Tt].
    assert (is_at_end sc = true) as Ha.
    { unfold is_at_end. apply Nat.leb_le. rewrite I1. apply (f_equal (@List.length _)) in T. rewrite firstn_length, <- E in T. lia. }
    unfold next. rewrite Ha, Hs, I2. reflexivity.
  Qed.
  Lemma eof_step ts sc t sc' : yields src files ts sc -> no_tags ts -> next sc = Ok (Some t, sc') -> ttype t = TEof ->
    src = text_of ts /\ sc_scanning sc = true.
  Proof.
    intros Y Hn N He. pose proof N as N0. apply next_some in N as [[Hlt [P | T]] | E].
    - exfalso. destruct (token_lexed src files ts sc Y Hn Hu t sc' N0) as (a & Ea & La). rewrite He in La. destruct La as [La ->].
      destruct (yields_inv _ _ _ _ Y) as (I1 & I2 & I3 & I4). destruct (yields_text _ _ _ _ Y Hn) as [T Tt].
      rewrite La, !app_nil_r in Ea. apply (f_equal (@List.length _)) in T. rewrite firstn_length, <- Ea in T. rewrite I1 in Hlt. lia.
    - destruct T as (T1 & _). destruct T1; congruence.
    - destruct E as (E1 & E2 & _). split; [|exact E2]. destruct (yields_inv _ _ _ _ Y) as (I1 & I2 & I3 & I4). destruct (yields_text _ _ _ _ Y Hn) as [T Tt].
      rewrite T. symmetry. apply firstn_all2. now rewrite <- I1.
  Qed.
  Lemma collect_grammar ks : forall f ts sc rest, yields src files ts sc -> no_tags ts -> sc_scanning sc = true ->
    src = text_of ts ++ rest -> left sc < f -> tokenised (text_of ts) rest ks ->
    collect f sc = Ok (laid files (sc_line sc) (sc_startcol sc) ks) /\ no_tags (laid files (sc_line sc) (sc_startcol sc) ks).
  Proof.
    induction ks as [|[ty lex] ks IH]; intros f ts sc rest Y Hn Hs E Hf K; [inversion K|].
    destruct f as [|f]; [lia|]. remember (text_of ts) as before eqn:Eb. inversion K as [b E1 E2 E3|b ty' l a ks' G G1 G2 R E1 E2 E3].
    - assert (src = text_of ts) as E' by (rewrite E, <- E2, app_nil_r; exact Eb).
      rewrite Eb in *. clear K. pose proof (end_step ts sc Y E' Hn Hs) as N. destruct f as [|f].
      { unfold left in Hf. rewrite Hs in Hf. lia. }
      cbn [collect]. rewrite N. cbn [bind]. match goal with |- context [next ?s] => remember s as sc1 eqn:Es end.
      assert (next sc1 = Ok (None, sc1)) as N1.
      { destruct (yields_inv _ _ _ _ Y) as (I1 & I2 & I3 & I4). destruct (yields_text _ _ _ _ Y Hn) as [T Tt].
        unfold next. assert (is_at_end sc1 = true) as ->.
        { unfold is_at_end. rewrite Es. cbn. apply Nat.leb_le. rewrite I1. apply (f_equal (@List.length _)) in T. rewrite firstn_length, <- E' in T. lia. }
        rewrite Es. reflexivity. }
      rewrite N1. cbn [bind laid]. split; [reflexivity|]. repeat constructor. intros [Q|Q]; discriminate.
    - subst b ty' l ks'. rewrite Eb in G, R. rewrite Eb in E.
      destruct (step_with ts sc lex a rest ty Y Hn E (eq_sym E2) G G1 G2) as (t & sc' & N & Ht & Hl & Y' & Hn' & Tx).
      pose proof (grammar_not_eof _ _ _ _ G) as He. rewrite <- Ht in He.
      assert (~ is_tag t) as Hq by (intros [Q|Q]; congruence).
      destruct (step_token sc t sc' N Hq He) as (Et & L1 & L2 & L3).
      destruct (yields_inv _ _ _ _ Y) as (I1 & I2 & _). rewrite I2 in Et.
      pose proof (next_left _ _ _ _ _ _ Y N) as Hlt.
      destruct (IH f (ts ++ [t]) sc' a Y' Hn') as [C1 C2].
      + now rewrite (scanning_steps _ _ _ N He).
      + rewrite Tx, E, <- E2, <- app_assoc. reflexivity.
      + lia.
      + now rewrite Tx.
      + cbn [collect]. rewrite N. cbn [bind]. rewrite C1. cbn [bind].
        rewrite Ht, Hl in *. rewrite laid_cons, <- L1, <- L2, <- Et by auto. split; [reflexivity|]. now constructor.
  Qed.
  Lemma grammar_collect f : forall ts sc rest out, yields src files ts sc -> no_tags ts -> sc_scanning sc = true ->
    src = text_of ts ++ rest -> collect f sc = Ok out -> no_tags out ->
    exists ks, tokenised (text_of ts) rest ks /\ out = laid files (sc_line sc) (sc_startcol sc) ks.
  Proof.
    induction f as [|f IH]; intros ts sc rest out Y Hn Hs E C Ho; [discriminate|].
    cbn [collect] in C. apply bind_ok in C as ((o, sc1) & N & C). destruct o as [t|].
    2:{ apply next_none in N as (_ & _ & K). congruence. }
    apply bind_ok in C as (out1 & C1 & C2). injection C2 as <-. inversion Ho as [|x y Ht Ho1]; subst x y.
    assert (ttype t = TEof \/ ttype t <> TEof) as [He|He] by (destruct (ttype t); auto; right; discriminate).
    - destruct (eof_step ts sc t sc1 Y Hn N He) as [E' _]. pose proof (end_step ts sc Y E' Hn Hs) as N'. rewrite N in N'. injection N' as -> ->.
      assert (rest = []) as -> by (rewrite <- E' in E; rewrite <- (app_nil_r src) in E at 1; now apply app_inv_head in E).
      destruct f as [|f]; [discriminate|]. cbn [collect] in C1.
      match type of C1 with context [next ?s] => remember s as sc1 eqn:Es end.
      assert (next sc1 = Ok (None, sc1)) as N1.
      { destruct (yields_inv _ _ _ _ Y) as (I1 & I2 & I3 & I4). destruct (yields_text _ _ _ _ Y Hn) as [T Tt].
        unfold next. assert (is_at_end sc1 = true) as ->.
        { unfold is_at_end. rewrite Es. cbn. apply Nat.leb_le. rewrite I1. apply (f_equal (@List.length _)) in T. rewrite firstn_length, <- E' in T. lia. }
        rewrite Es. reflexivity. }
      rewrite N1 in C1. injection C1 as <-. exists [(TEof, [])]. split; [constructor | reflexivity].
    - destruct (next_sound src files ts sc Y Hn Hu t sc1 N He) as (a & Ea & G).
      assert (rest = lexeme t ++ a) as Er by (rewrite E in Ea at 1; now apply app_inv_head in Ea).
      destruct (step_token sc t sc1 N Ht He) as (Et & L1 & L2 & L3).
      destruct (yields_inv _ _ _ _ Y) as (I1 & I2 & _). rewrite I2 in Et.
      destruct (IH (ts ++ [t]) sc1 a out1) as (ks & K1 & K2).
      + econstructor; eassumption.
      + now apply snoc_untagged.
      + now rewrite (scanning_steps _ _ _ N He).
      + rewrite text_snoc, <- app_assoc. exact Ea.
      + exact C1.
      + exact Ho1.
      + exists ((ttype t, lexeme t) :: ks). rewrite text_snoc in K1. split.
        * rewrite Er. constructor; auto; intros Q; apply Ht; unfold is_tag; auto.
        * rewrite laid_cons, <- L1, <- L2, <- Et by auto. now rewrite K2.
  Qed.
  Lemma scan_is_grammar ts :
    (scan_with src files = Ok ts /\ no_tags ts) <-> exists ks, tokenised [] src ks /\ ts = laid files 1 1 ks.
  Proof.
    split.
    - intros [C Hn]. exact (grammar_collect _ [] (new_with_stack src files) src ts (yields_nil _ _) (Forall_nil _) eq_refl eq_refl C Hn).
    - intros (ks & K & ->). apply (collect_grammar ks _ [] (new_with_stack src files) src); auto; [constructor | constructor | unfold left; cbn; lia].
  Qed.
  Lemma gets_yields b : gets src b -> exists ts sc, yields src files ts sc /\ no_tags ts /\ text_of ts = b.
  Proof.
    induction 1 as [|b ty lex a G (ts & sc & Y & Hn & <-) E Gr G1 G2].
    - exists [], (new_with_stack src files). split; [constructor|]. split; [constructor | reflexivity].
    - destruct (step_with ts sc lex a _ ty Y Hn E eq_refl Gr G1 G2) as (t & sc' & _ & _ & _ & Y' & Hn' & Tx). eauto.
  Qed.
  Lemma yields_gets ts sc : yields src files ts sc -> no_tags ts -> gets src (text_of ts).
  Proof.
    induction 1 as [|ts sc t sc' Y IH N]; intros Hn; [constructor|].
    apply Forall_app in Hn as [Hn Ht]. inversion Ht as [|x y Ht' _]; subst x y. rewrite text_snoc.
    assert (ttype t = TEof \/ ttype t <> TEof) as [He|He] by (destruct (ttype t); auto; right; discriminate).
    - destruct (eof_step ts sc t sc' Y Hn N He) as [E' Hs]. pose proof (end_step ts sc Y E' Hn Hs) as N'. rewrite N in N'. injection N' as -> _.
      cbn. rewrite app_nil_r. auto.
    - destruct (next_sound src files ts sc Y Hn Hu t sc' N He) as (a & Ea & G).
      econstructor; [auto | exact Ea | exact G | |]; intros Q; apply Ht'; unfold is_tag; auto.
  Qed.
  Lemma collect_after ts sc : yields src files ts sc -> forall f,
    collect (List.length ts + f) (new_with_stack src files) = let* r := collect f sc in Ok (ts ++ r).
  Proof.
    induction 1 as [|ts sc t sc' Y IH N]; intros f.
    - cbn. destruct (collect f _); reflexivity.
    - rewrite app_length. cbn [List.length]. replace (List.length ts + 1 + f) with (List.length ts + S f) by lia. rewrite IH.
      cbn [collect]. rewrite N. cbn [bind]. destruct (collect f sc'); cbn [bind]; [|reflexivity..]. now rewrite <- app_assoc.
  Qed.
  Lemma stops_scan ts sc : yields src files ts sc -> (forall o, next sc <> Ok o) ->
    scan_with src files = match next sc with Ok _ => Ok [] | Err e => Err e | Panic => Panic | Hang => Hang | Exit => Exit end.
  Proof.
    intros Y N. pose proof (yields_length _ _ _ _ Y) as L. unfold scan_with.
    replace (List.length src + 2) with (List.length ts + S (List.length src + 1 - List.length ts)) by lia.
    rewrite (collect_after ts sc Y). cbn [collect]. destruct (next sc) as [o|e| | |]; try reflexivity. now elim (N o).
  Qed.
  Lemma tagless_yields ts sc : tagless src -> yields src files ts sc -> no_tags ts.
  Proof.
    intros T. induction 1 as [|ts sc t sc' Y IH N]; [constructor|]. apply snoc_untagged; [exact IH|]. intros K.
    destruct (token_lexed src files ts sc Y IH Hu t sc' N) as (a & Ea & _).
    exact (T _ _ (yields_gets _ _ Y IH) Ea (tag_token src files ts sc Y IH Hu t sc' _ Ea N K)).
  Qed.
  Lemma stop_place r : tagless src -> scan_with src files = r -> (forall ts, r <> Ok ts) ->
    exists ts sc, yields src files ts sc /\ no_tags ts /\ gets src (text_of ts) /\ src = text_of ts ++ skipn (sc_cur sc) src
      /\ match r with
         | Err e => next sc = Err e
         | Panic => next sc = Panic
         | Hang => next sc = Hang
         | Exit => next sc = Exit
         | Ok _ => False
         end.
  Proof.
    intros T C Hr. destruct (scan_fails_in_next (List.length src + 2) src files [] (new_with_stack src files) r (yields_nil _ _) ltac:(unfold left; cbn; lia) C Hr)
      as (ts & sc & Y & _ & M). cbn [app] in Y. pose proof (tagless_yields ts sc T Y) as Hn. exists ts, sc.
    split; [exact Y|]. split; [exact Hn|]. split; [exact (yields_gets ts sc Y Hn)|]. split; [|exact M].
    destruct (yields_text _ _ _ _ Y Hn) as [-> _]. symmetry. apply firstn_skipn.
  Qed.
  Lemma scan_panics : tagless src ->
    (scan_with src files = Panic <-> exists before rest, gets src before /\ src = before ++ rest /\ breaks before rest).
  Proof.
    intros T. split.
    - intros C. destruct (stop_place Panic T C ltac:(discriminate)) as (ts & sc & Y & Hn & G & E & N).
      do 2 eexists. split; [exact G|]. split; [exact E|]. now apply (panics_iff src files ts sc _ Y Hn Hu E).
    - intros (b & rest & G & E & B). destruct (gets_yields b G) as (ts & sc & Y & Hn & <-).
      apply (panics_iff src files ts sc _ Y Hn Hu E) in B. rewrite (stops_scan ts sc Y), B by congruence. reflexivity.
  Qed.
  Lemma scan_hangs : tagless src ->
    (scan_with src files = Hang <-> exists before rest, gets src before /\ src = before ++ rest /\ unclosed before rest).
  Proof.
    intros T. split.
    - intros C. destruct (stop_place Hang T C ltac:(discriminate)) as (ts & sc & Y & Hn & G & E & N).
      do 2 eexists. split; [exact G|]. split; [exact E|]. now apply (hangs_iff src files ts sc _ Y Hn Hu E).
    - intros (b & rest & G & E & B). destruct (gets_yields b G) as (ts & sc & Y & Hn & <-).
      apply (hangs_iff src files ts sc _ Y Hn Hu E) in B. rewrite (stops_scan ts sc Y), B by congruence. reflexivity.
  Qed.
  Lemma scan_errs : tagless src ->
    ((exists e, scan_with src files = Err e) <-> exists before rest, gets src before /\ src = before ++ rest /\ too_deep before rest).
  Proof.
    intros T. split.
    - intros (e & C). destruct (stop_place (Err e) T C ltac:(discriminate)) as (ts & sc & Y & Hn & G & E & N).
      do 2 eexists. split; [exact G|]. split; [exact E|]. apply (errs_iff src files ts sc Y Hn Hu _ E). eauto.
    - intros (b & rest & G & E & B). destruct (gets_yields b G) as (ts & sc & Y & Hn & <-).
      apply (errs_iff src files ts sc Y Hn Hu _ E) in B as (e & B). exists e. rewrite (stops_scan ts sc Y), B by congruence. reflexivity.
  Qed.
  Lemma scan_succeeds ts : tagless src -> (scan_with src files = Ok ts <-> exists ks, tokenised [] src ks /\ ts = laid files 1 1 ks).
  Proof.
    intros T. rewrite <- scan_is_grammar. split; [|tauto]. intros C. split; [exact C|].
    destruct (scan_yields _ _ _ C) as (sc & Y & _). exact (tagless_yields ts sc T Y).
  Qed.
End Source.
Lemma next_iff src files ts sc ty lex after :
  utf8 src -> yields src files ts sc -> no_tags ts -> src = text_of ts ++ lex ++ after -> lex <> [] ->
  ((exists t sc', next sc = Ok (Some t, sc') /\ ttype t = ty /\ lexeme t = lex) <-> grammar (text_of ts) ty lex after).
Proof.
  intros Hu Y Hn E Hl. split.
  - intros (t & sc' & N & <- & <-). assert (ttype t <> TEof) as He.
    { intros K. destruct (eof_step src files Hu ts sc t sc' Y Hn N K) as [E' Hs]. apply Hl.
      rewrite <- E' in E. rewrite <- (app_nil_r src) in E at 1. apply app_inv_head in E. now destruct (lexeme t). }
    destruct (next_sound src files ts sc Y Hn Hu t sc' N He) as (a & Ea & G).
    rewrite Ea in E at 1. apply app_inv_head, app_inv_head in E. now subst a.
  - exact (next_only src files ts sc Y Hn Hu ty lex after E).
Qed.
Lemma unwritten_tagless src : ~ occurs (bs "tag::") src -> ~ occurs (bs "end::") src -> tagless src.
Proof. intros H1 H2 b rest _ E [(r & ->)|(r & ->)]; [apply H1 | apply H2]; exists b, r; exact E. Qed.
