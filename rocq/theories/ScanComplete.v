(** * Every token of the lexical grammar is recognised *)
From Verif Require Import Base Location Token Scanner SpecScan SpecLex ScanLemmas ScanFacts ScanMain ScanMain2
  ScanLine ScanFail ScanView ScanLex ScanGrammar.
Local Open Scope char_scope.
Local Open Scope nat_scope.

(** ** Loops *)
Lemma span_exact p v r : Forall (fun b => p (peek_byte b) = true) v ->
  (r = [] \/ exists y r', r = y :: r' /\ p (peek_byte y) = false) -> span_len p (v ++ r) = List.length v.
Proof.
  intros Hv Hr. induction Hv as [|x v Hx _ IH]; cbn [app span_len List.length].
  - destruct Hr as [->|(y & r' & -> & Hy)]; [reflexivity|]. cbn [span_len]. now rewrite Hy.
  - now rewrite Hx, IH.
Qed.
Lemma peek_in l b : forallb (fun x => negb (is_cont x || (x == NUL))) l = true ->
  memc (peek_byte b) l = true <-> In b l.
Proof.
  intros H. rewrite memc_In. unfold peek_byte. destruct (is_cont b) eqn:E; [|reflexivity]. rewrite forallb_forall in H. split.
  - intros K. apply H in K. discriminate.
  - intros K. apply H in K. rewrite E in K. discriminate.
Qed.
Lemma peek_ascii b : ascii7 b -> peek_byte b = b.
Proof. intros H. unfold peek_byte. now rewrite (ascii7_cont _ H). Qed.
Lemma not_peek x y : ascii7 y -> y <> NUL -> x <> y -> negb (peek_byte x == y) = true.
Proof.
  intros H1 H2 H3. apply negb_true_iff, Ascii.eqb_neq. intros K. apply H3.
  exact (proj1 (peek_byte_ascii x y (ascii7_cont _ H1) H2) K).
Qed.
Lemma until_exact y v r : ascii7 y -> y <> NUL -> ~ In y v -> (r = [] \/ exists r', r = y :: r') ->
  span_len (fun x => negb (x == y)) (v ++ r) = List.length v.
Proof.
  intros Hy Hn Hv Hr. apply span_exact.
  - apply Forall_forall. intros x Hx. apply not_peek; auto. intros ->. contradiction.
  - destruct Hr as [->|(r' & ->)]; [now left | right]. exists y, r'. split; [reflexivity|].
    rewrite peek_ascii by exact Hy. now rewrite Ascii.eqb_refl.
Qed.
Lemma line_start_end before : at_line_start before -> ends [" "] before -> False.
Proof.
  intros [->|(b & ->)] (b' & E); [destruct b'; discriminate|]. apply app_inj_tail in E as [_ E]. discriminate.
Qed.
Lemma boundary_exact src stop r : Forall ascii7 stop -> 1 <= List.length stop -> at_char r ->
  forall x cur fuel, Forall ascii7 x -> skipn cur src = x ++ stop ++ r -> cur <= List.length src -> is_boundary src cur = true ->
  (forall u v, x ++ stop = u ++ stop ++ v -> v = []) -> List.length x <= fuel ->
  boundary_loop src stop fuel cur = Ok (cur + List.length x).
Proof.
  intros Hs Hl Hr. induction x as [|y x IH]; intros cur fuel Hx E Hc Hb Hm Hf.
  - assert (List.length (skipn cur src) = List.length stop + List.length r) as L by (rewrite E; cbn; apply app_length).
    rewrite skipn_length in L. cbn [app] in E.
    assert (is_boundary src (cur + List.length stop) = true) as B.
    { unfold is_boundary. rewrite <- nth_error_skipn', E, nth_error_app2, Nat.sub_diag by lia.
      destruct Hr as [->|(z & r' & -> & Hz)]; cbn [nth_error].
      - apply Nat.eqb_eq. cbn in L. lia.
      - rewrite Hz. apply orb_true_r. }
    assert (beqb (firstn (List.length stop) (skipn cur src)) stop = true) as Q.
    { apply beqb_eq. rewrite E, firstn_app, Nat.sub_diag, firstn_all. cbn. apply app_nil_r. }
    destruct fuel; cbn [boundary_loop];
      (destruct (Nat.leb_spec (List.length src) cur); [lia|]);
      (destruct (Nat.ltb_spec (List.length src) (cur + List.length stop)); [lia|]); rewrite B, Hb, Q; cbn; f_equal; lia.
  - destruct fuel as [|fuel]; [cbn in Hf; lia|]. cbn in Hf.
    assert (List.length (skipn cur src) = S (List.length x + (List.length stop + List.length r))) as L
      by (rewrite E; cbn; rewrite !app_length; reflexivity).
    rewrite skipn_length in L. inversion Hx as [|? ? Hy Hx']; subst.
    assert (Forall ascii7 (x ++ stop)) as Ha by (apply Forall_app; auto).
    assert (forall k z, nth_error (x ++ stop) k = Some z -> is_boundary src (cur + S k) = true) as B.
    { intros k z Ek. unfold is_boundary. rewrite <- nth_error_skipn', E. cbn [app nth_error].
      rewrite app_assoc, nth_error_app1 by (apply nth_error_Some; congruence). rewrite Ek.
      rewrite (ascii7_cont z); [apply orb_true_r|]. rewrite Forall_forall in Ha. apply Ha. eapply nth_error_In; exact Ek. }
    cbn [boundary_loop].
    destruct (Nat.leb_spec (List.length src) cur); [lia|].
    destruct (Nat.ltb_spec (List.length src) (cur + List.length stop)); [lia|].
    assert (is_boundary src (cur + List.length stop) = true) as B1.
    { destruct (nth_error (x ++ stop) (List.length stop - 1)) as [z|] eqn:Ez.
      - replace (List.length stop) with (S (List.length stop - 1)) by lia. eapply B; exact Ez.
      - apply nth_error_None in Ez. rewrite app_length in Ez. lia. }
    assert (beqb (firstn (List.length stop) (skipn cur src)) stop = false) as Q.
    { apply beqb_neq. intros K. rewrite E in K.
      assert (exists v, (y :: x) ++ stop = stop ++ v) as (v & Ev).
      { exists (skipn (List.length stop) ((y :: x) ++ stop)). rewrite <- K at 2.
        rewrite app_assoc, firstn_app. replace (List.length stop - List.length ((y :: x) ++ stop)) with 0 by (rewrite app_length; cbn; lia).
        cbn [firstn]. rewrite app_nil_r. symmetry. apply firstn_skipn. }
      specialize (Hm [] v Ev). subst v. apply (f_equal (@List.length ascii)) in Ev. rewrite !app_length in Ev. cbn in Ev. lia. }
    rewrite B1, Hb, Q. cbn [negb]. rewrite (IH (S cur) fuel); [f_equal; cbn; lia | exact Hx' | | lia | | | lia].
    + replace (S cur) with (cur + 1) by lia. rewrite <- skipn_skipn', E. reflexivity.
    + destruct (nth_error (x ++ stop) 0) as [z|] eqn:Ez; [replace (S cur) with (cur + 1) by lia; eapply B; exact Ez|].
      apply nth_error_None in Ez. rewrite app_length in Ez. lia.
    + intros u v Euv. apply (Hm (y :: u) v). cbn. f_equal. exact Euv.
Qed.

(** ** Words of links and cells *)
Definition link_go (x : ascii) : bool := negb (memc x [NUL; SP]) && negb (is_punct x).
Lemma link_word w : Forall link_char w ->
  Forall (fun b => link_go (peek_byte b) = true) w
  \/ exists v p w', w = v ++ p :: w' /\ Forall (fun b => link_go (peek_byte b) = true) v /\ In p inside_links.
Proof.
  induction 1 as [|x w (H1 & H2 & H3 & H4) _ IH]; [left; constructor|].
  destruct (is_punct x) eqn:Ep.
  - right. exists [], x, w. split; [reflexivity|]. split; [constructor|]. apply punct_spec in Ep. exact (H4 Ep).
  - assert (link_go (peek_byte x) = true) as Hx.
    { rewrite peek_ascii by exact H1. unfold link_go. rewrite Ep, andb_true_r. apply negb_true_iff, not_true_is_false.
      intros K. apply memc_In in K as [K|[K|[]]]; subst x; auto. }
    destruct IH as [IH|(v & p & w' & -> & Hv & Hp)]; [left; now constructor|].
    right. exists (x :: v), p, w'. split; [reflexivity|]. split; [now constructor | exact Hp].
Qed.
Lemma link_stays y : link_go y = false -> ascii7 y -> link_go (peek_byte y) = false.
Proof. intros H1 H2. now rewrite peek_ascii. Qed.
Lemma cell_word w : (exists v w', w = v ++ "|" :: w' /\ ~ In "|" v) \/ ~ In "|" w.
Proof.
  induction w as [|x w IH]; [now right|]. destruct (Ascii.eqb_spec x "|") as [->|Hx]; [left; now exists [], w|].
  destruct IH as [(v & w' & -> & Hv)|Hw]; [left | right].
  - exists (x :: v), w'. split; [reflexivity|]. intros [K|K]; auto.
  - intros [K|K]; auto.
Qed.

Section Complete.
  Variable sc : scanner.
  Variable before : bytes.
  Variable c : ascii.
  Variable rest : bytes.
  Hypothesis Hsrc : sc_src sc = before ++ c :: rest.
  Hypothesis Hst : sc_start sc = List.length before.
  Hypothesis Hcur : sc_cur sc = S (List.length before).
  Hypothesis Hu : utf8 (sc_src sc).
  Hypothesis H7 : ascii7 c.
  Hypothesis Htag : sc_tagend sc = false.
  #[local] Set Default Proof Using "All".

  Notation peekv := (v_peek sc before c rest Hsrc Hst Hcur Hu H7).
  Notation peeksv := (v_peeks sc before c rest Hsrc Hst Hcur Hu H7).
  Notation backv := (v_back sc before c rest Hsrc Hst Hcur Hu H7).
  Notation linev := (v_line sc before c rest Hsrc Hst Hcur Hu H7).
  Notation advv := (v_advance sc before c rest Hsrc Hst Hcur Hu H7).
  Notation hdv := (hdv sc before c rest Hsrc Hst Hcur Hu H7).
  Notation hdv' := (hdv' sc before c rest Hsrc Hst Hcur Hu H7).
  Notation previsv := (previsv sc before c rest Hsrc Hst Hcur Hu H7).
  Notation previsv' := (previsv' sc before c rest Hsrc Hst Hcur Hu H7).
  Notation Hur := (Hur sc before c rest Hsrc Hst Hcur Hu H7).
  Notation Hrest := (Hrest sc before c rest Hsrc Hst Hcur Hu H7).
  Notation Hlen := (Hlen sc before c rest Hsrc Hst Hcur Hu H7).
  Notation bump0 := (bump0 sc before c rest Hsrc Hst Hcur Hu H7).
  Notation byte_at_bump := (byte_at_bump sc before c rest Hsrc Hst Hcur Hu H7).
  Notation peek_bump_any := (peek_bump_any sc before c rest Hsrc Hst Hcur Hu H7).
  Notation rest_case := (rest_case sc before c rest Hsrc Hst Hcur Hu H7).

  Notation line_cut_unique := (line_cut_unique sc before c rest Hsrc Hst Hcur Hu H7).

  Lemma no_end_tag : starts_end_tag_line sc = false.
  Proof. unfold starts_end_tag_line. now rewrite Htag. Qed.
  Definition hits (m : result (scanner * token)) (ty : token_type) (s : bytes) : Prop :=
    exists sc' t, m = Ok (sc', t) /\ ttype t = ty /\ lexeme t = c :: s.
  Definition keeps (ty : token_type) (lex : bytes) : Prop := ty = TBlockAnchor \/ ty = TCrossReference -> blankless lex.
  Lemma keeps_validate ty lex lit line st en files : keeps ty lex ->
    ttype (validate (mkTok ty lex lit line st en files)) = ty.
  Proof.
    intros K. destruct ty; try reflexivity; cbn [validate ttype lexeme].
    - now destruct (charref_replacement lex).
    - destruct K as [K1 K2]; [now left|].
      assert (memc SP lex = false) as -> by (apply not_true_is_false; intros Q; apply memc_In in Q; contradiction).
      assert (memc NL lex = false) as -> by (apply not_true_is_false; intros Q; apply memc_In in Q; contradiction). reflexivity.
    - destruct K as [K1 K2]; [now right|].
      assert (memc SP lex = false) as -> by (apply not_true_is_false; intros Q; apply memc_In in Q; contradiction).
      assert (memc NL lex = false) as -> by (apply not_true_is_false; intros Q; apply memc_In in Q; contradiction). reflexivity.
  Qed.
  Lemma hit s r ty lit adv : rest = s ++ r -> at_char r -> keeps ty (c :: s) ->
    hits (add_token (bump sc (List.length s)) ty lit adv) ty s.
  Proof.
    intros E Hr K. destruct (v_token_ok sc before c rest Hsrc Hst Hcur Hu H7 s r ty lit adv E Hr) as (sc' & Q).
    exists sc'. eexists. split; [exact Q|]. split; [now apply keeps_validate | apply validate_fields].
  Qed.
  (** what [validate] makes of the type *)
  Definition becomes (ty ty' : token_type) (lex : bytes) : Prop :=
    forall lit line st en files, ttype (validate (mkTok ty lex lit line st en files)) = ty'.
  Lemma keeps_becomes ty lex : keeps ty lex -> becomes ty ty lex.
  Proof. intros K lit line st en files. now apply keeps_validate. Qed.
  Lemma blanks_become ty lex : ty = TBlockAnchor \/ ty = TCrossReference -> ~ blankless lex -> becomes ty TText lex.
  Proof.
    clear. intros Ht Hb lit line st en files.
    assert (memc SP lex || memc NL lex = true) as E.
    { apply not_false_is_true. intros K. apply orb_false_iff in K as [K1 K2]. apply Hb.
      split; intros Q; apply memc_In in Q; [change " " with SP in Q | change "010" with NL in Q]; congruence. }
    destruct Ht as [-> | ->]; cbn [validate ttype lexeme]; now rewrite E.
  Qed.
  Lemma hit_as s r ty ty' lit adv : rest = s ++ r -> at_char r -> becomes ty ty' (c :: s) ->
    hits (add_token (bump sc (List.length s)) ty lit adv) ty' s.
  Proof.
    intros E Hr K. destruct (v_token_ok sc before c rest Hsrc Hst Hcur Hu H7 s r ty lit adv E Hr) as (sc' & Q).
    exists sc'. eexists. split; [exact Q|]. split; [apply K | apply validate_fields].
  Qed.
  Lemma at_char_rest : at_char rest.
  Proof. exact (utf8_head _ Hur). Qed.
  Lemma hit0 ty lit adv : keeps ty [c] -> hits (add_token sc ty lit adv) ty [].
  Proof.
    intros K. pose proof (hit [] rest ty lit adv eq_refl at_char_rest K) as Q. cbn [List.length] in Q. now rewrite bump0 in Q.
  Qed.
  Lemma after_ascii s r : rest = s ++ r -> Forall ascii7 s -> at_char r.
  Proof. intros E Hs. apply utf8_head. eapply (v_utf8_after sc before c rest Hsrc Hst Hcur Hu H7); eassumption. Qed.
  Lemma after_last a x r : rest = a ++ x :: r -> ascii7 x -> at_char r.
  Proof. intros E Hx. apply utf8_head. pose proof Hur as U. rewrite E in U. eapply utf8_after; eassumption. Qed.
  Lemma ends_char r : line_ends r -> at_char r.
  Proof. clear. intros [->|(r' & ->)]; [now left | right; now exists NL, r']. Qed.
  Ltac kp := let K := fresh in intros [K|K]; discriminate K.
  Lemma at_char_boundary : is_boundary (sc_src sc) (sc_cur sc) = true.
  Proof.
    unfold is_boundary. rewrite <- (Nat.add_0_r (sc_cur sc)), <- nth_error_skipn', Hrest.
    destruct at_char_rest as [E|(x & r & E & Hx)]; rewrite E; cbn [nth_error].
    - apply Nat.eqb_eq. rewrite Hlen, E, Hcur. cbn. lia.
    - rewrite Hx. apply orb_true_r.
  Qed.
  Lemma hitA s r ty lit adv : rest = s ++ r -> Forall ascii7 s -> keeps ty (c :: s) ->
    hits (add_token (bump sc (List.length s)) ty lit adv) ty s.
  Proof. intros E Hs. apply (hit s r); [exact E | now apply (after_ascii s)]. Qed.
  Lemma hitL s x r ty lit adv : rest = (s ++ [x]) ++ r -> ascii7 x -> keeps ty (c :: s ++ [x]) ->
    hits (add_token (bump sc (List.length (s ++ [x]))) ty lit adv) ty (s ++ [x]).
  Proof. intros E Hx. apply (hit _ r); [exact E|]. rewrite <- app_assoc in E. now apply (after_last s x). Qed.
  Ltac asc := now repeat constructor.
  Lemma lineT : at_line_start before -> lineb before = true.
  Proof. apply lineb_spec. Qed.

  (** ** Marks *)
  Notation inline_view := (inline_view sc before c rest Hsrc Hst Hcur Hu H7).
  Lemma hit_inline1 ty1 ty2 : c <> NUL -> formats c before rest -> keeps ty1 [c] ->
    hits (handle_inline_formatting sc c ty1 ty2) ty1 [].
  Proof.
    intros Hc (F1 & F2 & F3) K. rewrite inline_view.
    assert ((hd NUL rest == SP) && (prevc before == SP) = false) as ->.
    { apply not_true_is_false. intros Q. apply andb_true_iff in Q as [Q1 Q2]. apply (hdv SP) in Q1; [|discriminate].
      apply (previsv SP eq_refl) in Q2; [|discriminate]. auto. }
    apply (hdv' c Hc) in F2. rewrite F2.
    assert (memc (hd NUL rest) after_mark || memc (prevc before) before_mark = true) as ->; [|now apply hit0].
    apply orb_true_iff. destruct F3 as [F3|F3].
    - left. now apply (after_markv sc before c rest Hsrc Hst Hcur Hu H7).
    - right. now apply (before_markv sc before c rest Hsrc Hst Hcur Hu H7).
  Qed.
  Lemma hit_inline2 ty1 ty2 r : c <> NUL -> c <> SP -> rest = c :: r -> keeps ty2 [c; c] ->
    hits (handle_inline_formatting sc c ty1 ty2) ty2 [c].
  Proof.
    intros Hc Hsp E K. rewrite inline_view. rewrite E. cbn [hd]. apply Ascii.eqb_neq in Hsp. rewrite Hsp, Ascii.eqb_refl. cbn [andb].
    apply (hitA [c] r); [exact E | asc | exact K].
  Qed.

  (** ** Branch by branch *)
  Notation apostrophe_view := (apostrophe_view sc before c rest Hsrc Hst Hcur Hu H7).
  Lemma hit_break r : c = "'" -> rest = bs "''" ++ r -> begins [NL] r -> hits (scan_apostrophe sc c) TThematicBreak (bs "''").
  Proof.
    intros Hc E (t & Et). rewrite apostrophe_view by exact Hc. rewrite no_end_tag.
    assert (starts_with (bs "''" ++ [NL]) rest = true) as -> by (apply starts_with_begins; exists t; rewrite E, Et; reflexivity).
    apply (hitA (bs "''") r); [exact E | asc | kp].
  Qed.
  Lemma hit_open_single r : c = "'" -> rest = "`" :: r -> prev_in ["000"; " "; "010"] before ->
    hits (scan_apostrophe sc c) TOpenSingleQuote ["`"].
  Proof.
    intros Hc E Hp. rewrite apostrophe_view by exact Hc. rewrite no_end_tag.
    apply (quote_prevv sc before c rest Hsrc Hst Hcur Hu H7) in Hp. rewrite Hp. rewrite E. cbn.
    apply (hitA ["`"] r); [exact E | asc | kp].
  Qed.
  Lemma hit_possessive r : c = "'" -> rest = "s" :: r -> word_ends r -> hits (scan_apostrophe sc c) TCharRef [].
  Proof.
    intros Hc E Hw. rewrite apostrophe_view by exact Hc. rewrite no_end_tag.
    assert (closesb "s" rest = true) as -> by (rewrite E; cbn; now apply wordb_spec).
    rewrite E. cbn [starts_with bs app hd Ascii.eqb Bool.eqb andb]. rewrite andb_false_r. apply hit0. kp.
  Qed.

  (** *** delimiters *)
  Notation delim_view := (delim_view sc before c rest Hsrc Hst Hcur Hu H7).
  Notation delim_inner_view := (delim_inner_view sc before c rest Hsrc Hst Hcur Hu H7).
  Lemma delim_inner : c <> NUL -> ~ (at_line_start before /\ begins (repeat c 3 ++ [NL]) rest) ->
    scan_delim sc c = scan_delim_inner sc c.
  Proof.
    intros Hc H. rewrite delim_view by exact Hc. rewrite no_end_tag.
    assert (lineb before && starts_with (repeat c 3 ++ [NL]) rest = false) as ->; [|reflexivity].
    apply not_true_is_false. intros K. apply andb_true_iff in K as [K1 K2]. apply H. split; [now apply lineb_spec | now apply starts_with_begins].
  Qed.
  Lemma hit_delim ty r : c <> NUL -> block_from_char c = Ok ty -> keeps ty (repeat c 4) -> at_line_start before ->
    rest = repeat c 3 ++ r -> begins [NL] r -> hits (scan_delim sc c) ty (repeat c 3).
  Proof.
    intros Hc Hty K L E (t & Et). rewrite delim_view by exact Hc. rewrite no_end_tag, (lineT L).
    assert (starts_with (repeat c 3 ++ [NL]) rest = true) as -> by (apply starts_with_begins; exists t; rewrite E, Et, <- app_assoc; reflexivity).
    cbn [andb]. rewrite Hty. cbn [bind]. apply (hit (repeat c 3) r); [exact E | | exact K].
    apply ends_char. right. now exists t.
  Qed.
  Lemma hit_arrow r : (c = "=" \/ c = "-") -> rest = ">" :: r -> hits (scan_delim sc c) TCharRef [">"].
  Proof.
    intros Hc E. rewrite delim_inner, delim_inner_view; [|destruct Hc; subst c; discriminate | intros [_ (t & K)]; rewrite E in K; destruct Hc; subst c; discriminate K].
    rewrite E. destruct Hc as [Hc|Hc]; rewrite Hc; cbn [Ascii.eqb Bool.eqb hd]; (apply (hitA [">"] r); [exact E | asc | kp]).
  Qed.
  Lemma hit_heading n x r ty : c = "=" -> heading_type (S n) = Some ty -> at_line_start before ->
    rest = repeat "=" n ++ x :: r -> ascii7 x -> x <> "=" -> ~ (S n = 1 /\ x = ">") -> ~ (S n = 4 /\ x = NL) ->
    hits (scan_delim sc c) ty (repeat "=" n ++ [x]).
  Proof.
    intros Hc Hty L E Hx Hne H1 H4.
    rewrite delim_inner, delim_inner_view.
    - rewrite Hc. cbn [Ascii.eqb Bool.eqb].
      assert (hd NUL rest == ">" = false) as ->.
      { apply Ascii.eqb_neq. rewrite E. destruct n; cbn; [intros ->; auto | discriminate]. }
      rewrite (lineT L). unfold add_heading. rewrite advv.
      assert (span_len (fun c0 => c0 == "=") rest = n) as ->.
      { rewrite E. rewrite <- (repeat_length "=" n) at 2. apply span_exact.
        - apply Forall_forall. intros y Hy. apply repeat_spec in Hy. now subst y.
        - right. exists x, r. split; [reflexivity|]. rewrite peek_ascii by exact Hx. now apply Ascii.eqb_neq. }
      cbn zeta. cbn [bump set_cur sc_cur sc_start].
      replace (sc_cur sc + n + 1 - 1 - sc_start sc) with (S n) by (rewrite Hst, Hcur; lia).
      change (set_cur (set_cur sc (sc_cur sc + n)) (sc_cur sc + n + 1)) with (bump (bump sc n) 1). rewrite bump_bump.
      replace (n + 1) with (List.length (repeat "=" n ++ [x])) by (rewrite app_length, repeat_length; reflexivity).
      assert (forall ty', keeps ty' (c :: repeat "=" n ++ [x]) -> hits (add_token (bump sc (List.length (repeat "=" n ++ [x]))) ty' false 0) ty' (repeat "=" n ++ [x])) as K.
      { intros ty' Hk. apply (hit _ r); [rewrite E, <- app_assoc; reflexivity | eapply after_last; [exact E | exact Hx] | exact Hk]. }
      destruct n as [|[|[|[|[|n]]]]]; [injection Hty as <-; apply K; kp .. | discriminate Hty].
    - rewrite Hc. discriminate.
    - intros [_ (t & K)]. rewrite Hc, E in K. apply H4.
      destruct n as [|[|[|[|n]]]]; cbn in K; try (injection K as K; congruence); try discriminate K.
      injection K as K _. auto.
  Qed.

  Lemma hit_emdash r : c = "-" -> rest = "-" :: r -> dashb r = true -> hits (scan_delim sc c) TCharRef ["-"].
  Proof.
    intros Hc E Hd. rewrite delim_inner, delim_inner_view.
    - rewrite Hc. unfold dash_rest. rewrite E. cbn [Ascii.eqb Bool.eqb hd andb]. rewrite Hd. apply (hitA ["-"] r); [exact E | asc | kp].
    - rewrite Hc. discriminate.
    - intros [_ (t & K)]. rewrite Hc, E in K. cbn in K. injection K as K. rewrite K in Hd. discriminate.
  Qed.
  Lemma hit_open r : c = "-" -> rest = "-" :: r -> begins [NL] r -> at_line_start before -> hits (scan_delim sc c) TOpenBlock ["-"].
  Proof.
    intros Hc E (t & Et) L. rewrite delim_inner, delim_inner_view.
    - rewrite Hc. unfold dash_rest. rewrite (lineT L), E, Et. cbn. apply (hitA ["-"] r); [exact E | asc | kp].
    - rewrite Hc. discriminate.
    - intros [_ (t' & K)]. rewrite Hc, E, Et in K. discriminate.
  Qed.
  Lemma hit_list_item ty r : rest = SP :: r -> keeps ty [c; SP] -> hits (add_list_item sc ty) ty [SP].
  Proof. intros E K. unfold add_list_item. apply (hitA [SP] r); [exact E | asc | exact K]. Qed.
  Lemma hit_unordered r : c = "*" -> rest = SP :: r -> at_line_start before -> hits (scan_delim sc c) TUnorderedListItem [SP].
  Proof.
    intros Hc E L. rewrite delim_inner, delim_inner_view.
    - rewrite Hc, (lineT L), E. cbn. apply (hit_list_item _ r); [exact E | kp].
    - rewrite Hc. discriminate.
    - intros [_ (t' & K)]. rewrite Hc, E in K. discriminate.
  Qed.
  Lemma hit_ordered r : c = "." -> rest = SP :: r -> at_line_start before -> hits (scan_delim sc c) TOrderedListItem [SP].
  Proof.
    intros Hc E L. rewrite delim_inner, delim_inner_view.
    - rewrite Hc, (lineT L), E. cbn. apply (hit_list_item _ r); [exact E | kp].
    - rewrite Hc. discriminate.
    - intros [_ (t' & K)]. rewrite Hc, E in K. discriminate.
  Qed.
  Lemma hit_label : c = "." -> at_line_start before -> ~ begins (bs "..") rest -> ~ begins [" "] rest -> hits (scan_delim sc c) TBlockLabel [].
  Proof.
    intros Hc L H1 H2. rewrite delim_inner, delim_inner_view.
    - rewrite Hc, (lineT L). cbn [Ascii.eqb Bool.eqb]. apply starts_with_not in H1. rewrite H1.
      apply (hdv' SP) in H2; [|discriminate]. rewrite H2. apply hit0. kp.
    - rewrite Hc. discriminate.
    - intros [_ (t' & K)]. rewrite Hc in K. apply H1. now exists ("." :: NL :: t').
  Qed.
  Lemma hit_dots r : c = "." -> rest = bs ".." ++ r -> ~ (at_line_start before /\ begins (bs "." ++ ["010"]) r) ->
    hits (scan_delim sc c) TCharRef (bs "..").
  Proof.
    intros Hc E H. rewrite delim_inner, delim_inner_view.
    - rewrite Hc, E. cbn [Ascii.eqb Bool.eqb bs app starts_with andb]. apply (hitA (bs "..") r); [exact E | asc | kp].
    - rewrite Hc. discriminate.
    - intros [L (t' & K)]. rewrite Hc, E in K. apply H. split; [exact L|]. exists t'. cbn in K. now injection K as K.
  Qed.
  Lemma hit_continuation : c = "+" -> at_line_start before -> begins [NL] rest -> hits (scan_delim sc c) TBlockContinuation [].
  Proof.
    intros Hc L (t & Et). rewrite delim_inner, delim_inner_view.
    - rewrite Hc, (lineT L), Et. cbn. apply hit0. kp.
    - rewrite Hc. discriminate.
    - intros [_ (t' & K)]. rewrite Hc, Et in K. discriminate.
  Qed.
  Lemma hit_line_continuation : c = "+" -> ends [" "] before -> begins [NL] rest -> hits (scan_delim sc c) TLineContinuation [].
  Proof.
    intros Hc L (t & Et). rewrite delim_inner, delim_inner_view.
    - assert (lineb before = false) as -> by (apply lineb_false; intros K; exact (line_start_end _ K L)).
      apply (previsv SP eq_refl) in L; [|discriminate]. rewrite L, Hc, Et. cbn. apply hit0. kp.
    - rewrite Hc. discriminate.
    - intros [_ (t' & K)]. rewrite Hc, Et in K. discriminate.
  Qed.
  Lemma four_single : ~ begins [c] rest -> ~ (at_line_start before /\ begins (repeat c 3 ++ [NL]) rest).
  Proof. intros H [_ (t & K)]. apply H. exists (c :: c :: NL :: t). exact K. Qed.
  Lemma four_double r : rest = c :: r -> ~ (at_line_start before /\ begins ([c; c] ++ ["010"]) r) ->
    ~ (at_line_start before /\ begins (repeat c 3 ++ [NL]) rest).
  Proof. intros E H [L (t & K)]. apply H. split; [exact L|]. exists t. rewrite E in K. now injection K. Qed.
  Lemma hit_strong : c = "*" -> formats "*" before rest -> ~ (at_line_start before /\ begins [" "] rest) -> hits (scan_delim sc c) TStrong [].
  Proof.
    intros Hc F H. assert (c <> NUL) as Hn by (rewrite Hc; discriminate).
    rewrite delim_inner, delim_inner_view; [|exact Hn | apply four_single; rewrite Hc; apply F].
    assert (lineb before && (hd NUL rest == SP) = false) as ->.
    { apply not_true_is_false. intros K. apply andb_true_iff in K as [K1 K2]. apply H. split; [now apply lineb_spec|].
      apply (hdv SP) in K2; [exact K2 | discriminate]. }
    assert (forall k, c == k = ("*" == k)) as Q by (intros k; now rewrite Hc).
    rewrite !Q. cbn [Ascii.eqb Bool.eqb]. apply hit_inline1; [exact Hn | now rewrite Hc | kp].
  Qed.
  Lemma hit_strong2 r : c = "*" -> rest = "*" :: r -> ~ (at_line_start before /\ begins (bs "**" ++ ["010"]) r) ->
    hits (scan_delim sc c) TUnconstrainedStrong [c].
  Proof.
    intros Hc E H. assert (c <> NUL) as Hn by (rewrite Hc; discriminate).
    rewrite delim_inner, delim_inner_view; [|exact Hn | apply (four_double r); rewrite Hc; assumption].
    assert (lineb before && (hd NUL rest == SP) = false) as -> by (rewrite E; apply andb_false_r).
    assert (forall k, c == k = ("*" == k)) as Q by (intros k; now rewrite Hc).
    rewrite !Q. cbn [Ascii.eqb Bool.eqb].
    apply (hit_inline2 TStrong TUnconstrainedStrong r); [exact Hn | rewrite Hc; discriminate | now rewrite Hc | kp].
  Qed.
  Lemma hit_emphasis : c = "_" -> formats "_" before rest -> hits (scan_delim sc c) TEmphasis [].
  Proof.
    intros Hc F. assert (c <> NUL) as Hn by (rewrite Hc; discriminate).
    rewrite delim_inner, delim_inner_view; [|exact Hn | apply four_single; rewrite Hc; apply F].
    assert (forall k, c == k = ("_" == k)) as Q by (intros k; now rewrite Hc).
    rewrite !Q. cbn [Ascii.eqb Bool.eqb]. apply hit_inline1; [exact Hn | now rewrite Hc | kp].
  Qed.
  Lemma hit_emphasis2 r : c = "_" -> rest = "_" :: r -> ~ (at_line_start before /\ begins (bs "__" ++ ["010"]) r) ->
    hits (scan_delim sc c) TUnconstrainedEmphasis [c].
  Proof.
    intros Hc E H. assert (c <> NUL) as Hn by (rewrite Hc; discriminate).
    rewrite delim_inner, delim_inner_view; [|exact Hn | apply (four_double r); rewrite Hc; assumption].
    assert (forall k, c == k = ("_" == k)) as Q by (intros k; now rewrite Hc).
    rewrite !Q. cbn [Ascii.eqb Bool.eqb].
    apply (hit_inline2 TEmphasis TUnconstrainedEmphasis r); [exact Hn | rewrite Hc; discriminate | now rewrite Hc | kp].
  Qed.
  Lemma hit_literal : c = "+" -> formats "+" before rest -> ~ (at_line_start before /\ begins ["010"] rest) ->
    ~ (ends [" "] before /\ begins ["010"] rest) -> hits (scan_delim sc c) TLiteral [].
  Proof.
    intros Hc F H H'. assert (c <> NUL) as Hn by (rewrite Hc; discriminate).
    rewrite delim_inner, delim_inner_view; [|exact Hn | apply four_single; rewrite Hc; apply F].
    assert (forall k, c == k = ("+" == k)) as Q by (intros k; now rewrite Hc).
    rewrite !Q. cbn [Ascii.eqb Bool.eqb].
    assert (lineb before && (hd NUL rest == NL) = false) as ->.
    { apply not_true_is_false. intros K. apply andb_true_iff in K as [K1 K2]. apply H. split; [now apply lineb_spec|].
      apply (hdv NL) in K2; [exact K2 | discriminate]. }
    assert ((prevc before == SP) && (hd NUL rest == NL) = false) as ->.
    { apply not_true_is_false. intros K. apply andb_true_iff in K as [K1 K2]. apply H'.
      apply (hdv NL) in K2; [|discriminate]. apply (previsv SP eq_refl) in K1; [auto | discriminate]. }
    apply hit_inline1; [exact Hn | now rewrite Hc | kp].
  Qed.
  Lemma hit_literal2 r : c = "+" -> rest = "+" :: r -> ~ (at_line_start before /\ begins (bs "++" ++ ["010"]) r) ->
    hits (scan_delim sc c) TUnconstrainedLiteral [c].
  Proof.
    intros Hc E H. assert (c <> NUL) as Hn by (rewrite Hc; discriminate).
    rewrite delim_inner, delim_inner_view; [|exact Hn | apply (four_double r); rewrite Hc; assumption].
    assert (forall k, c == k = ("+" == k)) as Q by (intros k; now rewrite Hc).
    rewrite !Q. cbn [Ascii.eqb Bool.eqb].
    assert (hd NUL rest == NL = false) as -> by (rewrite E; reflexivity). rewrite !andb_false_r.
    apply (hit_inline2 TLiteral TUnconstrainedLiteral r); [exact Hn | rewrite Hc; discriminate | now rewrite Hc | kp].
  Qed.
  Lemma hit_comment_tag r : c = "/" -> at_line_start before -> rest = "/" :: SP :: r ->
    (begins (bs "tag::") r \/ begins (bs "end::") r) -> hits (scan_delim sc c) TComment ["/"; SP].
  Proof.
    intros Hc L E H. assert (c <> NUL) as Hn by (rewrite Hc; discriminate).
    rewrite delim_inner, delim_inner_view; [|exact Hn | intros [_ (t & K)]; rewrite Hc, E in K; discriminate].
    assert (forall k, c == k = ("/" == k)) as Q by (intros k; now rewrite Hc).
    rewrite !Q, no_end_tag, (lineT L). cbn [Ascii.eqb Bool.eqb].
    assert (comment_tagb rest = true) as ->.
    { unfold comment_tagb. rewrite orb_true_iff, !starts_with_begins. rewrite E.
      destruct H as [(t & ->)|(t & ->)]; [left | right]; now exists t. }
    rewrite E. cbn. apply (hitA ["/"; SP] r); [exact E | asc | kp].
  Qed.
  Lemma hit_comment x r : c = "/" -> at_line_start before -> rest = "/" :: x ++ r -> ~ In "010" x -> line_ends r ->
    ~ begins (bs " tag::") x -> ~ begins (bs " end::") x -> ~ (x = bs "//" /\ r <> []) -> hits (scan_delim sc c) TComment ("/" :: x).
  Proof.
    intros Hc L E Hx Hr H1 H2 H3. assert (c <> NUL) as Hn by (rewrite Hc; discriminate).
    assert (forall p, begins p (x ++ r) -> ~ In NL p -> ~ begins p x -> False) as Pre.
    { intros p (z & Ez) Hp Hq. revert p z Ez Hp Hq. clear - Hx Hr. induction x as [|a x IH]; intros p z Ez Hp Hq.
      - destruct p as [|b p]; [apply Hq; now exists []|]. cbn in Ez. destruct Hr as [->|(r' & ->)]; [discriminate|].
        injection Ez as <- _. apply Hp. now left.
      - destruct p as [|b p]; [apply Hq; now exists (a :: x)|]. cbn in Ez. injection Ez as <- Ez.
        apply (IH ltac:(intros K; apply Hx; now right) p z Ez).
        + intros K. apply Hp. now right.
        + intros (q & ->). apply Hq. now exists q. }
    rewrite delim_inner, delim_inner_view; [|exact Hn|].
    - assert (forall k, c == k = ("/" == k)) as Q by (intros k; now rewrite Hc).
      rewrite !Q, no_end_tag, (lineT L). cbn [Ascii.eqb Bool.eqb].
      assert (comment_tagb rest = false) as ->.
      { unfold comment_tagb. apply orb_false_iff. rewrite !starts_with_not, E. split; intros (t & K); injection K as K.
        - apply (Pre (bs " tag::")); [now exists t | cbn; intuition discriminate | exact H1].
        - apply (Pre (bs " end::")); [now exists t | cbn; intuition discriminate | exact H2]. }
      assert (hd NUL rest == "/" = true) as -> by (rewrite E; reflexivity). cbn [andb].
      assert (span_len (fun c0 => negb (c0 == NL)) rest = List.length ("/" :: x)) as ->.
      { rewrite E. change ("/" :: x ++ r) with (("/" :: x) ++ r). apply until_exact; [reflexivity | discriminate | |].
        - intros [K|K]; [discriminate | auto].
        - destruct Hr as [->|(r' & ->)]; [now left | right; now exists r']. }
      apply (hit ("/" :: x) r); [exact E | now apply ends_char | kp].
    - intros [_ (t & K)]. rewrite Hc, E in K. cbn in K. injection K as K.
      apply H3. assert (x = bs "//" /\ r = NL :: t) as [-> ->]; [|split; [reflexivity | discriminate]].
      change ("/" :: "/" :: NL :: t) with (bs "//" ++ NL :: t) in K.
      apply (line_cut_unique NL) in K; [exact K | exact Hx | cbn; intuition discriminate | | right; eauto].
      destruct Hr as [->|(r' & ->)]; [now left | right; now exists r'].
  Qed.

  (** *** after a less-than sign *)
  Notation lt_view := (lt_view sc before c rest Hsrc Hst Hcur Hu H7).
  Lemma hit_page_break r : c = "<" -> rest = bs "<<" ++ r -> begins [NL] r -> hits (scan_lt sc c) TPageBreak (bs "<<").
  Proof.
    intros Hc E (t & Et). rewrite lt_view by exact Hc. rewrite no_end_tag.
    assert (starts_with (bs "<<" ++ [NL]) rest = true) as -> by (apply starts_with_begins; exists t; rewrite E, Et; reflexivity).
    apply (hitA (bs "<<") r); [exact E | asc | kp].
  Qed.
  Lemma hit_larrow x r : c = "<" -> rest = x :: r -> In x ["-"; "="] -> hits (scan_lt sc c) TCharRef [x].
  Proof.
    intros Hc E Hx. rewrite lt_view by exact Hc. rewrite no_end_tag, E.
    destruct Hx as [<-|[<-|[]]]; cbn; [apply (hitA ["-"] r) | apply (hitA ["="] r)]; try exact E; first [asc | kp].
  Qed.
  Lemma until_stop_exact ty ty' x stop2 tail r : List.length stop2 = 2 -> Forall ascii7 (stop2 ++ tail) ->
    rest = x ++ (stop2 ++ tail) ++ r -> Forall ascii7 x -> (forall u v, x ++ (stop2 ++ tail) = u ++ (stop2 ++ tail) ++ v -> v = []) ->
    becomes ty ty' (c :: x ++ stop2) -> hits (add_until_stop sc (stop2 ++ tail) ty) ty' (x ++ stop2).
  Proof.
    intros Hl Ha E Hx Hm K. unfold add_until_stop.
    rewrite (boundary_exact (sc_src sc) (stop2 ++ tail) r) with (x := x); auto.
    - cbn [bind]. replace (set_cur sc (sc_cur sc + List.length x + 2)) with (bump sc (List.length (x ++ stop2)))
        by (unfold bump; rewrite app_length, Hl; f_equal; lia).
      apply Forall_app in Ha as [Ha1 Ha2]. apply (hit_as _ (tail ++ r)); [rewrite E, <- !app_assoc; reflexivity | | exact K].
      apply (after_ascii (x ++ stop2)); [rewrite E, <- !app_assoc; reflexivity | now apply Forall_app].
    - rewrite app_length. lia.
    - apply (after_ascii (x ++ stop2 ++ tail)); [rewrite E, app_assoc; reflexivity | now apply Forall_app].
    - now rewrite Hrest.
    - rewrite Hlen, Hcur. lia.
    - apply at_char_boundary.
    - rewrite Hlen, E, app_length. lia.
  Qed.

  Lemma hit_xref lex r : c = "<" -> lex ++ r = c :: rest -> up_to (bs "<<") (bs ">>") lex -> ~ begins (bs "<<<" ++ ["010"]) lex ->
    forall ty', becomes TCrossReference ty' lex -> exists s, lex = c :: s /\ hits (scan_lt sc c) ty' s.
  Proof.
    intros Hc E (x & El & Hx & Hm) Hp ty' Hb.
    assert (rest = ("<" :: x) ++ (bs ">>" ++ []) ++ r) as E'.
    { rewrite El, Hc, <- app_assoc in E. cbn in E. injection E as E. rewrite <- E. cbn. now rewrite <- app_assoc. }
    exists (("<" :: x) ++ bs ">>"). split; [rewrite El, Hc; reflexivity|].
    rewrite lt_view by exact Hc. rewrite no_end_tag.
    assert (starts_with (bs "<<" ++ [NL]) rest = false) as ->.
    { apply starts_with_not. intros (t & K). rewrite E' in K. injection K as K.
      destruct x as [|a [|b x]]; cbn in K; try discriminate K. injection K as -> -> _. apply Hp. rewrite El. eexists. reflexivity. }
    assert (hd NUL rest = "<") as -> by (rewrite E'; reflexivity). cbn [memc existsb Ascii.eqb Bool.eqb orb].
    unfold add_cross_reference. change (bs ">>") with (bs ">>" ++ []) at 1.
    apply (until_stop_exact TCrossReference ty' ("<" :: x) (bs ">>") [] r); [reflexivity | asc | exact E' | | |].
    - constructor; [reflexivity | exact Hx].
    - intros [|y u] v K; [discriminate K|]. cbn in K. injection K as _ K. now apply (Hm u v).
    - rewrite El in Hb. rewrite Hc. exact Hb.
  Qed.
  Lemma hit_anchor lex r : c = "[" -> lex ++ r = c :: rest -> anchored before lex r ->
    forall ty', becomes TBlockAnchor ty' lex -> exists s, lex = c :: s /\ hits (scan_lbracket sc) ty' s.
  Proof.
    intros Hc E (L & (r' & ->) & x & El & Hx & Hm) ty' Hb.
    assert (lex = bs "[[" ++ x ++ bs "]]") as El' by (rewrite !app_assoc in El; apply app_inj_tail in El as [El _]; now rewrite <- app_assoc in El).
    assert (rest = ("[" :: x) ++ (bs "]]" ++ ["010"]) ++ r') as E'.
    { rewrite El', Hc, <- app_assoc in E. cbn in E. injection E as E. rewrite <- E. cbn. now rewrite <- app_assoc. }
    exists (("[" :: x) ++ bs "]]"). split; [rewrite El', Hc; reflexivity|].
    destruct (line_cut sc before c rest Hsrc Hst Hcur Hu H7) as (v & w & Ev & Hv & Hw). rewrite (lbracket_view sc before c rest Hsrc Hst Hcur Hu H7 v w Hc Ev Hv Hw).
    rewrite (lineT L). assert (hd NUL rest == "[" = true) as -> by (rewrite E'; reflexivity). cbn [andb].
    unfold add_block_anchor.
    apply (until_stop_exact TBlockAnchor ty' ("[" :: x) (bs "]]") [NL] r'); [reflexivity | asc | exact E' | | |].
    - constructor; [reflexivity | exact Hx].
    - intros [|y u] z K; [discriminate K|]. cbn in K. injection K as _ K. now apply (Hm u z).
    - rewrite El' in Hb. rewrite Hc. exact Hb.
  Qed.
  Lemma digit_hd d t : digits d -> In (hd NUL (d ++ ">" :: t)) ["-"; "="; "<"; SP] -> False.
  Proof.
    clear. intros Hd H. destruct d as [|a d]; cbn in H; [intuition discriminate|]. apply Forall_inv in Hd.
    repeat (destruct H as [<-|H]; [discriminate|]). exact H.
  Qed.
  Lemma lt_digits d t : c = "<" -> digits d -> rest = d ++ ">" :: t -> scan_lt sc c =
      let (is_item, sc1) := if lineb before then starts_code_callout_list_item sc else (false, sc) in
      if is_item then add_token (bump sc1 1) TCodeCalloutListItem true 0
      else let (is_callout, sc2) := starts_code_callout sc1 in
           if is_callout then add_token sc2 TCodeCallout true 0
           else add_text_until_next_markup sc2.
  Proof.
    intros Hc Hd E. rewrite lt_view by exact Hc. rewrite no_end_tag.
    pose proof (digit_hd d t Hd) as Hh. rewrite <- E in Hh.
    assert (starts_with (bs "<<" ++ [NL]) rest = false) as ->.
    { apply starts_with_not. intros (z & K). apply Hh. rewrite K. cbn. auto. }
    assert (memc (hd NUL rest) ["-"; "="] = false) as ->.
    { apply not_true_is_false. intros K. apply memc_In in K. apply Hh. cbn in K |- *. tauto. }
    assert (hd NUL rest == "<" = false) as ->; [|reflexivity].
    apply Ascii.eqb_neq. intros K. apply Hh. rewrite K. cbn. auto.
  Qed.
  Lemma callout_exact u d t : digits d -> rest = u ++ d ++ ">" :: t ->
    callout_loop (bump sc (List.length u)) = (true, bump sc (List.length (u ++ d ++ [">"]))).
  Proof.
    intros Hd E. rewrite (callout_at sc before c rest Hsrc Hst Hcur Hu H7 u d (">" :: t) E Hd).
    - cbn. f_equal. f_equal. rewrite !app_length. cbn. lia.
    - intros y z K. injection K as <- _. reflexivity.
  Qed.
  Lemma hit_callout_item d r : c = "<" -> at_line_start before -> digits d -> rest = (d ++ bs "> ") ++ r ->
    hits (scan_lt sc c) TCodeCalloutListItem (d ++ bs "> ").
  Proof.
    intros Hc L Hd E. rewrite <- app_assoc in E. rewrite (lt_digits d (SP :: r) Hc Hd E), (lineT L).
    unfold starts_code_callout_list_item.
    pose proof (callout_exact [] d (SP :: r) Hd E) as Q. cbn [List.length app] in Q. rewrite bump0 in Q. rewrite Q.
    assert (rest = (d ++ [">"]) ++ SP :: r) as E1 by (rewrite E, <- app_assoc; reflexivity).
    rewrite (peek_bump_any _ _ E1). cbn. rewrite bump_bump.
    replace (List.length (d ++ [">"]) + 1) with (List.length (d ++ bs "> ")) by (rewrite !app_length; cbn; lia).
    apply (hitA _ r); [rewrite E, <- app_assoc; reflexivity | apply Forall_app; split; [now apply (digits_ascii sc before c rest Hsrc Hst Hcur Hu H7) | asc] | kp].
  Qed.
  Lemma hit_callout d r : c = "<" -> ~ at_line_start before -> digits d -> rest = (d ++ bs ">") ++ r -> begins [NL] r ->
    hits (scan_lt sc c) TCodeCallout (d ++ bs ">").
  Proof.
    intros Hc L Hd E (t & Et). pose proof E as E1. rewrite <- app_assoc in E. rewrite (lt_digits d r Hc Hd E).
    apply lineb_false in L. rewrite L. unfold starts_code_callout.
    pose proof (callout_exact [] d r Hd E) as Q. cbn [List.length app] in Q. rewrite bump0 in Q. rewrite Q.
    change (bs ">") with [">"] in *. rewrite (peek_bump_any _ _ E1). rewrite Et. cbn.
    apply (hitA _ r); [exact E1 | apply Forall_app; split; [now apply (digits_ascii sc before c rest Hsrc Hst Hcur Hu H7) | asc] | kp].
  Qed.
  Lemma hit_callout2 d d' r : c = "<" -> at_line_start before -> digits d -> digits d' -> rest = (d ++ ">" :: d' ++ bs ">") ++ r -> begins [NL] r ->
    hits (scan_lt sc c) TCodeCallout (d ++ ">" :: d' ++ bs ">").
  Proof.
    intros Hc L Hd Hd' E (t & Et). pose proof E as E1. rewrite <- app_assoc in E. cbn in E. rewrite <- app_assoc in E.
    rewrite (lt_digits d _ Hc Hd E), (lineT L).
    unfold starts_code_callout_list_item.
    pose proof (callout_exact [] d _ Hd E) as Q. cbn [List.length app] in Q. rewrite bump0 in Q. rewrite Q.
    assert (rest = (d ++ [">"]) ++ d' ++ ">" :: r) as E2 by (rewrite E, <- app_assoc; reflexivity).
    rewrite (peek_bump_any _ _ E2).
    assert (match d' ++ ">" :: r with [] => NUL | y :: _ => peek_byte y end == SP = false) as K.
    { apply Ascii.eqb_neq. destruct d' as [|y d']; [discriminate|]. cbn. apply Forall_inv in Hd'.
      intros K. unfold peek_byte in K. destruct (is_cont y); [discriminate|]. subst y. discriminate. }
    cbn [negb andb] in *. rewrite K. unfold starts_code_callout.
    rewrite (callout_exact _ d' r Hd' E2).
    replace ((d ++ [">"]) ++ d' ++ [">"]) with (d ++ ">" :: d' ++ bs ">") by (rewrite <- app_assoc; reflexivity).
    rewrite (peek_bump_any _ _ E1), Et. cbn.
    apply (hitA _ r); [exact E1 | | kp].
    pose proof (digits_ascii sc before c rest Hsrc Hst Hcur Hu H7) as DA.
    apply Forall_app; split; [now apply DA|]. constructor; [reflexivity|]. apply Forall_app. split; [now apply DA | asc].
  Qed.

  (** *** brackets *)
  Lemma not_at_end u y r : rest = u ++ y :: r -> is_at_end (bump sc (List.length u)) = false.
  Proof.
    intros E. unfold is_at_end. cbn [bump set_cur sc_src sc_cur]. apply Nat.leb_gt. rewrite Hlen, Hcur, E, app_length. cbn. lia.
  Qed.
  Lemma hang_exact y v r : ascii7 y -> y <> NUL -> rest = v ++ y :: r -> ~ In y v ->
    advance_or_hang sc (fun x => negb (x == y)) = Ok (bump sc (List.length v)).
  Proof.
    intros H1 H2 E Hv. unfold advance_or_hang. rewrite advv.
    assert (span_len (fun x => negb (x == y)) rest = List.length v) as -> by (rewrite E; apply until_exact; auto; right; eauto).
    now rewrite (not_at_end v y r E).
  Qed.
  Lemma hit_until_bracket ty v r : rest = (v ++ ["]"]) ++ r -> ~ In "]" v -> keeps ty (c :: v ++ ["]"]) ->
    hits (add_until_bracket sc ty) ty (v ++ ["]"]).
  Proof.
    intros E Hv K. unfold add_until_bracket. rewrite (hang_exact "]" v r); [|reflexivity | discriminate | rewrite E, <- app_assoc; reflexivity | exact Hv].
    cbn [bind]. rewrite bump_bump. replace (List.length v + 1) with (List.length (v ++ ["]"])) by (rewrite app_length; reflexivity).
    apply (hitL _ _ r); [exact E | reflexivity | exact K].
  Qed.
  Lemma nl_cut : exists v r, rest = v ++ r /\ ~ In NL v /\ (r = [] \/ exists r', r = NL :: r').
  Proof. exact (line_cut sc before c rest Hsrc Hst Hcur Hu H7). Qed.
  Notation lbracket_view := (lbracket_view sc before c rest Hsrc Hst Hcur Hu H7).
  Lemma hit_bracket_line x r : c = "[" -> at_line_start before -> rest = (x ++ ["]"]) ++ r -> line_ends r -> ~ In "010" x ->
    hd NUL (x ++ ["]"]) <> "[" -> hits (scan_lbracket sc) (attribution_type (hd NUL (x ++ ["]"]))) (x ++ ["]"]).
  Proof.
    intros Hc L E Hr Hx Hh.
    assert (~ In NL (x ++ ["]"])) as Hv by (intros K; apply in_app_iff in K as [K|[K|[]]]; [auto | discriminate]).
    assert (hd NUL rest = hd NUL (x ++ ["]"])) as Eh by (rewrite E; now destruct x).
    rewrite (lbracket_view (x ++ ["]"]) r Hc E Hv); [|destruct Hr as [->|(t & ->)]; [now left | right; now exists t]].
    rewrite (lineT L), Eh. apply Ascii.eqb_neq in Hh. rewrite Hh. cbn [andb].
    assert (attr_end before (x ++ ["]"]) = true) as -> by (unfold attr_end; rewrite (lineT L), rev_app_distr; reflexivity).
    apply (hit _ r); [exact E | now apply ends_char|]. unfold attribution_type.
    repeat match goal with |- keeps (if ?b then _ else _) _ => destruct b; [kp|] end. kp.
  Qed.
  Lemma hit_style x r : c = "[" -> rest = (("." :: x) ++ ["]"]) ++ r -> ~ In "]" x ->
    ~ (at_line_start before /\ exists l r', c :: rest = l ++ "]" :: r' /\ ~ In "010" l /\ line_ends r') ->
    hits (scan_lbracket sc) TInlineStyle (("." :: x) ++ ["]"]).
  Proof.
    intros Hc E Hx H. destruct nl_cut as (v & w & Ev & Hv & Hw). rewrite (lbracket_view v w Hc Ev Hv Hw).
    assert (hd NUL rest = ".") as -> by (rewrite E; reflexivity). cbn [Ascii.eqb Bool.eqb]. rewrite andb_false_r.
    assert (attr_end before v = false) as ->.
    { unfold attr_end. apply not_true_is_false. intros K. apply andb_true_iff in K as [K1 K2]. apply lineb_spec in K1.
      destruct (destruct_last v) as [-> | (v' & y & Evy)]; [discriminate|]. rewrite Evy, rev_app_distr in K2. cbn in K2.
      apply Ascii.eqb_eq in K2. subst y. apply H. split; [exact K1|]. exists (c :: v'), w. split.
      - rewrite Ev, Evy, <- app_assoc. reflexivity.
      - split; [|destruct Hw as [->|(t & ->)]; [now left | right; now exists t]]. rewrite Hc. intros [K|K]; [discriminate|].
        apply Hv. rewrite Evy. apply in_or_app. now left. }
    apply (hit_until_bracket TInlineStyle ("." :: x) r); [exact E | intros [K|K]; [discriminate | auto] | kp].
  Qed.

  (** *** the short ones *)
  Notation closesv := (closesv sc before c rest Hsrc Hst Hcur Hu H7).
  Lemma hit_close_single r : c = "`" -> rest = "'" :: r -> word_ends r -> hits (scan_backquote sc c) TCloseSingleQuote ["'"].
  Proof.
    intros Hc E Hw. unfold scan_backquote. rewrite !closesv by (reflexivity || discriminate).
    assert (closesb "'" rest = true) as -> by (rewrite E; cbn; now apply wordb_spec). apply (hitA ["'"] r); [exact E | asc | kp].
  Qed.
  Lemma hit_close_double r : c = "`" -> rest = DQ :: r -> word_ends r -> hits (scan_backquote sc c) TCloseDoubleQuote [DQ].
  Proof.
    intros Hc E Hw. unfold scan_backquote. rewrite !closesv by (reflexivity || discriminate).
    assert (closesb "'" rest = false) as -> by (rewrite E; reflexivity).
    assert (closesb DQ rest = true) as -> by (rewrite E; cbn; now apply wordb_spec). apply (hitA [DQ] r); [exact E | asc | kp].
  Qed.
  Lemma hit_mono : c = "`" -> formats "`" before rest ->
    (forall q r, rest = q :: r -> q = "'" \/ q = "034" -> ~ word_ends r) -> hits (scan_backquote sc c) TMonospace [].
  Proof.
    intros Hc F H. unfold scan_backquote. rewrite !closesv by (reflexivity || discriminate).
    assert (forall q, q = "'" \/ q = "034" -> closesb q rest = false) as Q.
    { intros q Hq. apply not_true_is_false. intros K. apply (closesb_spec sc before c rest Hsrc Hst Hcur Hu H7) in K as (r & E & Hw). exact (H q r E Hq Hw). }
    rewrite (Q "'"), (Q DQ) by auto. apply hit_inline1; [rewrite Hc; discriminate | now rewrite Hc | kp].
  Qed.
  Lemma hit_mono2 r : c = "`" -> rest = "`" :: r -> hits (scan_backquote sc c) TUnconstrainedMonospace [c].
  Proof.
    intros Hc E. unfold scan_backquote. rewrite !closesv by (reflexivity || discriminate).
    assert (forall q, q <> "`" -> closesb q rest = false) as Q.
    { intros q Hq. rewrite E. unfold closesb. apply not_eq_sym, Ascii.eqb_neq in Hq. now rewrite Hq. }
    rewrite (Q "'"), (Q DQ) by discriminate.
    apply (hit_inline2 TMonospace TUnconstrainedMonospace r); [rewrite Hc; discriminate .. | now rewrite Hc | kp].
  Qed.
  Lemma hit_keyword kw ty lit r : kw <> [] -> kw <> [NUL] -> Forall ascii7 kw -> rest = kw ++ r -> keeps ty (c :: kw) ->
    hits (scan_keyword sc kw ty lit) ty kw.
  Proof.
    intros H1 H2 H3 E K. unfold scan_keyword. rewrite peeksv by assumption.
    assert (starts_with kw rest = true) as -> by (apply starts_with_begins; now exists r). now apply (hitA kw r).
  Qed.
  Lemma i_tests : beqb (peeks_ahead sc 8) (bs "nclude::") = starts_with (bs "nclude::") rest
    /\ beqb (peeks_ahead sc 6) (bs "mage::") = starts_with (bs "mage::") rest
    /\ beqb (peeks_ahead sc 5) (bs "mage:") = starts_with (bs "mage:") rest
    /\ beqb (peeks_ahead sc 6) (bs "mage: ") = starts_with (bs "mage: ") rest.
  Proof.
    repeat split; [exact (peeksv (bs "nclude::") ltac:(discriminate) ltac:(discriminate) ltac:(now repeat constructor))
    | exact (peeksv (bs "mage::") ltac:(discriminate) ltac:(discriminate) ltac:(now repeat constructor))
    | exact (peeksv (bs "mage:") ltac:(discriminate) ltac:(discriminate) ltac:(now repeat constructor))
    | exact (peeksv (bs "mage: ") ltac:(discriminate) ltac:(discriminate) ltac:(now repeat constructor))].
  Qed.
  Lemma hit_include x r : at_line_start before -> rest = (bs "nclude::" ++ x ++ ["]"]) ++ r -> ~ In "]" x ->
    hits (scan_i sc) TInclude (bs "nclude::" ++ x ++ ["]"]).
  Proof.
    intros L E Hx. unfold scan_i. destruct i_tests as (-> & -> & -> & ->). rewrite linev, (lineT L).
    assert (starts_with (bs "nclude::") rest = true) as -> by (apply starts_with_begins; exists ((x ++ ["]"]) ++ r); rewrite E, <- app_assoc; reflexivity).
    cbn [andb]. rewrite app_assoc. rewrite app_assoc in E. apply (hit_until_bracket _ _ r); [exact E | | kp].
    intros K. apply in_app_iff in K as [K|K]; [cbn in K; intuition discriminate | auto].
  Qed.
  Lemma hit_block_image x r : at_line_start before -> rest = (bs "mage::" ++ x ++ ["]"]) ++ r -> ~ In "]" x ->
    hits (scan_i sc) TBlockImageMacro (bs "mage::" ++ x ++ ["]"]).
  Proof.
    intros L E Hx. unfold scan_i. destruct i_tests as (-> & -> & -> & ->). rewrite linev, (lineT L).
    assert (starts_with (bs "nclude::") rest = false) as -> by (rewrite E; reflexivity).
    assert (starts_with (bs "mage::") rest = true) as -> by (apply starts_with_begins; exists ((x ++ ["]"]) ++ r); rewrite E, <- app_assoc; reflexivity).
    cbn [andb]. rewrite app_assoc. rewrite app_assoc in E. apply (hit_until_bracket _ _ r); [exact E | | kp].
    intros K. apply in_app_iff in K as [K|K]; [cbn in K; intuition discriminate | auto].
  Qed.
  Lemma hit_inline_image x r : rest = (bs "mage:" ++ x ++ ["]"]) ++ r -> ~ In "]" x ->
    ~ begins (bs "image::") ("i" :: bs "mage:" ++ x ++ ["]"]) -> ~ begins (bs "image: ") ("i" :: bs "mage:" ++ x ++ ["]"]) ->
    hits (scan_i sc) TInlineImageMacro (bs "mage:" ++ x ++ ["]"]).
  Proof.
    intros E Hx H1 H2. unfold scan_i. destruct i_tests as (-> & -> & -> & ->).
    assert (starts_with (bs "nclude::") rest = false) as -> by (rewrite E; reflexivity).
    assert (forall k, k <> "]" -> ~ begins (bs "image:" ++ [k]) ("i" :: bs "mage:" ++ x ++ ["]"]) -> starts_with (bs "mage:" ++ [k]) rest = false) as Q.
    { intros k Hk Hb. apply starts_with_not. intros (t & K). apply Hb. rewrite E in K. cbn in K. injection K as K.
      destruct x as [|y x]; cbn in K; [injection K as <- _; now elim Hk|]. injection K as -> _. now exists (x ++ ["]"]). }
    pose proof (Q ":" ltac:(discriminate) H1) as Q1. pose proof (Q " " ltac:(discriminate) H2) as Q2.
    change (bs "mage:" ++ [":"]) with (bs "mage::") in Q1. change (bs "mage:" ++ [" "]) with (bs "mage: ") in Q2.
    rewrite Q1, Q2, !andb_false_r.
    assert (starts_with (bs "mage:") rest = true) as -> by (apply starts_with_begins; exists ((x ++ ["]"]) ++ r); rewrite E, <- app_assoc; reflexivity).
    cbn [andb negb]. rewrite app_assoc. rewrite app_assoc in E. apply (hit_until_bracket _ _ r); [exact E | | kp].
    intros K. apply in_app_iff in K as [K|K]; [cbn in K; intuition discriminate | auto].
  Qed.
  Lemma hit_open_double r : rest = "`" :: r -> prev_in ["000"; " "; "010"] before ->
    hits (if memc (peek_back sc) [NUL; SP; NL] && (peek sc == "`") then add_token (bump sc 1) TOpenDoubleQuote true 0
          else add_text_until_next_markup sc) TOpenDoubleQuote ["`"].
  Proof.
    intros E Hp. rewrite backv, peekv. apply (quote_prevv sc before c rest Hsrc Hst Hcur Hu H7) in Hp. rewrite Hp, E. cbn.
    apply (hitA ["`"] r); [exact E | asc | kp].
  Qed.
  Lemma hit_parens kw r : In kw [bs "C"; bs "R"; bs "TM"] -> rest = (kw ++ [")"]) ++ r ->
    hits (if starts_text_symbol_replace_parens sc then handle_text_symbol_replacement_parens sc
              else add_text_until_next_markup sc) TCharRef (kw ++ [")"]).
  Proof.
    intros Hk E. rewrite (parensv sc before c rest Hsrc Hst Hcur Hu H7).
    assert (starts_with (bs "C)") rest || starts_with (bs "R)") rest || starts_with (bs "TM)") rest = true) as ->.
    { rewrite !orb_true_iff, !starts_with_begins, E. destruct Hk as [<-|[<-|[<-|[]]]]; [left; left | left; right | right]; now exists r. }
    unfold handle_text_symbol_replacement_parens. rewrite (hang_exact ")" kw r); [|reflexivity | discriminate | rewrite E, <- app_assoc; reflexivity |].
    - cbn [bind]. rewrite bump_bump. replace (List.length kw + 1) with (List.length (kw ++ [")"])) by (rewrite app_length; reflexivity).
      apply (hitL _ _ r); [exact E | reflexivity | kp].
    - destruct Hk as [<-|[<-|[<-|[]]]]; cbn; intuition discriminate.
  Qed.
  Lemma alnum_ascii x : is_ascii_alnum x = true -> ascii7 x.
  Proof.
    clear. intros H. unfold ascii7. destruct (N.ltb_spec (N_of_ascii x) 128) as [K|K]; [exact K|]. exfalso.
    destruct x as [a0 a1 a2 a3 a4 a5 a6 [|]]; [|destruct a0, a1, a2, a3, a4, a5, a6; cbn in K; lia].
    destruct a0, a1, a2, a3, a4, a5, a6; discriminate H.
  Qed.
  Lemma hit_amp n r : c = "&" -> Forall (fun x => is_ascii_alnum x = true) n -> rest = (n ++ [";"]) ++ r ->
    hits (scan_amp sc) TCharRef (n ++ [";"]).
  Proof.
    intros Hc Hn E. pose proof E as E1. rewrite <- app_assoc in E1. cbn in E1. unfold scan_amp, starts_charref. rewrite advv.
    assert (span_len is_alnum_latin1 rest = List.length n) as ->.
    { rewrite E1. apply span_exact; [|right; exists ";", r; auto]. eapply Forall_impl; [|exact Hn].
      intros x Hx. pose proof (alnum_ascii x Hx) as Ha. now rewrite peek_ascii, latin1_ascii. }
    rewrite (byte_at_bump n _ E1). cbn. rewrite bump_bump.
    replace (List.length n + 1) with (List.length (n ++ [";"])) by (rewrite app_length; reflexivity).
    apply (hitL _ _ r); [exact E | reflexivity | kp].
  Qed.
  Lemma hit_ref n r : c = "{" -> Forall (fun x => is_ascii_alnum x = true \/ x = "-") n -> rest = (n ++ ["}"]) ++ r ->
    hits (scan_lbrace sc) TAttributeReference (n ++ ["}"]).
  Proof.
    intros Hc Hn E. pose proof E as E1. rewrite <- app_assoc in E1. cbn in E1. unfold scan_lbrace, starts_attribute_reference. rewrite advv.
    assert (span_len is_attr_ref_char rest = List.length n) as ->.
    { rewrite E1. apply span_exact; [|right; exists "}", r; auto]. eapply Forall_impl; [|exact Hn].
      intros x [Hx| ->]; [|reflexivity]. pose proof (alnum_ascii x Hx) as Ha. unfold is_attr_ref_char.
      now rewrite peek_ascii, latin1_ascii, Hx. }
    rewrite (byte_at_bump n _ E1). cbn. rewrite bump_bump.
    replace (List.length n + 1) with (List.length (n ++ ["}"])) by (rewrite app_length; reflexivity).
    apply (hitL _ _ r); [exact E | reflexivity | kp].
  Qed.
  Lemma hit_attribute n v r : c = ":" -> at_line_start before -> rest = (n ++ ":" :: v) ++ r -> begins [NL] r ->
    (forall x, In x n -> ~ In x [" "; "010"; ":"]) -> ~ In "010" v -> hits (scan_colon sc) TAttribute (n ++ ":" :: v).
  Proof.
    intros Hc L E (t & Et) Hn Hv. pose proof E as E1. rewrite <- app_assoc in E1. cbn in E1.
    unfold scan_colon, starts_attr. rewrite linev, (lineT L), advv.
    assert (span_len (fun x => negb (memc x [SP; NL; ":"])) rest = List.length n) as ->.
    { rewrite E1. apply span_exact; [|right; exists ":"; eexists; split; [reflexivity | reflexivity]].
      apply Forall_forall. intros x Hx. apply negb_true_iff, not_true_is_false. intros K. apply peek_in in K; [|reflexivity].
      apply (Hn x Hx). exact K. }
    rewrite (byte_at_bump n _ E1). cbn [bind Ascii.eqb Bool.eqb].
    rewrite (hang_exact NL (n ++ ":" :: v) t); [|reflexivity | discriminate | rewrite E, Et; reflexivity|].
    - cbn [bind]. apply (hit _ r); [exact E | apply ends_char; right; now exists t | kp].
    - intros K. apply in_app_iff in K as [K|[K|K]]; [apply (Hn _ K); cbn; auto | discriminate | auto].
  Qed.
  Lemma hit_dlist y r : c = ":" -> ~ at_line_start before -> ~ ends [" "] before -> rest = [":"; y] ++ r -> y = SP \/ y = NL ->
    hits (scan_colon sc) TDescriptionListMarker [":"; y].
  Proof.
    intros Hc L Hs E Hy. unfold scan_colon. rewrite linev. apply lineb_false in L. rewrite L. cbn [bind].
    rewrite backv, (dlistv sc before c rest Hsrc Hst Hcur Hu H7). apply (previsv' SP eq_refl) in Hs; [|discriminate]. rewrite Hs, E.
    destruct Hy as [-> | ->]; cbn; (apply (hitA [":"; _] r); [exact E | asc | kp]).
  Qed.

  (** *** tables *)
  Notation bar_view := (bar_view sc before c rest Hsrc Hst Hcur Hu H7).
  Lemma hit_table r : at_line_start before -> rest = bs "===" ++ r -> next_in ["010"; "000"] r -> hits (scan_bar sc) TTable (bs "===").
  Proof.
    intros L E Hr. rewrite bar_view, (lineT L).
    assert (starts_with (bs "===") rest = true) as -> by (apply starts_with_begins; now exists r). cbn [andb]. cbn zeta.
    change (bump sc 3) with (bump sc (List.length (bs "==="))). rewrite (peek_bump_any _ r E).
    assert (memc (match r with [] => NUL | y :: _ => peek_byte y end) [NL; NUL] = true) as ->
      by (destruct Hr as [->|(y & r' & -> & [<-|[<-|[]]])]; reflexivity).
    apply (hitA _ r); [exact E | asc | kp].
  Qed.
  Lemma cell_exact : forall fuel u w r, rest = u ++ w ++ r -> Forall (fun x => ascii7 x /\ x <> "010" /\ x <> "000") w ->
    Forall ascii7 u -> ~ occurs (bs " |") (c :: u ++ w) ->
    next_in ["010"; "000"] r \/ (begins ["|"] r /\ ends [" "] (c :: u ++ w)) -> List.length w <= fuel ->
    hits (add_table_cell_fuel fuel (bump sc (List.length u))) TTableCell (u ++ w).
  Proof.
    induction fuel as [fuel IH] using lt_wf_ind. intros u w r E Hw Hua Ho Hr Hf.
    assert (forall v y t, w = v ++ y -> ~ In "|" v -> (y ++ r = [] \/ exists z, y ++ r = z :: t /\ memc (peek_byte z) [NL; NUL; "|"] = true) ->
      advance (bump sc (List.length u)) (fun x => negb (memc x [NL; NUL; "|"])) = bump sc (List.length (u ++ v))) as Adv.
    { intros v y t -> Hv Hy. apply (advance_bump sc before c rest Hsrc Hst Hcur Hu H7 u (v ++ y ++ r) _ v (y ++ r)); [rewrite E, <- app_assoc; reflexivity | reflexivity|].
      apply span_exact.
      - apply Forall_app in Hw as [Hw _]. rewrite Forall_forall in *. intros x Hx. destruct (Hw x Hx) as (A1 & A2 & A3).
        rewrite peek_ascii by exact A1. apply negb_true_iff, not_true_is_false. intros K. apply memc_In in K as [K|[K|[K|[]]]]; subst x; auto.
      - destruct Hy as [Hy|(z & Hy & Kz)]; [now left | right]. exists z, t. split; [exact Hy|]. now rewrite Kz. }
    destruct (cell_word w) as [(v & w' & Ew & Hv)|Hn].
    - destruct fuel as [|fuel]; [rewrite Ew, app_length in Hf; cbn in Hf; lia|]. cbn [add_table_cell_fuel]. cbn zeta.
      rewrite (Adv v ("|" :: w') (w' ++ r) Ew Hv) by (right; exists "|"; split; reflexivity).
      assert (rest = (u ++ v) ++ "|" :: w' ++ r) as E1 by (rewrite E, Ew, <- !app_assoc; reflexivity).
      rewrite (peek_bump_any _ _ E1). change (sc_src (bump sc (List.length u))) with (sc_src sc).
      change (peek_byte "|") with "|". rewrite Ascii.eqb_refl. cbn [andb].
      match goal with |- hits (if negb ?b then _ else _) _ _ => destruct b eqn:Eb end.
      + exfalso. apply (prev_byte sc before c rest Hsrc Hst Hcur Hu H7 (u ++ v) _ SP E1) in Eb as (a & Ea). apply Ho.
        exists a, w'. rewrite Ew. rewrite app_comm_cons, app_assoc, <- app_comm_cons. rewrite Ea, <- app_assoc. reflexivity.
      + cbn [negb]. rewrite bump_bump. replace (List.length (u ++ v) + 1) with (List.length ((u ++ v) ++ ["|"])) by (rewrite (app_length (u ++ v)); reflexivity).
        assert (((u ++ v) ++ ["|"]) ++ w' = u ++ w) as E2 by (rewrite Ew, <- !app_assoc; reflexivity).
        rewrite <- E2. rewrite Ew in Hw. apply Forall_app in Hw as [Hw1 Hw2]. apply Forall_cons_iff in Hw2 as [_ Hw2].
        apply (IH fuel ltac:(lia) _ w' r).
        * rewrite E1, <- !app_assoc. reflexivity.
        * exact Hw2.
        * apply Forall_app. split; [apply Forall_app; split; [exact Hua|] | asc]. eapply Forall_impl; [|exact Hw1]. now intros x (A & _).
        * now rewrite E2.
        * now rewrite E2.
        * rewrite Ew, app_length in Hf. cbn in Hf. lia.
    - assert (Forall ascii7 (u ++ w)) as Ha.
      { apply Forall_app. split; [exact Hua|]. eapply Forall_impl; [|exact Hw]. now intros x (A & _). }
      assert (rest = (u ++ w) ++ r) as E1 by (rewrite E, app_assoc; reflexivity).
      assert (r = [] \/ exists z t, r = z :: t /\ In z [NL; NUL; "|"]) as Hz.
      { destruct Hr as [[->|(z & t & -> & K)]|[(t & ->) _]]; [now left | right; exists z, t | right; exists "|", t];
          (split; [reflexivity|]); cbn in *; tauto. }
      assert (exists t, [] ++ r = [] \/ exists z, [] ++ r = z :: t /\ memc (peek_byte z) [NL; NUL; "|"] = true) as (t & Ht).
      { destruct Hz as [->|(z & t & -> & K)]; [exists []; now left | exists t; right; exists z]. split; [reflexivity|].
        destruct K as [<-|[<-|[<-|[]]]]; reflexivity. }
      assert (add_table_cell_fuel fuel (bump sc (List.length u)) = add_token (bump sc (List.length (u ++ w))) TTableCell true 0) as ->.
      { destruct fuel; cbn [add_table_cell_fuel]; cbn zeta; rewrite (Adv w [] t (eq_sym (app_nil_r w)) Hn Ht), (peek_bump_any _ _ E1);
        change (sc_src (bump sc (List.length u))) with (sc_src sc);
        (match goal with |- (if ?b then _ else _) = _ => assert (b = false) as ->; [|reflexivity] end);
        (destruct Hr as [[->|(z & r' & -> & [<-|[<-|[]]])]|[(r' & ->) He]]; [reflexivity .. |]);
        apply (prev_byte sc before c rest Hsrc Hst Hcur Hu H7 (u ++ w) _ SP E1) in He; rewrite He; apply andb_false_r. }
      apply (hitA _ r); [exact E1 | exact Ha | kp].
  Qed.
  Lemma hit_cell w r : c = "|" -> (at_line_start before \/ ends [" "] before) ->
    ~ (at_line_start before /\ begins (bs "|===") (c :: rest)) -> rest = w ++ r ->
    Forall (fun x => ascii7 x /\ x <> "010" /\ x <> "000") w -> ~ occurs (bs " |") (c :: w) ->
    next_in ["010"; "000"] r \/ (begins ["|"] r /\ ends [" "] (c :: w)) -> hits (scan_bar sc) TTableCell w.
  Proof.
    intros Hc Hb Hn E Hw Ho Hr. rewrite bar_view.
    assert (lineb before && starts_with (bs "===") rest = false) as ->.
    { apply not_true_is_false. intros K. apply andb_true_iff in K as [K1 K2]. apply lineb_spec in K1.
      apply starts_with_begins in K2 as (t & K2). apply Hn. split; [exact K1|]. exists t. rewrite K2, Hc. reflexivity. }
    assert (lineb before || (prevc before == SP) = true) as ->.
    { apply orb_true_iff. destruct Hb as [Hb|Hb]; [left; now apply lineb_spec | right; apply (previsv SP eq_refl); [discriminate | exact Hb]]. }
    unfold add_table_cell. rewrite <- bump0 at 2. apply (cell_exact _ [] w r); auto. rewrite Hlen, E, app_length. lia.
  Qed.

  (** *** links *)
  Lemma link_exact : forall fuel u w r, rest = u ++ w ++ r -> Forall link_char w -> Forall ascii7 u ->
    (begins ["["] r \/ SpecLex.link_ends r /\ at_char r) ->
    (forall a p, w = a ++ [p] -> In p inside_links -> exists y t, r = y :: t /\ ~ outside y) -> List.length w <= fuel ->
    add_link_fuel fuel (bump sc (List.length u))
    = if starts_with ["["] r then add_token (bump sc (List.length ((u ++ w) ++ ["["]))) TLinkMacro true 0
      else add_token (bump sc (List.length (u ++ w))) THyperlink true 0.
  Proof.
    induction fuel as [fuel IH] using lt_wf_ind. intros u w r E Hw Hua Hr Hg Hf.
    assert (forall v y, w = v ++ y -> Forall (fun b => link_go (peek_byte b) = true) v ->
      (y ++ r = [] \/ exists z t, y ++ r = z :: t /\ link_go (peek_byte z) = false) ->
      advance (bump sc (List.length u)) link_go = bump sc (List.length (u ++ v))) as Adv.
    { intros v y -> Hv Hy. apply (advance_bump sc before c rest Hsrc Hst Hcur Hu H7 u (v ++ y ++ r) _ v (y ++ r)); [rewrite E, <- app_assoc; reflexivity | reflexivity|].
      now apply span_exact. }
    unfold link_go in Adv at 3.
    destruct (link_word w Hw) as [Hn|(v & p & w' & Ew & Hv & Hp)].
    - assert (rest = (u ++ w) ++ r) as E1 by (rewrite E, app_assoc; reflexivity).
      assert ([] ++ r = [] \/ exists z t, [] ++ r = z :: t /\ link_go (peek_byte z) = false) as Hz.
      { destruct Hr as [(t & ->)|[[->|(y & t & -> & Hy)] Ha]]; [right; exists "[", t; auto | now left | right; exists y, t].
        split; [reflexivity|]. destruct Ha as [K|(z & t' & K & Hz)]; [discriminate|]. injection K as <- <-.
        unfold peek_byte. rewrite Hz. unfold link_go. destruct Hy as [-> | [-> | [(Hy & _)|(Hy & _)]]]; [reflexivity | reflexivity | |].
        - apply punct_spec in Hy. rewrite Hy. apply andb_false_r.
        - apply inside_punct in Hy as [-> _]. apply andb_false_r. }
      specialize (Adv w [] (eq_sym (app_nil_r w)) Hn Hz).
      assert (add_link_fuel fuel (bump sc (List.length u)) =
        let sc1 := bump sc (List.length (u ++ w)) in
        let c := peek sc1 in
        if Ascii.eqb c "[" then add_token (bump sc1 1) TLinkMacro true 0
        else if memc c [NUL; SP] then add_token sc1 THyperlink true 0
        else if memc c hyperlink_allowed_punctuation then
          if memc (last (peeks_ahead sc1 2) "A") [NUL; SP] then add_token sc1 THyperlink true 0
          else match fuel with O => Hang | S f => add_link_fuel f (bump sc1 1) end
        else add_token sc1 THyperlink true 0) as -> by (destruct fuel; cbn [add_link_fuel]; rewrite Adv; reflexivity).
      cbn zeta. rewrite (peek_bump_any _ _ E1).
      destruct Hr as [(t & ->)|[Hr Ha]].
      + cbn. rewrite bump_bump. f_equal. f_equal. rewrite (app_length (u ++ w)). reflexivity.
      + destruct Hr as [->|(y & t & -> & Hy)]; [reflexivity|]. destruct Ha as [K|(z & t' & K & Hzz)]; [discriminate|]. injection K as <- <-.
        unfold peek_byte. rewrite Hzz. cbn [starts_with].
        destruct Hy as [-> | [-> | [(Hy & Hb & Hi)|(Hy & Ho)]]]; [reflexivity | reflexivity | |].
        * pose proof Hb as Hb'. apply Ascii.eqb_neq in Hb'. rewrite Hb'. rewrite Ascii.eqb_sym, Hb'. cbn [andb].
          assert (memc y [NUL; SP] = false) as ->.
          { apply not_true_is_false. intros K. apply punct_spec in Hy. apply memc_In in K as [K|[K|[]]]; subst y; discriminate. }
          assert (memc y hyperlink_allowed_punctuation = false) as -> by (apply not_true_is_false; intros K; apply allowed_in in K; auto). reflexivity.
        * destruct (inside_punct y Hy) as (Py & Ay & By). pose proof By as Hb'. apply Ascii.eqb_neq in Hb'. rewrite Hb'. rewrite Ascii.eqb_sym, Hb'. cbn [andb].
          assert (memc y [NUL; SP] = false) as ->.
          { apply not_true_is_false. intros K. apply memc_In in K as [K|[K|[]]]; subst y; discriminate. }
          assert (memc y hyperlink_allowed_punctuation = true) as -> by now apply allowed_in.
          rewrite (peeks_two_at sc before c rest Hsrc Hst Hcur Hu H7 _ y t E1 Ay).
          match goal with |- (if ?b then _ else _) = _ => assert (b = true) as ->; [|reflexivity] end.
          destruct Ho as [->|(z & t' & -> & [-> | [-> | Hz']])]; [reflexivity | reflexivity | reflexivity|]. apply high_spec in Hz'. now rewrite Hz'.
    - destruct fuel as [|fuel]; [rewrite Ew, app_length in Hf; cbn in Hf; lia|]. cbn [add_link_fuel]. cbn zeta.
      destruct (inside_punct p Hp) as (Pp & Ap & Bp).
      rewrite (Adv v (p :: w') Ew Hv) by (right; exists p, (w' ++ r); split; [reflexivity|]; apply link_stays; [unfold link_go; rewrite Pp; apply andb_false_r | exact Ap]).
      assert (rest = (u ++ v) ++ p :: w' ++ r) as E1 by (rewrite E, Ew, <- !app_assoc; reflexivity).
      rewrite (peek_bump_any _ _ E1), peek_ascii by exact Ap. apply Ascii.eqb_neq in Bp. rewrite Bp.
      assert (memc p [NUL; SP] = false) as ->.
      { apply not_true_is_false. intros K. apply memc_In in K as [K|[K|[]]]; subst p; discriminate. }
      assert (memc p hyperlink_allowed_punctuation = true) as -> by now apply allowed_in.
      rewrite (peeks_two_at sc before c rest Hsrc Hst Hcur Hu H7 _ p _ E1 Ap).
      rewrite Ew in Hw. apply Forall_app in Hw as [Hw1 Hw2]. apply Forall_cons_iff in Hw2 as [_ Hw2].
      assert (exists y t, w' ++ r = y :: t /\ ~ outside y) as (y & t & Ey & Hy).
      { destruct w' as [|y w']; [apply (Hg v p Ew Hp)|]. exists y, (w' ++ r). split; [reflexivity|].
        apply Forall_inv in Hw2 as (A1 & A2 & A3 & _). intros [K|[K|K]]; auto. }
      rewrite Ey. assert (high y = false) as Hhy.
      { apply not_true_is_false. intros K. apply high_spec in K. apply Hy. unfold outside. auto. }
      rewrite Hhy. cbn [last].
      assert (memc y [NUL; SP] = false) as ->.
      { apply not_true_is_false. intros K. apply Hy. unfold outside. apply memc_In in K as [K|[K|[]]]; auto. }
      rewrite bump_bump. replace (List.length (u ++ v) + 1) with (List.length ((u ++ v) ++ [p])) by (rewrite (app_length (u ++ v)); reflexivity).
      assert (((u ++ v) ++ [p]) ++ w' = u ++ w) as E2 by (rewrite Ew, <- !app_assoc; reflexivity).
      rewrite <- E2. apply (IH fuel ltac:(lia) _ w' r).
      + rewrite E1, <- !app_assoc. reflexivity.
      + exact Hw2.
      + apply Forall_app. split; [apply Forall_app; split; [exact Hua|] | asc]. eapply Forall_impl; [|exact Hw1]. now intros x (A & _).
      + exact Hr.
      + intros a q Ea Hq. apply (Hg (v ++ p :: a) q); [rewrite Ew, Ea, <- app_assoc; reflexivity | exact Hq].
      + rewrite Ew, app_length in Hf. cbn in Hf. lia.
  Qed.
  Lemma hit_h : c = "h" -> begins (bs "ttp") rest ->
    (if beqb (peeks_ahead sc 3) (bs "ttp") then add_link sc else add_text_until_next_markup sc) = add_link sc.
  Proof.
    intros Hc (t & Et). assert (beqb (peeks_ahead sc 3) (bs "ttp") = starts_with (bs "ttp") rest) as ->
      by (apply (peeksv (bs "ttp")); try discriminate; now repeat constructor).
    assert (starts_with (bs "ttp") rest = true) as -> by (apply starts_with_begins; now exists t). reflexivity.
  Qed.
  Lemma link_ascii w : Forall link_char w -> Forall ascii7 w.
  Proof. clear. intros H. eapply Forall_impl; [|exact H]. now intros x (A & _). Qed.
  Lemma hit_link_macro w r : rest = (w ++ ["["]) ++ r -> Forall link_char w -> hits (add_link sc) TLinkMacro (w ++ ["["]).
  Proof.
    intros E Hw. pose proof E as E1. rewrite <- app_assoc in E1. unfold add_link. rewrite <- bump0 at 2.
    rewrite (link_exact _ [] w ("[" :: r)); [|exact E1 | exact Hw | constructor | left; now exists r | |].
    - cbn [starts_with Ascii.eqb Bool.eqb andb app]. apply (hitL _ _ r); [exact E | reflexivity | kp].
    - intros a p _ _. exists "[", r. split; [reflexivity|]. intros [K|[K|K]]; [discriminate .. |]. apply K. reflexivity.
    - rewrite Hlen, E1, app_length. lia.
  Qed.
  Lemma hit_hyperlink w r : rest = w ++ r -> Forall link_char w -> SpecLex.link_ends r ->
    (forall a p, w = a ++ [p] -> In p inside_links -> exists y t, r = y :: t /\ ~ outside y) ->
    hits (add_link sc) THyperlink w.
  Proof.
    intros E Hw Hr Hg. pose proof (after_ascii w r E (link_ascii w Hw)) as Ha. unfold add_link. rewrite <- bump0 at 2.
    rewrite (link_exact _ [] w r); [|exact E | exact Hw | constructor | right; auto | exact Hg |].
    - assert (starts_with ["["] r = false) as ->.
      { apply starts_with_not. intros (t & ->). destruct Hr as [K|(y & t' & K & Hy)]; [discriminate|]. injection K as <- <-.
        destruct Hy as [Hy|[Hy|[(_ & Hy & _)|(Hy & _)]]]; [discriminate .. | now elim Hy | cbn in Hy; intuition discriminate]. }
      apply (hit w r); [exact E | exact Ha | kp].
    - rewrite Hlen, E, app_length. lia.
  Qed.
End Complete.

(** ** All token types *)
Lemma lexed_head ty before lex r : lexed ty before lex r -> markup ty -> exists c s, lex = c :: s /\ ascii7 c.
Proof.
  intros H M.
  assert (forall p, 0 < List.length p -> Forall ascii7 p -> begins p lex -> exists c s, lex = c :: s /\ ascii7 c) as B.
  { intros [|c p] Hp Ha (t & ->); [cbn in Hp; lia|]. exists c, (p ++ t). split; [reflexivity | now apply Forall_inv in Ha]. }
  assert (forall d, delimiter_line d before lex r -> ascii7 d -> exists c s, lex = c :: s /\ ascii7 c) as D.
  { intros d (_ & _ & ->) Hd. exists d, (repeat d 3). auto. }
  assert (forall n, heading (S n) before lex -> exists c s, lex = c :: s /\ ascii7 c) as Hd.
  { intros n (_ & x & -> & _). exists "=". eexists. split; reflexivity. }
  assert (forall w k, admonition w k before lex r -> 0 < List.length w -> Forall ascii7 w -> exists c s, lex = c :: s /\ ascii7 c) as Ad.
  { intros w k [->|(_ & _ & x & -> & _)] Hw Ha; [apply (B w Hw Ha); exists []; now rewrite app_nil_r|].
    eexists. eexists. split; [reflexivity | reflexivity]. }
  destruct ty; cbn [lexed] in H;
    try (exfalso; apply M; cbn; tauto); try contradiction;
    try (eapply D; [exact H | reflexivity]); try (eapply Hd; exact H);
    try (eapply Ad; [exact H | cbn; lia | now repeat constructor]).
  all: repeat match goal with H : _ /\ _ |- _ => destruct H | H : exists _, _ |- _ => destruct H | H : _ \/ _ |- _ => destruct H
    | H : In _ _ |- _ => destruct H | H : bracketed _ _ |- _ => destruct H | H : up_to _ _ _ |- _ => destruct H
    | H : begins _ lex |- _ => destruct H | H : begins _ _ |- _ => destruct H
    | H : anchored _ _ _ |- _ => destruct H | H : bracket_line _ _ _ _ |- _ => destruct H end.
  all: try contradiction; try discriminate.
  all: subst; try (eexists; eexists; split; [reflexivity | reflexivity]).
  match goal with H : lex ++ _ = _ |- _ => rewrite !app_assoc in H; apply app_inj_tail in H as [-> _] end.
  eexists. eexists. split; [reflexivity | reflexivity].
Qed.

Section Main.
  Variable sc : scanner.
  Variable before : bytes.
  Variable c : ascii.
  Variable rest : bytes.
  Hypothesis Hsrc : sc_src sc = before ++ c :: rest.
  Hypothesis Hst : sc_start sc = List.length before.
  Hypothesis Hcur : sc_cur sc = S (List.length before).
  Hypothesis Hu : utf8 (sc_src sc).
  Hypothesis H7 : ascii7 c.
  Hypothesis Htag : sc_tagend sc = false.
  #[local] Set Default Proof Using "All".

  (** [scan_token] with the character already read *)
  Definition scan_char (c : ascii) : result (scanner * token) :=
    if c == NL then add_token sc TNewLineChar false 1
    else if c == "'" then scan_apostrophe sc c
    else if c == "<" then scan_lt sc c
    else if memc c ["+"; "*"; "-"; "_"; "/"; "="; "."] then scan_delim sc c
    else if c == "[" then scan_lbracket sc
    else if c == "`" then scan_backquote sc c
    else if c == "^" then add_token sc TSuperscript false 0
    else if c == "~" then add_token sc TSubscript false 0
    else if c == "#" then
      if starts_end_tag_line sc then add_tag sc
      else handle_inline_formatting sc c TMark TUnconstrainedMark
    else if c == ":" then scan_colon sc
    else if c == "(" then
      if starts_text_symbol_replace_parens sc then handle_text_symbol_replacement_parens sc
      else add_text_until_next_markup sc
    else if c == "f" then scan_keyword sc (bs "ootnote:[") TFootnoteMacro false
    else if c == "p" then scan_keyword sc (bs "ass:[") TPassthroughInlineMacro false
    else if c == "h" then
      if beqb (peeks_ahead sc 3) (bs "ttp") then add_link sc
      else add_text_until_next_markup sc
    else if c == "i" then scan_i sc
    else if c == "t" then
      if beqb (peeks_ahead sc 4) (bs "ag::") then add_tag sc
      else add_text_until_next_markup sc
    else if c == "e" then
      if beqb (peeks_ahead sc 4) (bs "nd::") then add_tag sc
      else add_text_until_next_markup sc
    else if c == "N" then scan_keyword sc (bs "OTE: ") TNotePara true
    else if c == "T" then scan_keyword sc (bs "IP: ") TTipPara true
    else if c == "I" then scan_keyword sc (bs "MPORTANT: ") TImportantPara true
    else if c == "C" then scan_keyword sc (bs "AUTION: ") TCautionPara true
    else if c == "W" then scan_keyword sc (bs "ARNING: ") TWarningPara true
    else if c == "]" then add_token sc TInlineMacroClose true 0
    else if c == "&" then scan_amp sc
    else if c == "{" then scan_lbrace sc
    else if c == "|" then scan_bar sc
    else if c == DQ then
      if memc (peek_back sc) [NUL; SP; NL] && (peek sc == "`")
      then add_token (bump sc 1) TOpenDoubleQuote true 0
      else add_text_until_next_markup sc
    else if (c == SP) || (c == "%") then
      if starts_end_tag_line sc then add_tag sc
      else add_text_until_next_markup sc
    else add_text_until_next_markup sc.
  Definition meets (ty : token_type) (lex : bytes) : Prop := exists s, lex = c :: s /\ hits c (scan_char c) ty s.
  Ltac kp := let K := fresh in intros [K|K]; discriminate K.
  Notation lem L := (L sc before c rest Hsrc Hst Hcur Hu H7 Htag) (only parsing).
  Lemma headed y s r : (y :: s) ++ r = c :: rest -> c = y /\ rest = s ++ r.
  Proof. clear. intros E. cbn in E. now injection E. Qed.
  Lemma branch y m ty s lex : c = y -> lex = y :: s -> scan_char y = m -> hits c m ty s -> meets ty lex.
  Proof. intros Hc El E H. exists s. split; [now rewrite Hc|]. rewrite Hc at 2. now rewrite E. Qed.
  Lemma branch1 y (m : ascii -> result (scanner * token)) ty s lex : c = y -> lex = y :: s -> scan_char y = m y -> hits c (m c) ty s -> meets ty lex.
  Proof. intros Hc El E H. apply (branch y (m y) ty s lex Hc El E). now rewrite Hc in H at 2. Qed.
  Lemma m_TNewLineChar lex r : lex ++ r = c :: rest -> lexed TNewLineChar before lex r -> meets TNewLineChar lex.
  Proof.
    intros E H. cbn [lexed] in H.
    subst lex. destruct (headed _ _ _ E) as [Hc Er].
    apply (branch "010" (add_token sc TNewLineChar false 1) _ ([]) _ Hc eq_refl); [reflexivity|]. apply (lem hit0). kp.
  Qed.
  Lemma m_TLineContinuation lex r : lex ++ r = c :: rest -> lexed TLineContinuation before lex r -> meets TLineContinuation lex.
  Proof.
    intros E H. cbn [lexed] in H.
    destruct H as (-> & H1 & H2). destruct (headed _ _ _ E) as [Hc Er].
    apply (branch1 "+" (scan_delim sc) _ ([]) _ Hc eq_refl); [reflexivity|]. apply (lem hit_line_continuation); auto. now rewrite Er.
  Qed.
  Lemma m_TThematicBreak lex r : lex ++ r = c :: rest -> lexed TThematicBreak before lex r -> meets TThematicBreak lex.
  Proof.
    intros E H. cbn [lexed] in H.
    destruct H as (-> & H1). destruct (headed _ _ _ E) as [Hc Er].
    apply (branch1 "'" (scan_apostrophe sc) _ (bs "''") _ Hc eq_refl); [reflexivity|]. now apply (lem hit_break r).
  Qed.
  Lemma m_TPageBreak lex r : lex ++ r = c :: rest -> lexed TPageBreak before lex r -> meets TPageBreak lex.
  Proof.
    intros E H. cbn [lexed] in H.
    destruct H as (-> & H1). destruct (headed _ _ _ E) as [Hc Er].
    apply (branch1 "<" (scan_lt sc) _ (bs "<<") _ Hc eq_refl); [reflexivity|]. now apply (lem hit_page_break r).
  Qed.
  Lemma m_TComment lex r : lex ++ r = c :: rest -> lexed TComment before lex r -> meets TComment lex.
  Proof.
    intros E H. cbn [lexed] in H.
    destruct H as [L [[-> H]|(x & -> & Hx & Hr & H1 & H2 & H3)]]; destruct (headed _ _ _ E) as [Hc Er].
    - apply (branch1 "/" (scan_delim sc) _ (bs "/ ") _ Hc eq_refl); [reflexivity|]. now apply (lem hit_comment_tag r).
    - apply (branch1 "/" (scan_delim sc) _ ("/" :: x) _ Hc eq_refl); [reflexivity|]. now apply (lem hit_comment x r).
  Qed.
  Lemma m_TPassthroughBlock lex r : lex ++ r = c :: rest -> lexed TPassthroughBlock before lex r -> meets TPassthroughBlock lex.
  Proof.
    intros E H. cbn [lexed] in H.
    destruct H as (L & B & ->). destruct (headed _ _ _ E) as [Hc Er].
    apply (branch1 "+" (scan_delim sc) _ (repeat c 3) _ Hc); [now rewrite Hc | reflexivity|]. 
    apply (lem hit_delim TPassthroughBlock r); auto; rewrite Hc; [discriminate | reflexivity | kp | exact Er].
  Qed.
  Lemma m_TSidebarBlock lex r : lex ++ r = c :: rest -> lexed TSidebarBlock before lex r -> meets TSidebarBlock lex.
  Proof.
    intros E H. cbn [lexed] in H.
    destruct H as (L & B & ->). destruct (headed _ _ _ E) as [Hc Er].
    apply (branch1 "*" (scan_delim sc) _ (repeat c 3) _ Hc); [now rewrite Hc | reflexivity|]. 
    apply (lem hit_delim TSidebarBlock r); auto; rewrite Hc; [discriminate | reflexivity | kp | exact Er].
  Qed.
  Lemma m_TSourceBlock lex r : lex ++ r = c :: rest -> lexed TSourceBlock before lex r -> meets TSourceBlock lex.
  Proof.
    intros E H. cbn [lexed] in H.
    destruct H as (L & B & ->). destruct (headed _ _ _ E) as [Hc Er].
    apply (branch1 "-" (scan_delim sc) _ (repeat c 3) _ Hc); [now rewrite Hc | reflexivity|]. 
    apply (lem hit_delim TSourceBlock r); auto; rewrite Hc; [discriminate | reflexivity | kp | exact Er].
  Qed.
  Lemma m_TQuoteVerseBlock lex r : lex ++ r = c :: rest -> lexed TQuoteVerseBlock before lex r -> meets TQuoteVerseBlock lex.
  Proof.
    intros E H. cbn [lexed] in H.
    destruct H as (L & B & ->). destruct (headed _ _ _ E) as [Hc Er].
    apply (branch1 "_" (scan_delim sc) _ (repeat c 3) _ Hc); [now rewrite Hc | reflexivity|]. 
    apply (lem hit_delim TQuoteVerseBlock r); auto; rewrite Hc; [discriminate | reflexivity | kp | exact Er].
  Qed.
  Lemma m_TCommentBlock lex r : lex ++ r = c :: rest -> lexed TCommentBlock before lex r -> meets TCommentBlock lex.
  Proof.
    intros E H. cbn [lexed] in H.
    destruct H as (L & B & ->). destruct (headed _ _ _ E) as [Hc Er].
    apply (branch1 "/" (scan_delim sc) _ (repeat c 3) _ Hc); [now rewrite Hc | reflexivity|]. 
    apply (lem hit_delim TCommentBlock r); auto; rewrite Hc; [discriminate | reflexivity | kp | exact Er].
  Qed.
  Lemma m_TLiteralBlock lex r : lex ++ r = c :: rest -> lexed TLiteralBlock before lex r -> meets TLiteralBlock lex.
  Proof.
    intros E H. cbn [lexed] in H.
    destruct H as (L & B & ->). destruct (headed _ _ _ E) as [Hc Er].
    apply (branch1 "." (scan_delim sc) _ (repeat c 3) _ Hc); [now rewrite Hc | reflexivity|]. 
    apply (lem hit_delim TLiteralBlock r); auto; rewrite Hc; [discriminate | reflexivity | kp | exact Er].
  Qed.
  Lemma m_TExampleBlock lex r : lex ++ r = c :: rest -> lexed TExampleBlock before lex r -> meets TExampleBlock lex.
  Proof.
    intros E H. cbn [lexed] in H.
    destruct H as (L & B & ->). destruct (headed _ _ _ E) as [Hc Er].
    apply (branch1 "=" (scan_delim sc) _ (repeat c 3) _ Hc); [now rewrite Hc | reflexivity|]. 
    apply (lem hit_delim TExampleBlock r); auto; rewrite Hc; [discriminate | reflexivity | kp | exact Er].
  Qed.
  Lemma m_TOpenBlock lex r : lex ++ r = c :: rest -> lexed TOpenBlock before lex r -> meets TOpenBlock lex.
  Proof.
    intros E H. cbn [lexed] in H.
    destruct H as (L & -> & B). destruct (headed _ _ _ E) as [Hc Er].
    apply (branch1 "-" (scan_delim sc) _ (["-"]) _ Hc eq_refl); [reflexivity|]. now apply (lem hit_open r).
  Qed.
  Lemma m_TOrderedListItem lex r : lex ++ r = c :: rest -> lexed TOrderedListItem before lex r -> meets TOrderedListItem lex.
  Proof.
    intros E H. cbn [lexed] in H.
    destruct H as (L & ->). destruct (headed _ _ _ E) as [Hc Er].
    apply (branch1 "." (scan_delim sc) _ ([" "]) _ Hc eq_refl); [reflexivity|]. now apply (lem hit_ordered r).
  Qed.
  Lemma m_TUnorderedListItem lex r : lex ++ r = c :: rest -> lexed TUnorderedListItem before lex r -> meets TUnorderedListItem lex.
  Proof.
    intros E H. cbn [lexed] in H.
    destruct H as (L & ->). destruct (headed _ _ _ E) as [Hc Er].
    apply (branch1 "*" (scan_delim sc) _ ([" "]) _ Hc eq_refl); [reflexivity|]. now apply (lem hit_unordered r).
  Qed.
  Lemma m_TDescriptionListMarker lex r : lex ++ r = c :: rest -> lexed TDescriptionListMarker before lex r -> meets TDescriptionListMarker lex.
  Proof.
    intros E H. cbn [lexed] in H.
    destruct H as ([-> | ->] & H1 & H2); destruct (headed _ _ _ E) as [Hc Er].
    - apply (branch ":" (scan_colon sc) _ [":"; " "] _ Hc eq_refl eq_refl). apply (lem hit_dlist " " r); auto.
    - apply (branch ":" (scan_colon sc) _ [":"; "010"] _ Hc eq_refl eq_refl). apply (lem hit_dlist "010" r); auto.
  Qed.
  Lemma m_TCodeCallout lex r : lex ++ r = c :: rest -> lexed TCodeCallout before lex r -> meets TCodeCallout lex.
  Proof.
    intros E H. cbn [lexed] in H.
    destruct H as (B & d & Hd & [[L ->]|(L & d' & Hd' & ->)]); destruct (headed _ _ _ E) as [Hc Er].
    - apply (branch1 "<" (scan_lt sc) _ (d ++ bs ">") _ Hc eq_refl eq_refl). now apply (lem hit_callout d r).
    - apply (branch1 "<" (scan_lt sc) _ (d ++ ">" :: d' ++ bs ">") _ Hc eq_refl eq_refl). now apply (lem hit_callout2 d d' r).
  Qed.
  Lemma m_TCodeCalloutListItem lex r : lex ++ r = c :: rest -> lexed TCodeCalloutListItem before lex r -> meets TCodeCalloutListItem lex.
  Proof.
    intros E H. cbn [lexed] in H.
    destruct H as (L & d & Hd & ->). destruct (headed _ _ _ E) as [Hc Er].
    apply (branch1 "<" (scan_lt sc) _ (d ++ bs "> ") _ Hc eq_refl); [reflexivity|]. now apply (lem hit_callout_item d r).
  Qed.
  Lemma m_TBlockLabel lex r : lex ++ r = c :: rest -> lexed TBlockLabel before lex r -> meets TBlockLabel lex.
  Proof.
    intros E H. cbn [lexed] in H.
    destruct H as (L & -> & H1 & H2). destruct (headed _ _ _ E) as [Hc Er].
    apply (branch1 "." (scan_delim sc) _ ([]) _ Hc eq_refl); [reflexivity|]. cbn in Er. rewrite <- Er in H1, H2. now apply (lem hit_label).
  Qed.
  Lemma m_THeading1 lex r : lex ++ r = c :: rest -> lexed THeading1 before lex r -> meets THeading1 lex.
  Proof.
    intros E H. cbn [lexed] in H.
    destruct H as (L & x & -> & Hx & Hne & N1 & N4). destruct (headed _ _ _ E) as [Hc Er].
    apply (branch1 "=" (scan_delim sc) _ (repeat "=" 0 ++ [x]) _ Hc eq_refl eq_refl). 
    apply (lem hit_heading 0 x r); auto.
  Qed.
  Lemma m_THeading2 lex r : lex ++ r = c :: rest -> lexed THeading2 before lex r -> meets THeading2 lex.
  Proof.
    intros E H. cbn [lexed] in H.
    destruct H as (L & x & -> & Hx & Hne & N1 & N4). destruct (headed _ _ _ E) as [Hc Er].
    apply (branch1 "=" (scan_delim sc) _ (repeat "=" 1 ++ [x]) _ Hc eq_refl eq_refl). 
    apply (lem hit_heading 1 x r); auto.
  Qed.
  Lemma m_THeading3 lex r : lex ++ r = c :: rest -> lexed THeading3 before lex r -> meets THeading3 lex.
  Proof.
    intros E H. cbn [lexed] in H.
    destruct H as (L & x & -> & Hx & Hne & N1 & N4). destruct (headed _ _ _ E) as [Hc Er].
    apply (branch1 "=" (scan_delim sc) _ (repeat "=" 2 ++ [x]) _ Hc eq_refl eq_refl). 
    apply (lem hit_heading 2 x r); auto.
  Qed.
  Lemma m_THeading4 lex r : lex ++ r = c :: rest -> lexed THeading4 before lex r -> meets THeading4 lex.
  Proof.
    intros E H. cbn [lexed] in H.
    destruct H as (L & x & -> & Hx & Hne & N1 & N4). destruct (headed _ _ _ E) as [Hc Er].
    apply (branch1 "=" (scan_delim sc) _ (repeat "=" 3 ++ [x]) _ Hc eq_refl eq_refl). 
    apply (lem hit_heading 3 x r); auto.
  Qed.
  Lemma m_THeading5 lex r : lex ++ r = c :: rest -> lexed THeading5 before lex r -> meets THeading5 lex.
  Proof.
    intros E H. cbn [lexed] in H.
    destruct H as (L & x & -> & Hx & Hne & N1 & N4). destruct (headed _ _ _ E) as [Hc Er].
    apply (branch1 "=" (scan_delim sc) _ (repeat "=" 4 ++ [x]) _ Hc eq_refl eq_refl). 
    apply (lem hit_heading 4 x r); auto.
  Qed.
  Lemma m_bracket_line k lex r : lex ++ r = c :: rest -> bracket_line ["["; k] before lex r -> k <> "[" -> k <> NL ->
    meets (attribution_type k) lex.
  Proof.
    intros E (L & Hr & x & -> & Hx) Hk Hn. destruct (headed _ _ _ E) as [Hc Er].
    apply (branch "[" (scan_lbracket sc) _ ((k :: x) ++ ["]"]) _ Hc eq_refl eq_refl).
    apply (lem hit_bracket_line (k :: x) r); auto. intros [K|K]; auto.
  Qed.
  Lemma m_TNotePara lex r : lex ++ r = c :: rest -> lexed TNotePara before lex r -> meets TNotePara lex.
  Proof.
    intros E H. cbn [lexed] in H.
    destruct H as [-> | H].
    - destruct (headed _ _ _ E) as [Hc Er].
      apply (branch "N" (scan_keyword sc (bs "OTE: ") TNotePara true) _ (bs "OTE: ") _ Hc eq_refl eq_refl).
      apply (lem hit_keyword _ _ _ r); try discriminate; [now repeat constructor | exact Er | kp].
    - apply (m_bracket_line "N" lex r E H); discriminate.
  Qed.
  Lemma m_TTipPara lex r : lex ++ r = c :: rest -> lexed TTipPara before lex r -> meets TTipPara lex.
  Proof.
    intros E H. cbn [lexed] in H.
    destruct H as [-> | H].
    - destruct (headed _ _ _ E) as [Hc Er].
      apply (branch "T" (scan_keyword sc (bs "IP: ") TTipPara true) _ (bs "IP: ") _ Hc eq_refl eq_refl).
      apply (lem hit_keyword _ _ _ r); try discriminate; [now repeat constructor | exact Er | kp].
    - apply (m_bracket_line "T" lex r E H); discriminate.
  Qed.
  Lemma m_TImportantPara lex r : lex ++ r = c :: rest -> lexed TImportantPara before lex r -> meets TImportantPara lex.
  Proof.
    intros E H. cbn [lexed] in H.
    destruct H as [-> | H].
    - destruct (headed _ _ _ E) as [Hc Er].
      apply (branch "I" (scan_keyword sc (bs "MPORTANT: ") TImportantPara true) _ (bs "MPORTANT: ") _ Hc eq_refl eq_refl).
      apply (lem hit_keyword _ _ _ r); try discriminate; [now repeat constructor | exact Er | kp].
    - apply (m_bracket_line "I" lex r E H); discriminate.
  Qed.
  Lemma m_TCautionPara lex r : lex ++ r = c :: rest -> lexed TCautionPara before lex r -> meets TCautionPara lex.
  Proof.
    intros E H. cbn [lexed] in H.
    destruct H as [-> | H].
    - destruct (headed _ _ _ E) as [Hc Er].
      apply (branch "C" (scan_keyword sc (bs "AUTION: ") TCautionPara true) _ (bs "AUTION: ") _ Hc eq_refl eq_refl).
      apply (lem hit_keyword _ _ _ r); try discriminate; [now repeat constructor | exact Er | kp].
    - apply (m_bracket_line "C" lex r E H); discriminate.
  Qed.
  Lemma m_TWarningPara lex r : lex ++ r = c :: rest -> lexed TWarningPara before lex r -> meets TWarningPara lex.
  Proof.
    intros E H. cbn [lexed] in H.
    destruct H as [-> | H].
    - destruct (headed _ _ _ E) as [Hc Er].
      apply (branch "W" (scan_keyword sc (bs "ARNING: ") TWarningPara true) _ (bs "ARNING: ") _ Hc eq_refl eq_refl).
      apply (lem hit_keyword _ _ _ r); try discriminate; [now repeat constructor | exact Er | kp].
    - apply (m_bracket_line "W" lex r E H); discriminate.
  Qed.
  Lemma m_TBlockContinuation lex r : lex ++ r = c :: rest -> lexed TBlockContinuation before lex r -> meets TBlockContinuation lex.
  Proof.
    intros E H. cbn [lexed] in H.
    destruct H as (L & -> & B). destruct (headed _ _ _ E) as [Hc Er].
    apply (branch1 "+" (scan_delim sc) _ ([]) _ Hc eq_refl); [reflexivity|]. apply (lem hit_continuation); auto. now rewrite Er.
  Qed.
  Lemma m_TTable lex r : lex ++ r = c :: rest -> lexed TTable before lex r -> meets TTable lex.
  Proof.
    intros E H. cbn [lexed] in H.
    destruct H as (L & -> & B). destruct (headed _ _ _ E) as [Hc Er].
    apply (branch "|" (scan_bar sc) _ (bs "===") _ Hc eq_refl); [reflexivity|]. now apply (lem hit_table r).
  Qed.
  Lemma m_TTableCell lex r : lex ++ r = c :: rest -> lexed TTableCell before lex r -> meets TTableCell lex.
  Proof.
    intros E H. cbn [lexed] in H.
    destruct H as (Hb & Hn & (w & -> & Hw) & Ho & Hr). pose proof E as E'. destruct (headed _ _ _ E) as [Hc Er].
    apply (branch "|" (scan_bar sc) _ w _ Hc eq_refl eq_refl). rewrite E' in Hn. assert (c :: w = "|" :: w) as Ew by now rewrite Hc. rewrite <- Ew in Ho, Hr. now apply (lem hit_cell w r).
  Qed.
  Lemma m_TStrong lex r : lex ++ r = c :: rest -> lexed TStrong before lex r -> meets TStrong lex.
  Proof.
    intros E H. cbn [lexed] in H.
    destruct H as (-> & F & H1). destruct (headed _ _ _ E) as [Hc Er].
    apply (branch1 "*" (scan_delim sc) _ ([]) _ Hc eq_refl); [reflexivity|]. cbn in Er. rewrite <- Er in F, H1. now apply (lem hit_strong).
  Qed.
  Lemma m_TEmphasis lex r : lex ++ r = c :: rest -> lexed TEmphasis before lex r -> meets TEmphasis lex.
  Proof.
    intros E H. cbn [lexed] in H.
    destruct H as (-> & F). destruct (headed _ _ _ E) as [Hc Er].
    apply (branch1 "_" (scan_delim sc) _ ([]) _ Hc eq_refl); [reflexivity|]. cbn in Er. rewrite <- Er in F. now apply (lem hit_emphasis).
  Qed.
  Lemma m_TMonospace lex r : lex ++ r = c :: rest -> lexed TMonospace before lex r -> meets TMonospace lex.
  Proof.
    intros E H. cbn [lexed] in H.
    destruct H as (-> & F & H1). destruct (headed _ _ _ E) as [Hc Er].
    apply (branch1 "`" (scan_backquote sc) _ ([]) _ Hc eq_refl); [reflexivity|]. cbn in Er. rewrite <- Er in F, H1. now apply (lem hit_mono).
  Qed.
  Lemma m_TLiteral lex r : lex ++ r = c :: rest -> lexed TLiteral before lex r -> meets TLiteral lex.
  Proof.
    intros E H. cbn [lexed] in H.
    destruct H as (-> & F & H1 & H2). destruct (headed _ _ _ E) as [Hc Er].
    apply (branch1 "+" (scan_delim sc) _ ([]) _ Hc eq_refl); [reflexivity|]. cbn in Er. rewrite <- Er in F, H1, H2. now apply (lem hit_literal).
  Qed.
  Lemma m_TMark lex r : lex ++ r = c :: rest -> lexed TMark before lex r -> meets TMark lex.
  Proof.
    intros E H. cbn [lexed] in H.
    destruct H as (-> & F). destruct (headed _ _ _ E) as [Hc Er].
    apply (branch1 "#" (fun x => if starts_end_tag_line sc then add_tag sc else handle_inline_formatting sc x TMark TUnconstrainedMark) _ ([]) _ Hc eq_refl); [reflexivity|]. rewrite (lem no_end_tag). cbn in Er. rewrite <- Er in F.
    apply (lem hit_inline1); [rewrite Hc; discriminate | now rewrite Hc | kp].
  Qed.
  Lemma m_TSuperscript lex r : lex ++ r = c :: rest -> lexed TSuperscript before lex r -> meets TSuperscript lex.
  Proof.
    intros E H. cbn [lexed] in H.
    subst lex. destruct (headed _ _ _ E) as [Hc Er].
    apply (branch "^" (add_token sc TSuperscript false 0) _ ([]) _ Hc eq_refl); [reflexivity|]. apply (lem hit0). kp.
  Qed.
  Lemma m_TSubscript lex r : lex ++ r = c :: rest -> lexed TSubscript before lex r -> meets TSubscript lex.
  Proof.
    intros E H. cbn [lexed] in H.
    subst lex. destruct (headed _ _ _ E) as [Hc Er].
    apply (branch "~" (add_token sc TSubscript false 0) _ ([]) _ Hc eq_refl); [reflexivity|]. apply (lem hit0). kp.
  Qed.
  Lemma m_TUnconstrainedStrong lex r : lex ++ r = c :: rest -> lexed TUnconstrainedStrong before lex r -> meets TUnconstrainedStrong lex.
  Proof.
    intros E H. cbn [lexed] in H.
    destruct H as (-> & H1). destruct (headed _ _ _ E) as [Hc Er].
    apply (branch1 "*" (scan_delim sc) _ [c] _ Hc); [now rewrite Hc | reflexivity|]. now apply (lem hit_strong2 r).
  Qed.
  Lemma m_TUnconstrainedEmphasis lex r : lex ++ r = c :: rest -> lexed TUnconstrainedEmphasis before lex r -> meets TUnconstrainedEmphasis lex.
  Proof.
    intros E H. cbn [lexed] in H.
    destruct H as (-> & H1). destruct (headed _ _ _ E) as [Hc Er].
    apply (branch1 "_" (scan_delim sc) _ [c] _ Hc); [now rewrite Hc | reflexivity|]. apply (lem hit_emphasis2 r); [exact Hc | exact Er | exact H1].
  Qed.
  Lemma m_TUnconstrainedMonospace lex r : lex ++ r = c :: rest -> lexed TUnconstrainedMonospace before lex r -> meets TUnconstrainedMonospace lex.
  Proof.
    intros E H. cbn [lexed] in H.
    subst lex. destruct (headed _ _ _ E) as [Hc Er].
    apply (branch1 "`" (scan_backquote sc) _ [c] _ Hc); [now rewrite Hc | reflexivity|]. now apply (lem hit_mono2 r).
  Qed.
  Lemma m_TUnconstrainedLiteral lex r : lex ++ r = c :: rest -> lexed TUnconstrainedLiteral before lex r -> meets TUnconstrainedLiteral lex.
  Proof.
    intros E H. cbn [lexed] in H.
    destruct H as (-> & H1). destruct (headed _ _ _ E) as [Hc Er].
    apply (branch1 "+" (scan_delim sc) _ [c] _ Hc); [now rewrite Hc | reflexivity|]. apply (lem hit_literal2 r); [exact Hc | exact Er | exact H1].
  Qed.
  Lemma m_TUnconstrainedMark lex r : lex ++ r = c :: rest -> lexed TUnconstrainedMark before lex r -> meets TUnconstrainedMark lex.
  Proof.
    intros E H. cbn [lexed] in H.
    subst lex. destruct (headed _ _ _ E) as [Hc Er].
    apply (branch1 "#" (fun x => if starts_end_tag_line sc then add_tag sc else handle_inline_formatting sc x TMark TUnconstrainedMark) _ [c] _ Hc); [now rewrite Hc | reflexivity|]. rewrite (lem no_end_tag). 
    apply (lem hit_inline2 TMark TUnconstrainedMark r); [rewrite Hc; discriminate | rewrite Hc; discriminate | now rewrite Hc | kp].
  Qed.
  Lemma m_TBlockImageMacro lex r : lex ++ r = c :: rest -> lexed TBlockImageMacro before lex r -> meets TBlockImageMacro lex.
  Proof.
    intros E H. cbn [lexed] in H.
    destruct H as (L & x & -> & Hx). destruct (headed _ _ _ E) as [Hc Er].
    apply (branch "i" (scan_i sc) _ (bs "mage::" ++ x ++ ["]"]) _ Hc eq_refl); [reflexivity|]. now apply (lem hit_block_image x r).
  Qed.
  Lemma m_TInlineImageMacro lex r : lex ++ r = c :: rest -> lexed TInlineImageMacro before lex r -> meets TInlineImageMacro lex.
  Proof.
    intros E H. cbn [lexed] in H.
    destruct H as ((x & -> & Hx) & H1 & H2). destruct (headed _ _ _ E) as [Hc Er].
    apply (branch "i" (scan_i sc) _ (bs "mage:" ++ x ++ ["]"]) _ Hc eq_refl); [reflexivity|]. now apply (lem hit_inline_image x r).
  Qed.
  Lemma m_TInclude lex r : lex ++ r = c :: rest -> lexed TInclude before lex r -> meets TInclude lex.
  Proof.
    intros E H. cbn [lexed] in H.
    destruct H as (L & x & -> & Hx). destruct (headed _ _ _ E) as [Hc Er].
    apply (branch "i" (scan_i sc) _ (bs "nclude::" ++ x ++ ["]"]) _ Hc eq_refl); [reflexivity|]. now apply (lem hit_include x r).
  Qed.
  Lemma m_TLinkMacro lex r : lex ++ r = c :: rest -> lexed TLinkMacro before lex r -> meets TLinkMacro lex.
  Proof.
    intros E H. cbn [lexed] in H.
    destruct H as (s & -> & (t & ->) & Hs). destruct (headed _ _ _ E) as [Hc Er].
    apply (branch "h" (add_link sc) _ ((bs "ttp" ++ t) ++ ["["]) _ Hc eq_refl);
      [apply (lem hit_h Hc); eexists; rewrite Er; reflexivity|].
    apply (lem hit_link_macro (bs "ttp" ++ t) r Er). now apply Forall_cons_iff in Hs.
  Qed.
  Lemma m_THyperlink lex r : lex ++ r = c :: rest -> lexed THyperlink before lex r -> meets THyperlink lex.
  Proof.
    intros E H. cbn [lexed] in H.
    destruct H as ((t & ->) & Hs & Hr & Hg). destruct (headed _ _ _ E) as [Hc Er].
    apply (branch "h" (add_link sc) _ (bs "ttp" ++ t) _ Hc eq_refl);
      [apply (lem hit_h Hc); eexists; rewrite Er; reflexivity|].
    apply (lem hit_hyperlink (bs "ttp" ++ t) r Er); [now apply Forall_cons_iff in Hs | exact Hr|].
    intros a p Ea. apply (Hg ("h" :: a) p). change (bs "http" ++ t) with ("h" :: bs "ttp" ++ t). now rewrite Ea.
  Qed.
  Lemma m_TFootnoteMacro lex r : lex ++ r = c :: rest -> lexed TFootnoteMacro before lex r -> meets TFootnoteMacro lex.
  Proof.
    intros E H. cbn [lexed] in H.
    subst lex. destruct (headed _ _ _ E) as [Hc Er].
    apply (branch "f" (scan_keyword sc (bs "ootnote:[") TFootnoteMacro false) _ (bs "ootnote:[") _ Hc eq_refl); [reflexivity|]. apply (lem hit_keyword _ _ _ r); try discriminate; [now repeat constructor | exact Er | kp].
  Qed.
  Lemma m_TPassthroughInlineMacro lex r : lex ++ r = c :: rest -> lexed TPassthroughInlineMacro before lex r -> meets TPassthroughInlineMacro lex.
  Proof.
    intros E H. cbn [lexed] in H.
    subst lex. destruct (headed _ _ _ E) as [Hc Er].
    apply (branch "p" (scan_keyword sc (bs "ass:[") TPassthroughInlineMacro false) _ (bs "ass:[") _ Hc eq_refl); [reflexivity|]. apply (lem hit_keyword _ _ _ r); try discriminate; [now repeat constructor | exact Er | kp].
  Qed.
  Lemma m_TInlineMacroClose lex r : lex ++ r = c :: rest -> lexed TInlineMacroClose before lex r -> meets TInlineMacroClose lex.
  Proof.
    intros E H. cbn [lexed] in H.
    subst lex. destruct (headed _ _ _ E) as [Hc Er].
    apply (branch "]" (add_token sc TInlineMacroClose true 0) _ ([]) _ Hc eq_refl); [reflexivity|]. apply (lem hit0). kp.
  Qed.
  Lemma m_TCharRef lex r : lex ++ r = c :: rest -> lexed TCharRef before lex r -> meets TCharRef lex.
  Proof.
    intros E H. cbn [lexed] in H.
    destruct H as [(-> & t & -> & Hw)|[H|[(-> & H)|[(-> & H)|(n & -> & Hn)]]]].
    - destruct (headed _ _ _ E) as [Hc Er]. apply (branch1 "'" (scan_apostrophe sc) _ [] _ Hc eq_refl eq_refl). now apply (lem hit_possessive t).
    - destruct H as [<-|[<-|[<-|[<-|[<-|[<-|[<-|[]]]]]]]]; destruct (headed _ _ _ E) as [Hc Er].
      + apply (branch1 "<" (scan_lt sc) _ ["-"] _ Hc eq_refl eq_refl). apply (lem hit_larrow "-" r); auto. cbn; auto.
      + apply (branch1 "<" (scan_lt sc) _ ["="] _ Hc eq_refl eq_refl). apply (lem hit_larrow "=" r); auto. cbn; auto.
      + apply (branch1 "-" (scan_delim sc) _ [">"] _ Hc eq_refl eq_refl). apply (lem hit_arrow r); auto.
      + apply (branch1 "=" (scan_delim sc) _ [">"] _ Hc eq_refl eq_refl). apply (lem hit_arrow r); auto.
      + apply (branch "(" _ _ (bs "C" ++ [")"]) _ Hc eq_refl eq_refl). apply (lem hit_parens (bs "C") r); [cbn; auto | exact Er].
      + apply (branch "(" _ _ (bs "R" ++ [")"]) _ Hc eq_refl eq_refl). apply (lem hit_parens (bs "R") r); [cbn; auto | exact Er].
      + apply (branch "(" _ _ (bs "TM" ++ [")"]) _ Hc eq_refl eq_refl). apply (lem hit_parens (bs "TM") r); [cbn; auto | exact Er].
    - destruct (headed _ _ _ E) as [Hc Er]. apply (branch1 "-" (scan_delim sc) _ ["-"] _ Hc eq_refl eq_refl). apply (lem hit_emdash r); auto. now apply dashb_spec.
    - destruct (headed _ _ _ E) as [Hc Er]. apply (branch1 "." (scan_delim sc) _ (bs "..") _ Hc eq_refl eq_refl). now apply (lem hit_dots r).
    - destruct (headed _ _ _ E) as [Hc Er]. apply (branch "&" (scan_amp sc) _ (n ++ [";"]) _ Hc eq_refl eq_refl). now apply (lem hit_amp n r).
  Qed.
  Lemma m_TOpenDoubleQuote lex r : lex ++ r = c :: rest -> lexed TOpenDoubleQuote before lex r -> meets TOpenDoubleQuote lex.
  Proof.
    intros E H. cbn [lexed] in H.
    destruct H as (-> & H1). destruct (headed _ _ _ E) as [Hc Er].
    apply (branch "034" (if memc (peek_back sc) [NUL; SP; NL] && (peek sc == "`") then add_token (bump sc 1) TOpenDoubleQuote true 0 else add_text_until_next_markup sc) _ (["`"]) _ Hc eq_refl); [reflexivity|]. now apply (lem hit_open_double r).
  Qed.
  Lemma m_TOpenSingleQuote lex r : lex ++ r = c :: rest -> lexed TOpenSingleQuote before lex r -> meets TOpenSingleQuote lex.
  Proof.
    intros E H. cbn [lexed] in H.
    destruct H as (-> & H1). destruct (headed _ _ _ E) as [Hc Er].
    apply (branch1 "'" (scan_apostrophe sc) _ (["`"]) _ Hc eq_refl); [reflexivity|]. now apply (lem hit_open_single r).
  Qed.
  Lemma m_TCloseDoubleQuote lex r : lex ++ r = c :: rest -> lexed TCloseDoubleQuote before lex r -> meets TCloseDoubleQuote lex.
  Proof.
    intros E H. cbn [lexed] in H.
    destruct H as (-> & H1). destruct (headed _ _ _ E) as [Hc Er].
    apply (branch1 "`" (scan_backquote sc) _ (["034"]) _ Hc eq_refl); [reflexivity|]. now apply (lem hit_close_double r).
  Qed.
  Lemma m_TCloseSingleQuote lex r : lex ++ r = c :: rest -> lexed TCloseSingleQuote before lex r -> meets TCloseSingleQuote lex.
  Proof.
    intros E H. cbn [lexed] in H.
    destruct H as (-> & H1). destruct (headed _ _ _ E) as [Hc Er].
    apply (branch1 "`" (scan_backquote sc) _ (["'"]) _ Hc eq_refl); [reflexivity|]. now apply (lem hit_close_single r).
  Qed.
  Lemma m_TInlineStyle lex r : lex ++ r = c :: rest -> lexed TInlineStyle before lex r -> meets TInlineStyle lex.
  Proof.
    intros E H. cbn [lexed] in H.
    destruct H as ((x & -> & Hx) & H). pose proof E as E'. destruct (headed _ _ _ E) as [Hc Er].
    apply (branch "[" (scan_lbracket sc) _ (("." :: x) ++ ["]"]) _ Hc eq_refl eq_refl). rewrite E' in H. now apply (lem hit_style x r).
  Qed.
  Lemma m_anchor lex r ty' : lex ++ r = c :: rest -> anchored before lex r -> becomes TBlockAnchor ty' lex -> meets ty' lex.
  Proof.
    intros E H Hb. assert (exists s, lex = "[" :: s) as (s & El).
    { destruct H as (_ & _ & x & K & _). rewrite !app_assoc in K. apply app_inj_tail in K as [-> _]. eexists. reflexivity. }
    pose proof E as E'. rewrite El in E'. destruct (headed _ _ _ E') as [Hc Er].
    destruct (lem hit_anchor lex r Hc E H ty' Hb) as (s' & Es & Hh). apply (branch "[" (scan_lbracket sc) _ s' _ Hc); [now rewrite Es, Hc | reflexivity | exact Hh].
  Qed.
  Lemma m_TBlockAnchor lex r : lex ++ r = c :: rest -> lexed TBlockAnchor before lex r -> meets TBlockAnchor lex.
  Proof.
    intros E [H Hb]. apply (m_anchor lex r _ E H). apply (lem keeps_becomes). intros _. exact Hb.
  Qed.
  Lemma m_xref lex r ty' : lex ++ r = c :: rest -> up_to (bs "<<") (bs ">>") lex -> ~ begins (bs "<<<" ++ ["010"]) lex ->
    becomes TCrossReference ty' lex -> meets ty' lex.
  Proof.
    intros E H Hp Hb. assert (exists s, lex = "<" :: s) as (s & El) by (destruct H as (x & -> & _); eexists; reflexivity).
    pose proof E as E'. rewrite El in E'. destruct (headed _ _ _ E') as [Hc Er].
    destruct (lem hit_xref lex r Hc E H Hp ty' Hb) as (s' & Es & Hh). apply (branch1 "<" (scan_lt sc) _ s' _ Hc); [now rewrite Es, Hc | reflexivity | exact Hh].
  Qed.
  Lemma m_TCrossReference lex r : lex ++ r = c :: rest -> lexed TCrossReference before lex r -> meets TCrossReference lex.
  Proof.
    intros E [H Hb]. apply (m_xref lex r _ E H).
    - intros (w & K). apply (proj2 Hb). rewrite K. cbn. tauto.
    - apply (lem keeps_becomes). intros _. exact Hb.
  Qed.
  Lemma m_wrapped lex r : lex ++ r = c :: rest -> wrapped before lex r -> ~ blankless lex -> meets TText lex.
  Proof.
    intros E [[H Hp]|H] Hb; [apply (m_xref lex r) | apply (m_anchor lex r)]; auto; apply (lem blanks_become); auto.
  Qed.
  Lemma m_TElementAttributes lex r : lex ++ r = c :: rest -> lexed TElementAttributes before lex r -> meets TElementAttributes lex.
  Proof.
    intros E H. cbn [lexed] in H.
    destruct H as [(L & Hr & x & -> & Hx) H]. destruct (headed _ _ _ E) as [Hc Er].
    apply (branch "[" (scan_lbracket sc) _ (x ++ ["]"]) _ Hc eq_refl eq_refl).
    assert (~ In (hd NUL (x ++ ["]"])) (bs "[NTICW")) as Hn.
    { destruct x as [|y x]; [cbn; intuition discriminate|]. apply (H y (x ++ ["]"])). reflexivity. }
    replace TElementAttributes with (attribution_type (hd NUL (x ++ ["]"]))).
    - apply (lem hit_bracket_line x r); auto. intros K. apply Hn. rewrite K. cbn. auto.
    - unfold attribution_type.
      repeat match goal with |- context [?y == ?k] => let Ek := fresh "Ek" in destruct (y == k) eqn:Ek;
        [exfalso; apply Hn; apply Ascii.eqb_eq in Ek; rewrite Ek; cbn; tauto |] end. reflexivity.
  Qed.
  Lemma m_TAttribute lex r : lex ++ r = c :: rest -> lexed TAttribute before lex r -> meets TAttribute lex.
  Proof.
    intros E H. cbn [lexed] in H.
    destruct H as (L & B & n & v & -> & Hn & Hv). destruct (headed _ _ _ E) as [Hc Er].
    apply (branch ":" (scan_colon sc) _ (n ++ ":" :: v) _ Hc eq_refl); [reflexivity|]. now apply (lem hit_attribute n v r).
  Qed.
  Lemma m_TAttributeReference lex r : lex ++ r = c :: rest -> lexed TAttributeReference before lex r -> meets TAttributeReference lex.
  Proof.
    intros E H. cbn [lexed] in H.
    destruct H as (n & -> & Hn). destruct (headed _ _ _ E) as [Hc Er].
    apply (branch "{" (scan_lbrace sc) _ (n ++ ["}"]) _ Hc eq_refl); [reflexivity|]. now apply (lem hit_ref n r).
  Qed.

  Lemma lexed_meets ty lex r : lex ++ r = c :: rest -> lexed ty before lex r -> markup ty -> meets ty lex.
  Proof.
    intros E H M. destruct ty; try (exfalso; apply M; cbn; tauto); try (now destruct H).
    all: eauto using m_TNewLineChar, m_TLineContinuation, m_TThematicBreak, m_TPageBreak, m_TComment, m_TPassthroughBlock, m_TSidebarBlock, m_TSourceBlock, m_TQuoteVerseBlock, m_TCommentBlock, m_TLiteralBlock, m_TExampleBlock, m_TOpenBlock, m_TOrderedListItem, m_TUnorderedListItem, m_TDescriptionListMarker, m_TCodeCallout, m_TCodeCalloutListItem, m_TBlockLabel, m_THeading1, m_THeading2, m_THeading3, m_THeading4, m_THeading5, m_TNotePara, m_TTipPara, m_TImportantPara, m_TCautionPara, m_TWarningPara, m_TBlockContinuation, m_TTable, m_TTableCell, m_TStrong, m_TEmphasis, m_TMonospace, m_TLiteral, m_TMark, m_TSuperscript, m_TSubscript, m_TUnconstrainedStrong, m_TUnconstrainedEmphasis, m_TUnconstrainedMonospace, m_TUnconstrainedLiteral, m_TUnconstrainedMark, m_TBlockImageMacro, m_TInlineImageMacro, m_TLinkMacro, m_TFootnoteMacro, m_TPassthroughInlineMacro, m_TInlineMacroClose, m_THyperlink, m_TCharRef, m_TOpenDoubleQuote, m_TCloseDoubleQuote, m_TOpenSingleQuote, m_TCloseSingleQuote, m_TInlineStyle, m_TInclude, m_TBlockAnchor, m_TElementAttributes, m_TCrossReference, m_TAttribute, m_TAttributeReference.
  Qed.
End Main.

Lemma next_complete sc before rest ty lex after : utf8 (sc_src sc) -> sc_tagend sc = false ->
  sc_src sc = before ++ rest -> sc_cur sc = List.length before -> rest = lex ++ after -> lexed ty before lex after -> markup ty ->
  exists t sc', next sc = Ok (Some t, sc') /\ ttype t = ty /\ lexeme t = lex.
Proof.
  intros Hu Htag Esrc Ecur -> Hl M. destruct (lexed_head _ _ _ _ Hl M) as (c & s & -> & H7).
  unfold next, is_at_end.
  assert (List.length (sc_src sc) <=? sc_cur sc = false) as -> by (apply Nat.leb_gt; rewrite Esrc, Ecur, app_length; cbn; lia).
  cbn [negb]. fold (restart sc).
  destruct (lexed_meets (bump (restart sc) 1) before c (s ++ after) Esrc ltac:(cbn; lia) ltac:(cbn; lia) Hu H7 Htag ty (c :: s) after eq_refl Hl M)
    as (s' & Es & sc' & t & Hs & Ht & Hx).
  assert (scan_token (restart sc) = Ok (sc', t)) as ->.
  { rewrite <- Hs. unfold scan_token, byte_at.
    assert (nth_error (sc_src (restart sc)) (sc_cur (restart sc)) = Some c) as ->; [|reflexivity].
    cbn [restart sc_src sc_cur]. rewrite Esrc, Ecur, nth_error_app2, Nat.sub_diag by lia. reflexivity. }
  cbn [bind]. exists t, sc'. split; [reflexivity|]. split; [exact Ht|]. congruence.
Qed.
Lemma lexed_recognised src files ts sc ty lex after : utf8 src -> yields src files ts sc -> no_tags ts ->
  src = text_of ts ++ lex ++ after -> lexed ty (text_of ts) lex after -> markup ty ->
  exists t sc', yields src files (ts ++ [t]) sc' /\ ttype t = ty /\ lexeme t = lex.
Proof.
  intros Hu Hy Hn E Hl M. destruct (yields_inv _ _ _ _ Hy) as (I1 & I2 & I3 & I4). destruct (yields_text _ _ _ _ Hy Hn) as [T Tt].
  assert (sc_cur sc = List.length (text_of ts)) as Hc by (rewrite T, firstn_length; lia).
  rewrite <- I1 in Hu. destruct (next_complete sc (text_of ts) (lex ++ after) ty lex after Hu Tt) as (t & sc' & N & Ht & Hx); auto.
  - now rewrite I1.
  - exists t, sc'. split; [|auto]. econstructor; eassumption.
Qed.

Lemma yields_same src files : forall ts sc sc', yields src files ts sc -> yields src files ts sc' -> sc = sc'.
Proof.
  induction ts as [|t ts IH] using rev_ind; intros sc sc' Y1 Y2.
  - inversion Y1 as [K|? ? ? ? ? ? E]; [|destruct ts; discriminate]. inversion Y2 as [K'|? ? ? ? ? ? E]; [reflexivity | destruct ts; discriminate].
  - inversion Y1 as [K|a1 b1 c1 d1 Y3 N3 E3]; [destruct ts; discriminate|]. apply app_inj_tail in E3 as [-> ->].
    inversion Y2 as [K|a2 b2 c2 d2 Y4 N4 E4]; [destruct ts; discriminate|]. apply app_inj_tail in E4 as [-> ->].
    rewrite (IH _ _ Y3 Y4), N4 in N3. now injection N3.
Qed.
Lemma text_otherwise src files ts t sc : utf8 src -> yields src files (ts ++ [t]) sc -> no_tags (ts ++ [t]) -> ttype t <> TEof ->
  (ttype t = TText <-> ~ exists ty lex after, markup ty /\ src = text_of ts ++ lex ++ after /\ lexed ty (text_of ts) lex after).
Proof.
  intros Hu Hy Hn He. apply Forall_app in Hn as [Hn Ht]. apply Forall_inv in Ht. split.
  - intros Tt (ty & lex & after & M & E & Hl).
    inversion Hy as [K|ts' sc1 t' sc' Y1 N E1]; [destruct ts; discriminate|]. apply app_inj_tail in E1 as [-> ->].
    destruct (lexed_recognised src files ts sc1 ty lex after Hu Y1 Hn E Hl M) as (t2 & sc2 & Y2 & T2 & X2).
    inversion Y2 as [K|ts2 sc3 t3 sc4 Y3 N3 E3]; [destruct ts; discriminate|]. apply app_inj_tail in E3 as [-> ->].
    rewrite (yields_same _ _ _ _ _ Y1 Y3) in N. rewrite N3 in N. injection N as -> _. rewrite Tt in T2. subst ty. apply M. cbn. auto.
  - intros H. assert (ttype t = TText \/ ttype t <> TText) as [K|K] by (destruct (ttype t); auto; right; discriminate); [exact K|]. exfalso. apply H.
    destruct (tokens_lexed src files (ts ++ [t]) sc ts t [] Hu Hy eq_refl) as (before & after & E & Eb & Hl).
    rewrite (Eb Hn) in E, Hl. exists (ttype t), (lexeme t), after. split; [|auto].
    intros [Q|[Q|[Q|[Q|[]]]]]; [congruence | apply Ht; left; congruence | apply Ht; right; congruence | congruence].
Qed.
Lemma grammar_unique src files ts sc ty lex after ty' lex' after' : utf8 src -> yields src files ts sc -> no_tags ts ->
  src = text_of ts ++ lex ++ after -> lexed ty (text_of ts) lex after -> markup ty ->
  src = text_of ts ++ lex' ++ after' -> lexed ty' (text_of ts) lex' after' -> markup ty' -> ty = ty' /\ lex = lex'.
Proof.
  intros Hu Hy Hn E1 L1 M1 E2 L2 M2.
  destruct (lexed_recognised src files ts sc ty lex after Hu Hy Hn E1 L1 M1) as (t & sc1 & Y1 & <- & <-).
  destruct (lexed_recognised src files ts sc ty' lex' after' Hu Hy Hn E2 L2 M2) as (t' & sc2 & Y2 & <- & <-).
  inversion Y1 as [K|a1 b1 c1 d1 Y3 N3 E3]; [destruct ts; discriminate|]. apply app_inj_tail in E3 as [-> ->].
  inversion Y2 as [K|a2 b2 c2 d2 Y4 N4 E4]; [destruct ts; discriminate|]. apply app_inj_tail in E4 as [-> ->].
  rewrite (yields_same _ _ _ _ _ Y3 Y4), N4 in N3. injection N3 as -> _. auto.
Qed.
