(** * The iterator hangs exactly at an unclosed construct; it panics only where
    [breaks] says *)
From Verif Require Import Base Location Token Scanner SpecScan ScanLemmas ScanFacts ScanMain ScanMain2
  ScanLine ScanFail ScanProofs.
Local Open Scope char_scope.
Local Open Scope nat_scope.

Lemma yields_boundary src files ts sc :
  yields src files ts sc -> no_tags ts -> is_boundary src (sc_cur sc) = true.
Proof.
  induction 1 as [|ts sc t sc' Hy IH Hn]; intros Hnt.
  - cbn. unfold is_boundary. destruct src; reflexivity.
  - apply Forall_app in Hnt as [Hnt Ht]. apply Forall_inv in Ht.
    pose proof (yields_inv _ _ _ _ Hy) as (I1 & _).
    apply next_some in Hn as [[Hlt [P | T]] | E].
    + destruct P as (adv & lit & P1 & P2 & P3 & P4 & P5 & P6 & P7 & _). now rewrite I1 in P7.
    + destruct T as (T & _). now elim Ht.
    + destruct E as (_ & _ & -> & ->). cbn. auto.
Qed.

(** the place in the source after the tokens [pre] *)
Lemma place src files pre sc :
  yields src files pre sc -> no_tags pre ->
  firstn (List.length (text_of pre)) src = text_of pre
  /\ sc_cur sc = List.length (text_of pre)
  /\ src = text_of pre ++ skipn (List.length (text_of pre)) src.
Proof.
  intros Hy Hn. pose proof (yields_text _ _ _ _ Hy Hn) as [T1 T2].
  pose proof (yields_inv _ _ _ _ Hy) as (I1 & I2 & I3 & _).
  assert (sc_cur sc = List.length (text_of pre)) as C by (rewrite T1, firstn_length; lia).
  assert (firstn (List.length (text_of pre)) src = text_of pre) as F by now rewrite <- C.
  repeat split; auto. rewrite <- F at 1. symmetry. apply firstn_skipn.
Qed.

Lemma next_fails src files pre sc rest :
  yields src files pre sc -> no_tags pre -> utf8 src -> src = text_of pre ++ rest ->
  (next sc = Panic -> breaks (text_of pre) rest) /\ (next sc = Hang -> unclosed (text_of pre) rest).
Proof.
  intros Hy Hn Hu E. destruct (place _ _ _ _ Hy Hn) as (F & C & E').
  assert (rest = skipn (List.length (text_of pre)) src) as Er
    by (rewrite E; symmetry; apply skipn_length_app).
  pose proof (yields_boundary _ _ _ _ Hy Hn) as Hb.
  destruct rest as [|c r].
  - unfold next, is_at_end. pose proof (yields_inv _ _ _ _ Hy) as (I1 & _).
    rewrite I1, C. rewrite app_nil_r in E. rewrite E, Nat.leb_refl. cbn [negb].
    destruct (sc_scanning sc); split; discriminate.
  - rewrite (next_at _ _ _ _ c r Hy Hn (eq_sym Er)). cbn zeta.
    set (sc1 := mkSc _ _ _ _ _ _ _ _).
    pose proof (scan_token_outcome sc1 eq_refl) as K. cbn [sc1 sc_cur sc_src sc_tagend] in K.
    rewrite C in Hb.
    specialize (K ltac:(rewrite E; rewrite app_length; cbn; lia) Hu Hb eq_refl).
    rewrite F, <- Er in K. destruct K as [Kp Kh]. fold sc1 in Kp, Kh.
    destruct (scan_token sc1) as [[sc2 t]| | | |]; cbn; split; intros K; try discriminate; auto.
Qed.

(** ** ... and an unclosed construct does hang it *)
Section Hangs.
  Variables (src : bytes) (files : list bytes) (pre : list token) (sc : scanner).
  Hypothesis Hy : yields src files pre sc.
  Hypothesis Hnt : no_tags pre.
  Hypothesis Hu : utf8 src.
  Let sc1 := mkSc src (List.length (text_of pre)) (sc_startcol sc) (List.length (text_of pre))
                  (sc_line sc) (sc_scanning sc) false files.

  Lemma at_rest c r : src = text_of pre ++ c :: r ->
    skipn (sc_cur (bump sc1 1)) (sc_src (bump sc1 1)) = r.
  Proof.
    intros E. cbn [sc1 bump set_cur sc_cur sc_src]. rewrite <- skipn_skipn'. rewrite E.
    rewrite skipn_length_app. reflexivity.
  Qed.

  Lemma next_scan c r : src = text_of pre ++ c :: r ->
    next sc = (let* (sc2, t) := scan_token sc1 in Ok (Some t, sc2))
    /\ nth_error src (List.length (text_of pre)) = Some c.
  Proof.
    intros E.
    assert (skipn (List.length (text_of pre)) src = c :: r) as Hs by (rewrite E; apply skipn_length_app).
    split; [exact (next_at _ _ _ _ _ _ Hy Hnt Hs)|].
    rewrite <- (Nat.add_0_r (List.length (text_of pre))), <- nth_error_skipn', Hs. reflexivity.
  Qed.

  Lemma line_start c r : src = text_of pre ++ c :: r -> at_line_start (text_of pre) ->
    starts_new_line (bump sc1 1) = true.
  Proof. intros E H. eapply at_line_start_sc; [exact E | reflexivity | exact H]. Qed.

  Lemma no_close_hangs ty y r : src = text_of pre ++ y :: r -> ~ In "]" r ->
    add_until_bracket (bump sc1 1) ty = Hang.
  Proof.
    intros E Hno. unfold add_until_bracket, advance_or_hang.
    assert (sc_cur (bump sc1 1) <= List.length (sc_src (bump sc1 1))) as L.
    { cbn [sc1 bump set_cur sc_cur sc_src]. rewrite E, app_length. cbn. lia. }
    destruct (advance_until (bump sc1 1) "]" eq_refl ltac:(discriminate) L) as [[E1 E2] | (E1 & E2 & E3)].
    - unfold is_at_end. rewrite E1. cbn [sc_src advance bump set_cur]. now rewrite Nat.leb_refl.
    - exfalso. apply Hno. rewrite <- (at_rest _ _ E).
      set (m := sc_cur (advance (bump sc1 1) (fun x => negb (x == "]")))) in *.
      assert (sc_cur (bump sc1 1) <= m) as L2 by (unfold m, advance; cbn; lia).
      replace m with (sc_cur (bump sc1 1) + (m - sc_cur (bump sc1 1))) in E1 by lia.
      rewrite <- nth_error_skipn' in E1. eapply nth_error_In. exact E1.
  Qed.

  Lemma tail_head a y r : utf8 src -> src = text_of pre ++ a ++ y :: r -> ascii7 y ->
    r = [] \/ exists x r', r = x :: r' /\ is_cont x = false.
  Proof.
    intros H E Hy'. apply utf8_head. rewrite E, app_assoc in H. eapply utf8_after; eassumption.
  Qed.

  Lemma ahead_is a kw r : a ++ kw <> [] -> Forall ascii7 kw -> kw <> [] ->
    forall c, src = text_of pre ++ c :: kw ++ r -> peeks_ahead (bump sc1 1) (List.length kw) = kw.
  Proof.
    intros _ H7 Hne c E. eapply peeks_ahead_at; [rewrite (at_rest _ _ E); reflexivity | reflexivity | exact Hne|].
    destruct (destruct_last kw) as [K | (b & y & K)]; [congruence|]. subst kw.
    apply Forall_app in H7 as [_ H7]. apply Forall_inv in H7.
    apply (tail_head (c :: b) y r Hu); [|exact H7]. rewrite E. cbn [app]. now rewrite <- app_assoc.
  Qed.

  Lemma unclosed_hangs rest : src = text_of pre ++ rest -> unclosed (text_of pre) rest -> next sc = Hang.
  Proof.
    intros E H. destruct H as [r Hl Hno | r Hl Hno | r Hno Hx | r Hno | name r Hl Hname Hno].
    - destruct (next_scan "i" _ E) as [-> Hn]. unfold scan_token, byte_at. cbn [sc1 sc_src sc_cur] in *.
      rewrite Hn. cbn [bind]. fold sc1. cbn [Ascii.eqb Bool.eqb memc existsb orb].
      unfold scan_i. rewrite (line_start "i" _ E Hl).
      assert (peeks_ahead (bump sc1 1) 8 = bs "nclude::") as -> by
        exact (ahead_is [] (bs "nclude::") r ltac:(discriminate) ltac:(repeat constructor) ltac:(discriminate) "i" E).
      cbn [andb beqb]. rewrite beqb_refl. 
      rewrite (no_close_hangs TInclude "i" (bs "nclude::" ++ r) E); [reflexivity|].
      intros K. apply in_app_or in K as [K|K]; [|auto]. cbn in K. intuition discriminate.
    - destruct (next_scan "i" _ E) as [-> Hn]. unfold scan_token, byte_at. cbn [sc1 sc_src sc_cur] in *.
      rewrite Hn. cbn [bind]. fold sc1. cbn [Ascii.eqb Bool.eqb memc existsb orb].
      unfold scan_i. rewrite (line_start "i" _ E Hl).
      assert (peeks_ahead (bump sc1 1) 6 = bs "mage::") as -> by
        exact (ahead_is [] (bs "mage::") r ltac:(discriminate) ltac:(repeat constructor) ltac:(discriminate) "i" E).
      cbn [andb].
      assert (add_until_bracket (bump sc1 1) TInclude = Hang /\ add_until_bracket (bump sc1 1) TBlockImageMacro = Hang) as [K1 K2].
      { split; apply (no_close_hangs _ "i" (bs "mage::" ++ r) E); intros K; apply in_app_or in K as [K|K]; auto;
        cbn in K; intuition discriminate. }
      rewrite K1, K2, beqb_refl. destruct (beqb (peeks_ahead (bump sc1 1) 8) _); reflexivity.
    - destruct (next_scan "i" _ E) as [-> Hn]. unfold scan_token, byte_at. cbn [sc1 sc_src sc_cur] in *.
      rewrite Hn. cbn [bind]. fold sc1. cbn [Ascii.eqb Bool.eqb memc existsb orb].
      assert (forall ty, add_until_bracket (bump sc1 1) ty = Hang) as K1.
      { intros ty; apply (no_close_hangs _ "i" (bs "mage:" ++ r) E); intros K; apply in_app_or in K as [K|K]; auto;
        cbn in K; intuition discriminate. }
      unfold scan_i. rewrite !K1.
      assert (peeks_ahead (bump sc1 1) 5 = bs "mage:") as -> by
        exact (ahead_is [] (bs "mage:") r ltac:(discriminate) ltac:(repeat constructor) ltac:(discriminate) "i" E).
      rewrite beqb_refl.
      assert (forall y, y = ":" \/ y = " " -> beqb (peeks_ahead (bump sc1 1) 6) (bs "mage:" ++ [y]) = false) as K2.
      { intros y Hy2. destruct (beqb _ _) eqn:Eb; [|reflexivity]. exfalso. apply beqb_eq in Eb.
        apply (peeks_ahead_prefix (bump sc1 1) (bs "mage:" ++ [y])) in Eb as [r2 Er]; [|discriminate].
        rewrite (at_rest _ _ E) in Er. cbn in Er. injection Er as Er.
        destruct (Hx _ _ Er) as [X1 X2]. destruct Hy2; congruence. }
      change (bs "mage::") with (bs "mage:" ++ [":"]). change (bs "mage: ") with (bs "mage:" ++ [" "]).
      rewrite !K2 by auto. rewrite !andb_false_r. cbn [negb andb].
      destruct (_ && _); reflexivity.
    - destruct (next_scan "[" _ E) as [-> Hn]. unfold scan_token, byte_at. cbn [sc1 sc_src sc_cur] in *.
      rewrite Hn. cbn [bind]. fold sc1. cbn [Ascii.eqb Bool.eqb memc existsb orb].
      unfold scan_lbracket.
      assert (peek (bump sc1 1) = ".") as Hp.
      { eapply peek_at_head; [|reflexivity]. exact (at_rest _ _ E). }
      rewrite Hp. cbn [Ascii.eqb Bool.eqb]. rewrite andb_false_r. unfold starts_attribution_line.
      set (sc' := advance _ _).
      assert (match nth_error (sc_src (bump sc1 1)) (sc_cur sc' - 1) with Some b => b == "]" | None => false end = false) as ->.
      { destruct (nth_error (sc_src (bump sc1 1)) (sc_cur sc' - 1)) as [b|] eqn:Eb; [|reflexivity].
        destruct (b == "]") eqn:Ebb; [|reflexivity]. apply Ascii.eqb_eq in Ebb. subst b. exfalso.
        assert (sc_cur (bump sc1 1) <= sc_cur sc') as L by (unfold sc', advance; cbn; lia).
        cbn [bump set_cur sc1 sc_cur sc_src] in L, Eb.
        assert (List.length (text_of pre) <= sc_cur sc' - 1) as L2 by lia.
        rewrite E, nth_error_app2 in Eb by exact L2.
        apply nth_error_In in Eb. apply in_app_or in Eb as [Eb|Eb]; [cbn in Eb; intuition discriminate | auto]. }
      rewrite andb_false_r. 
      rewrite (no_close_hangs _ "[" ("." :: r) E); [reflexivity|].
      intros [K|K]; [discriminate | auto].
    - destruct (next_scan ":" _ E) as [-> Hn]. unfold scan_token, byte_at. cbn [sc1 sc_src sc_cur] in *.
      rewrite Hn. cbn [bind]. fold sc1. cbn [Ascii.eqb Bool.eqb memc existsb orb].
      unfold scan_colon. rewrite (line_start ":" _ E Hl).
      assert (sc_cur (bump sc1 1) <= List.length (sc_src (bump sc1 1))) as L.
      { cbn [sc1 bump set_cur sc_cur sc_src]. rewrite E, app_length. cbn. lia. }
      set (p := fun c0 => negb (memc c0 [SP; NL; ":"])).
      assert (starts_attr (bump sc1 1) = Ok true) as ->.
      { unfold starts_attr. fold p. unfold byte_at, advance. rewrite (at_rest _ _ E).
        assert (span_len p (name ++ ":" :: r) = List.length name) as ->.
        { clear - Hname. induction name as [|x name IH]; cbn; [reflexivity|].
          inversion Hname as [|x0 l Hx Hl]; subst. rewrite IH by assumption.
          assert (p (peek_byte x) = true) as ->; [|reflexivity].
          unfold p. apply negb_true_iff. destruct (memc (peek_byte x) [SP; NL; ":"]) eqn:Em; [|reflexivity].
          exfalso. apply Hx. apply memc_In in Em. unfold peek_byte in Em. destruct (is_cont x).
          - cbn in Em. intuition discriminate.
          - exact Em. }
        cbn [bump set_cur sc_cur sc_src sc1].
        rewrite E, nth_error_app2 by lia.
        replace (List.length (text_of pre) + 1 + List.length name - List.length (text_of pre)) with (S (List.length name)) by lia.
        cbn [nth_error]. rewrite nth_error_app2, Nat.sub_diag by lia. reflexivity. }
      cbn [bind]. unfold advance_or_hang.
      destruct (advance_until (bump sc1 1) NL eq_refl ltac:(discriminate) L) as [[E1 E2] | (E1 & E2 & E3)].
      + unfold is_at_end. rewrite E1. cbn [sc_src advance bump set_cur]. now rewrite Nat.leb_refl.
      + exfalso.
        set (m := sc_cur (advance (bump sc1 1) (fun x => negb (x == NL)))) in *.
        assert (sc_cur (bump sc1 1) <= m) as L2 by (unfold m, advance; cbn; lia).
        replace m with (sc_cur (bump sc1 1) + (m - sc_cur (bump sc1 1))) in E1 by lia.
        rewrite <- nth_error_skipn', (at_rest _ _ E) in E1. apply nth_error_In in E1.
        apply in_app_or in E1 as [E1|[E1|E1]]; [|discriminate|auto].
        rewrite Forall_forall in Hname. apply (Hname _ E1). cbn. tauto.
  Qed.
End Hangs.

Lemma hangs_iff src files pre sc rest :
  yields src files pre sc -> no_tags pre -> utf8 src -> src = text_of pre ++ rest ->
  next sc = Hang <-> unclosed (text_of pre) rest.
Proof.
  intros Hy Hn Hu E. split; [apply (next_fails _ _ _ _ _ Hy Hn Hu E)|].
  eapply unclosed_hangs; eassumption.
Qed.

(** ** Include tags are yielded only where one is written *)
Definition untagged (r : result (scanner * token)) : Prop :=
  forall sc' t, r = Ok (sc', t) -> ~ is_tag t.

Lemma nt_add sc ty lit adv : ty <> TStartTag -> ty <> TEndTag -> untagged (add_token sc ty lit adv).
Proof.
  intros H1 H2 sc' t H. apply add_token_ok in H. destruct H as (_ & _ & _ & -> & _).
  set (tok := mkTok _ _ _ _ _ _ _). destruct (validate_type tok) as [E | [E _]]; intros [K|K]; rewrite E in K;
  cbn in K; congruence.
Qed.
Lemma nt_if (b : bool) x y : (b = true -> untagged x) -> (b = false -> untagged y) -> untagged (if b then x else y).
Proof. destruct b; auto. Qed.
Lemma nt_bind {A} (m : result A) f : (forall a, m = Ok a -> untagged (f a)) -> untagged (bind m f).
Proof. intros H sc' t E. apply bind_ok in E as (a & Ha & E). eapply H; eassumption. Qed.
Lemma nt_text sc : untagged (add_text_until_next_markup sc).
Proof. apply nt_add; discriminate. Qed.
Lemma nt_bracket sc ty : ty <> TStartTag -> ty <> TEndTag -> untagged (add_until_bracket sc ty).
Proof. intros. apply nt_bind. intros. now apply nt_add. Qed.
Lemma nt_stop sc s ty : ty <> TStartTag -> ty <> TEndTag -> untagged (add_until_stop sc s ty).
Proof. intros. apply nt_bind. intros. now apply nt_add. Qed.
Lemma nt_cell f : forall sc, untagged (add_table_cell_fuel f sc).
Proof.
  induction f as [|f IH]; intros sc; cbn [add_table_cell_fuel]; apply nt_if; intros _;
  try (apply nt_add; discriminate); auto. intros ? ? ?; discriminate.
Qed.
Lemma nt_link f : forall sc, untagged (add_link_fuel f sc).
Proof.
  induction f as [|f IH]; intros sc; cbn [add_link_fuel]; repeat (apply nt_if; intros _);
  try (apply nt_add; discriminate); auto. intros ? ? ?; discriminate.
Qed.

Lemma scan_token_untagged sc0 : sc_tagend sc0 = false -> untagged (scan_token sc0)
  \/ exists c kw, nth_error (sc_src sc0) (sc_cur sc0) = Some c /\ peeks_ahead (bump sc0 1) 4 = kw
                  /\ (c :: kw = bs "tag::" \/ c :: kw = bs "end::").
Proof.
  intros Ht. destruct (nth_error (sc_src sc0) (sc_cur sc0)) as [c|] eqn:Hc.
  2:{ left. unfold scan_token, byte_at. rewrite Hc. intros ? ? ?; discriminate. }
  destruct (c == "t") eqn:E1; [apply Ascii.eqb_eq in E1; subst c|].
  { destruct (beqb (peeks_ahead (bump sc0 1) 4) (bs "ag::")) eqn:E2.
    - apply beqb_eq in E2. right. exists "t", (bs "ag::"). auto.
    - left. unfold scan_token, byte_at. rewrite Hc. cbn [bind Ascii.eqb Bool.eqb memc existsb orb].
      rewrite E2. apply nt_text. }
  destruct (c == "e") eqn:E2; [apply Ascii.eqb_eq in E2; subst c|].
  { destruct (beqb (peeks_ahead (bump sc0 1) 4) (bs "nd::")) eqn:E2.
    - apply beqb_eq in E2. right. exists "e", (bs "nd::"). auto.
    - left. unfold scan_token, byte_at. rewrite Hc. cbn [bind Ascii.eqb Bool.eqb memc existsb orb].
      rewrite E2. apply nt_text. }
  left. unfold scan_token, byte_at. rewrite Hc. cbn [bind]. rewrite E1, E2.
  unfold scan_apostrophe, scan_lt, scan_delim, scan_delim_inner, scan_lbracket, scan_backquote, scan_colon,
    scan_i, scan_amp, scan_lbrace, scan_bar, scan_keyword.
  assert (starts_end_tag_line (bump sc0 1) = false) as ->.
  { unfold starts_end_tag_line. cbn. now rewrite Ht. }
  Local Ltac nt := repeat first
    [ apply nt_text
    | apply nt_add; discriminate
    | apply nt_bracket; discriminate
    | apply nt_stop; discriminate
    | apply nt_cell | apply nt_link
    | match goal with
      | |- untagged (if _ then _ else _) => apply nt_if; intros ?
      | |- untagged (bind _ _) => apply nt_bind; intros ? ?
      | |- untagged (let (_, _) := ?x in _) => destruct x
      | |- untagged (handle_inline_formatting _ _ _ _) => unfold handle_inline_formatting
      | |- untagged (add_heading _) => unfold add_heading
      | |- untagged (match ?n with 0 => _ | S _ => _ end) => destruct n
      | |- untagged (Err _) => intros ? ? ?; discriminate
      | |- untagged Panic => intros ? ? ?; discriminate
      end ].
  nt.
  all: try match goal with H : block_from_char _ = Ok ?ty |- _ =>
      unfold block_from_char in H;
      repeat match type of H with (if ?b then _ else _) = _ => destruct b end;
      try discriminate; injection H as <-; apply nt_add; discriminate end.
  - match goal with |- untagged (match ?x with _ => _ end) => destruct x end; [|intros ? ? ?; discriminate].
    unfold attribution_type.
    apply nt_add; repeat match goal with |- (if ?b then _ else _) <> _ => destruct b end; discriminate.
  - unfold handle_text_symbol_replacement_parens. nt.
Qed.

(** the scanner never ends the process *)
Lemma ne_if {A} (b : bool) (x y : result A) : x <> Exit -> y <> Exit -> (if b then x else y) <> Exit.
Proof. now destruct b. Qed.
Lemma ne_bind {A B} (m : result A) (f : A -> result B) : m <> Exit -> (forall a, f a <> Exit) -> bind m f <> Exit.
Proof. destruct m; cbn; congruence. Qed.
Lemma ne_slice s a b : (slice s a b : result bytes) <> Exit.
Proof. unfold slice. now apply ne_if. Qed.
Lemma ne_add sc ty lit adv : add_token sc ty lit adv <> Exit.
Proof. unfold add_token. apply ne_bind; [apply ne_slice | discriminate]. Qed.
Lemma ne_text sc : add_text_until_next_markup sc <> Exit.
Proof. apply ne_add. Qed.
Lemma ne_byte sc : byte_at sc <> Exit.
Proof. unfold byte_at. destruct nth_error; discriminate. Qed.
Lemma ne_hang sc p : advance_or_hang sc p <> Exit.
Proof. unfold advance_or_hang. now apply ne_if. Qed.
Lemma ne_boundary src stop f : forall cur, boundary_loop src stop f cur <> Exit.
Proof.
  induction f as [|f IH]; intros cur; cbn [boundary_loop];
  repeat first [apply ne_if | apply ne_bind; [apply ne_slice|intros ?] | apply IH | discriminate].
Qed.
Lemma ne_cell f : forall sc, add_table_cell_fuel f sc <> Exit.
Proof.
  induction f as [|f IH]; intros sc; cbn [add_table_cell_fuel]; repeat apply ne_if; auto using ne_add; discriminate.
Qed.
Lemma ne_link f : forall sc, add_link_fuel f sc <> Exit.
Proof.
  induction f as [|f IH]; intros sc; cbn [add_link_fuel]; repeat apply ne_if; auto using ne_add; discriminate.
Qed.
Lemma ne_block l : block_from_char l <> Exit.
Proof. unfold block_from_char. repeat apply ne_if; discriminate. Qed.

Ltac ne := repeat first
    [ apply ne_text | apply ne_add | apply ne_byte | apply ne_hang | apply ne_boundary | apply ne_cell | apply ne_link
    | apply ne_slice | apply ne_block
    | match goal with
      | |- (if _ then _ else _) <> Exit => apply ne_if
      | |- bind _ _ <> Exit => apply ne_bind; [|intros ?]
      | |- (let (_, _) := ?x in _) <> Exit => destruct x
      | |- (match ?n with 0 => _ | S _ => _ end) <> Exit => destruct n
      | |- (match ?n with None => _ | Some _ => _ end) <> Exit => destruct n
      | |- Err _ <> Exit => discriminate
      | |- Ok _ <> Exit => discriminate
      | |- Panic <> Exit => discriminate
      | |- Hang <> Exit => discriminate
      end ].
Lemma scan_token_no_exit sc : scan_token sc <> Exit.
Proof.
  unfold scan_token, scan_apostrophe, scan_lt, scan_delim, scan_delim_inner, scan_lbracket, scan_backquote, scan_colon,
    scan_i, scan_amp, scan_lbrace, scan_bar, scan_keyword, handle_inline_formatting, add_heading, add_until_bracket,
    add_block_anchor, add_cross_reference, add_until_stop, add_tag, handle_text_symbol_replacement_parens,
    starts_attr, starts_attribute_reference, starts_charref, add_table_cell, add_link.
  ne.
Qed.
Lemma next_no_exit sc : next sc <> Exit.
Proof.
  unfold next. apply ne_if; [apply ne_bind; [apply scan_token_no_exit | intros [? ?]; discriminate]|].
  apply ne_if; discriminate.
Qed.

Lemma occurs_suffix a x y : occurs a y -> occurs a (x ++ y).
Proof. intros (u & v & ->). exists (x ++ u), v. now rewrite app_assoc. Qed.
Lemma occurs_prefix a y : occurs a (a ++ y).
Proof. exists [], y. reflexivity. Qed.

Lemma ascii_utf8 s : Forall ascii7 s -> utf8 s.
Proof. induction 1; constructor; auto. unfold byte_in. unfold ascii7 in H. lia. Qed.

Lemma tame_no_tags src files ts sc : tame src -> yields src files ts sc -> no_tags ts.
Proof.
  intros (Ha & Hl & Ho). induction 1 as [|ts sc t sc' Hy IH Hn]; [constructor|].
  apply Forall_app. split; [exact IH|]. constructor; [|constructor]. intros Htag.
  destruct (place _ _ _ _ Hy IH) as (F & C & E).
  pose proof (yields_text _ _ _ _ Hy IH) as [T1 T2].
  pose proof (yields_inv _ _ _ _ Hy) as (I1 & I2 & I3 & _).
  unfold next in Hn. destruct (is_at_end sc) eqn:He; cbn [negb] in Hn.
  - destruct (sc_scanning sc); [|discriminate]. injection Hn as <- <-. destruct Htag; discriminate.
  - apply bind_ok in Hn as ((sc2, t2) & Hs & Hn). injection Hn as -> ->.
    match type of Hs with scan_token ?s = _ => destruct (scan_token_untagged s) as [K | (c & kw & K1 & K2 & K3)] end.
    + exact T2.
    + exact (K _ _ Hs Htag).
    + cbn [sc_src sc_cur] in K1.
      apply (ahead_rest) in K2 as [r Hr];
        [| destruct K3 as [K3|K3]; injection K3 as _ ->; reflexivity
         | destruct K3 as [K3|K3]; injection K3 as _ ->; discriminate].
      cbn [bump set_cur sc_cur sc_src] in Hr. rewrite I1 in *.
      assert (skipn (sc_cur sc) src = (c :: kw) ++ r) as Hrest.
      { rewrite (skipn_nth _ _ _ K1). cbn. f_equal. rewrite Nat.add_1_r in Hr. exact Hr. }
      rewrite <- C in E. rewrite Hrest in E.
      rewrite Forall_forall in Ho.
      destruct K3 as [K3|K3]; rewrite K3 in E.
      * apply (Ho (bs "tag::")); [cbn; tauto|]. rewrite E. apply occurs_suffix, occurs_prefix.
      * apply (Ho (bs "end::")); [cbn; tauto|]. rewrite E. apply occurs_suffix, occurs_prefix.
Qed.

Lemma last_line s x r : at_line_start (x ++ r) -> r <> [] -> s = r -> exists b, s = b ++ [NL].
Proof.
  intros [H | (b & H)] Hr ->.
  - apply app_eq_nil in H as [_ H]. congruence.
  - destruct (destruct_last r) as [K | (a & y & ->)]; [congruence|].
    rewrite app_assoc in H. apply app_inj_tail in H as [_ ->]. eauto.
Qed.

Lemma tame_never_fails src files : tame src ->
  (exists ts, scan_with src files = Ok ts) \/ (exists e, scan_with src files = Err e).
Proof.
  intros Ht. pose proof Ht as (Ha & Hl & Ho).
  assert (Hu : utf8 src) by now apply ascii_utf8.
  destruct (scan_with src files) as [ts|e| | |] eqn:E; eauto; exfalso.
  all: unfold scan_with in E.
  all: destruct (scan_fails_in_next (List.length src + 2) src files [] _ _ (yields_nil src files) ltac:(unfold left; cbn; lia) E ltac:(discriminate))
    as (pre & sc & Y & _ & N); cbn [app] in Y.
  all: pose proof (tame_no_tags _ _ _ _ Ht Y) as Hnt.
  all: destruct (place _ _ _ _ Y Hnt) as (F & C & Es).
  all: set (rest := skipn (List.length (text_of pre)) src) in Es.
  all: destruct (next_fails _ _ _ _ rest Y Hnt Hu Es) as [Kp Kh].
  all: assert (forall a, In a (map bs ["include::"; "image:"; "[."; "[["; "<<"; "tag::"; "end::"]%string) ->
         forall r, rest <> a ++ r) as Hocc by
       (intros a Hin r Er; rewrite Forall_forall in Ho; apply (Ho a Hin); rewrite Es, Er;
        apply occurs_suffix, occurs_prefix).
  all: assert (rest <> [] -> exists b, rest = b ++ [NL]) as Hlast by
       (intros Hne; rewrite Es in Hl; eapply last_line; eauto).
  all: assert (forall x, In x rest -> ascii7 x) as H7 by
       (intros x Hx; rewrite Forall_forall in Ha; apply Ha; rewrite Es; apply in_or_app; now right).
  - specialize (Kp N). clear N Kh. clearbody rest.
    inversion Kp as [name B1 B2 B3 | name B1 B2 | name B1 B2 | n B1 B2 B3 | n x r B1 B2 B3 B4
                    | s x r B1 B2 B3 B4 B5 | s x r B1 B2 B3 B4 | r B1 B2 B3 | r B1 B2 B3 | kw r B1 B2 B3]; subst rest.
    + destruct (Hlast ltac:(discriminate)) as [b Eb].
      destruct b as [|y b]; [discriminate|]. injection Eb as _ ->.
      apply Forall_app in B2 as [_ B2]. apply Forall_inv in B2. apply B2. cbn. tauto.
    + destruct (Hlast ltac:(discriminate)) as [b Eb].
      destruct b as [|y b]; [discriminate|]. injection Eb as _ ->.
      apply Forall_app in B1 as [_ B1]. apply Forall_inv in B1. destruct B1; discriminate.
    + destruct (Hlast ltac:(discriminate)) as [b Eb].
      destruct b as [|y b]; [discriminate|]. injection Eb as _ ->.
      apply Forall_app in B1 as [_ B1]. apply Forall_inv in B1. discriminate.
    + destruct n as [|n]; [now elim B2|]. destruct (Hlast ltac:(discriminate)) as [b Eb].
      assert (In NL (repeat "=" (S n))) as K by (rewrite Eb; apply in_or_app; right; now left).
      apply repeat_spec in K. discriminate.
    + apply B3, H7. apply in_or_app. right. now left.
    + apply B4, H7. right. apply in_or_app. right. now left.
    + apply B3, H7. apply in_or_app. right. apply in_or_app. right. now left.
    + now elim (Hocc (bs "<<") ltac:(cbn; tauto) r).
    + now elim (Hocc (bs "[[") ltac:(cbn; tauto) r).
    + destruct B1 as [-> | ->].
      * now elim (Hocc (bs "tag::") ltac:(cbn; tauto) r).
      * now elim (Hocc (bs "end::") ltac:(cbn; tauto) r).
  - specialize (Kh N). clear N Kp. clearbody rest.
    inversion Kh as [r B1 B2 B3 | r B1 B2 B3 | r B1 B2 B3 | r B1 B2 | name r B1 B2 B3 B4]; subst rest.
    + now elim (Hocc (bs "include::") ltac:(cbn; tauto) r).
    + now elim (Hocc (bs "image:") ltac:(cbn; tauto) (":" :: r)).
    + now elim (Hocc (bs "image:") ltac:(cbn; tauto) r).
    + now elim (Hocc (bs "[.") ltac:(cbn; tauto) r).
    + destruct (Hlast ltac:(discriminate)) as [b Eb]. apply B3.
      destruct (destruct_last r) as [-> | (a & y & ->)].
      * change (":" :: name ++ [":"]) with ((":" :: name) ++ [":"]) in Eb.
        apply app_inj_tail in Eb as [_ Eb]. discriminate.
      * change (":" :: name ++ ":" :: a ++ [y]) with ((":" :: name) ++ (":" :: a) ++ [y]) in Eb.
        rewrite app_assoc in Eb. apply app_inj_tail in Eb as [_ ->]. apply in_or_app. right. now left.
  - exact (next_no_exit _ N).
Qed.

Lemma never_hangs src files pre sc rest :
  yields src files pre sc -> no_tags pre -> utf8 src -> src = text_of pre ++ rest ->
  ~ unclosed (text_of pre) rest -> next sc <> Hang.
Proof. intros Hy Hn Hu E K H. apply K. now apply (next_fails _ _ _ _ _ Hy Hn Hu E). Qed.
Lemma never_panics src files pre sc rest :
  yields src files pre sc -> no_tags pre -> utf8 src -> src = text_of pre ++ rest ->
  ~ breaks (text_of pre) rest -> next sc <> Panic.
Proof. intros Hy Hn Hu E K H. apply K. now apply (next_fails _ _ _ _ _ Hy Hn Hu E). Qed.

(** a test for [occurs], for examples *)
Fixpoint occursb (a s : bytes) : bool :=
  beqb (firstn (List.length a) s) a || match s with [] => false | _ :: s' => occursb a s' end.
Lemma occursb_complete a : forall s, occurs a s -> occursb a s = true.
Proof.
  intros s (x & y & ->). induction x as [|c x IH]; cbn [app].
  - destruct (a ++ y) eqn:E; rewrite <- E; destruct (a ++ y) eqn:E' in |- *; cbn [occursb];
    rewrite <- E', firstn_app, Nat.sub_diag, firstn_all; cbn [firstn]; rewrite app_nil_r, beqb_refl; reflexivity.
  - cbn [occursb]. rewrite IH. apply orb_true_r.
Qed.
Lemma not_occurs_by s l : forallb (fun a => negb (occursb a s)) l = true -> Forall (fun a => ~ occurs a s) l.
Proof.
  intros H. apply Forall_forall. intros a Ha K. rewrite forallb_forall in H. specialize (H a Ha).
  apply occursb_complete in K. rewrite K in H. discriminate.
Qed.
