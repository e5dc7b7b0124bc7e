(** * The tokens are those of the lexical grammar *)
From Verif Require Import Base Location Token Scanner SpecScan SpecLex ScanLemmas ScanFacts ScanMain ScanMain2
  ScanLine ScanFail ScanView.
Local Open Scope char_scope.
Local Open Scope nat_scope.

(** the grammar before [validate] turns references and anchors with blanks into text *)
Definition prelexed (ty : token_type) (before lexeme after : bytes) : Prop :=
  match ty with
  | TCrossReference => up_to (bs "<<") (bs ">>") lexeme /\ ~ begins (bs "<<<" ++ ["010"]) lexeme
  | TBlockAnchor => anchored before lexeme after
  | TText => plain_run lexeme after
  | _ => lexed ty before lexeme after
  end.
Definition at_char (r : bytes) : Prop := r = [] \/ exists x r', r = x :: r' /\ is_cont x = false.

Definition high (x : ascii) : bool := negb (N_of_ascii x <? 128)%N.
Lemma high_spec x : high x = true <-> ~ ascii7 x.
Proof. unfold high, ascii7. rewrite negb_true_iff, N.ltb_ge. lia. Qed.
Lemma high_false x : high x = false <-> ascii7 x.
Proof. unfold high, ascii7. rewrite negb_false_iff, N.ltb_lt. lia. Qed.

Definition wordb (r : bytes) : bool := match r with [] => true | y :: _ => Ascii.eqb y SP || Ascii.eqb y NL || high y end.
Lemma wordb_spec r : wordb r = true <-> word_ends r.
Proof.
  unfold wordb, word_ends. destruct r as [|y r]; [split; [now left | reflexivity]|].
  rewrite !orb_true_iff, !Ascii.eqb_eq, high_spec. split.
  - intros H. right. exists y, r. split; [reflexivity|]. destruct H as [[->| ->]|H]; auto.
  - intros [H | (x & r' & E & H)]; [discriminate|]. injection E as -> _. destruct H as [-> | [-> | H]]; auto.
Qed.
Definition closesb (q : ascii) (rest : bytes) : bool := match rest with [] => false | x :: r => Ascii.eqb x q && wordb r end.
Definition dashb (r : bytes) : bool :=
  match r with [] => true | y :: _ => Ascii.eqb y SP || Ascii.eqb y NUL || high y || is_ascii_alnum y end.
Lemma dashb_spec r : dashb r = true <-> r = [] \/ exists x r', r = x :: r' /\ (outside x \/ is_ascii_alnum x = true).
Proof.
  unfold dashb, outside. destruct r as [|y r]; [split; [now left | reflexivity]|].
  rewrite !orb_true_iff, !Ascii.eqb_eq, high_spec. split.
  - intros H. right. exists y, r. split; [reflexivity|]. unfold SP, NUL in H. tauto.
  - intros [H | (x & r' & E & H)]; [discriminate|]. injection E as -> _. unfold SP, NUL. tauto.
Qed.

Lemma bump_bump sc a b : bump (bump sc a) b = bump sc (a + b).
Proof. unfold bump. rewrite set_cur_set_cur. cbn [set_cur sc_cur]. f_equal. lia. Qed.

Definition span_link (x : ascii) : Prop := is_cont x = false /\ x <> NUL /\ x <> SP /\ is_punct x = false.
Definition linkish (x : ascii) : Prop := is_cont x = false /\ x <> NUL /\ x <> SP /\ (is_punct x = true -> In x inside_links).
Definition goes (w : bytes) : Prop := exists y r, w = y :: r /\ ~ outside y.
Lemma occurs_snoc s y : occurs (bs " |") (s ++ [y]) -> occurs (bs " |") s \/ (y = "|" /\ ends [" "] s).
Proof.
  intros (a & z & E). destruct (destruct_last z) as [-> | (z' & t & ->)].
  - right. rewrite app_nil_r in E. change (bs " |") with ([" "] ++ ["|"]) in E. rewrite app_assoc in E.
    apply app_inj_tail in E as [-> ->]. split; [reflexivity | now exists a].
  - left. rewrite !app_assoc in E. apply app_inj_tail in E as [-> _]. exists a, z'. now rewrite <- app_assoc.
Qed.
Lemma occurs_ext s v : ~ In "|" v -> occurs (bs " |") (s ++ v) -> occurs (bs " |") s.
Proof.
  induction v as [|x v IH] using rev_ind; intros Hv H; [now rewrite app_nil_r in H|].
  rewrite app_assoc in H. apply occurs_snoc in H as [H|[-> _]].
  - apply IH; [intros K; apply Hv, in_or_app; now left | exact H].
  - elim Hv. apply in_or_app. right. now left.
Qed.
Lemma span_linkish x : span_link x -> linkish x.
Proof. intros (H1 & H2 & H3 & H4). unfold linkish. repeat split; auto. congruence. Qed.
Lemma linkish_char s : Forall linkish s -> Forall ascii7 s -> Forall link_char s.
Proof.
  rewrite !Forall_forall. intros H Ha x Hx. destruct (H x Hx) as (_ & H2 & H3 & H4). repeat split; auto.
  intros P. apply punct_spec in P. apply H4 in P. cbn in P |- *. tauto.
Qed.
Lemma allowed_in y : memc y hyperlink_allowed_punctuation = true <-> In y inside_links.
Proof. rewrite memc_In. cbn. tauto. Qed.
Lemma inside_punct y : In y inside_links -> is_punct y = true /\ ascii7 y /\ y <> "[".
Proof. intros H. cbn in H. repeat (destruct H as [<-|H]; [repeat split; try reflexivity; discriminate|]). destruct H. Qed.

Section Lex.
  Variable sc : scanner.
  Variable before : bytes.
  Variable c : ascii.
  Variable rest : bytes.
  Hypothesis Hsrc : sc_src sc = before ++ c :: rest.
  Hypothesis Hst : sc_start sc = List.length before.
  Hypothesis Hcur : sc_cur sc = S (List.length before).
  Hypothesis Hu : utf8 (sc_src sc).
  Hypothesis H7 : ascii7 c.

  Notation peekv := (v_peek sc before c rest Hsrc Hst Hcur Hu H7).
  Notation peeksv := (v_peeks sc before c rest Hsrc Hst Hcur Hu H7).
  Notation backv := (v_back sc before c rest Hsrc Hst Hcur Hu H7).
  Notation linev := (v_line sc before c rest Hsrc Hst Hcur Hu H7).
  Notation repv := (v_repeat sc before c rest Hsrc Hst Hcur Hu H7).
  Notation advv := (v_advance sc before c rest Hsrc Hst Hcur Hu H7).
  #[local] Set Default Proof Using "All".
  Lemma Hat : at1 sc c. Proof. exact (v_at1 sc before c rest Hsrc Hst Hcur Hu H7). Qed.
  Lemma Hle : sc_cur sc <= List.length (sc_src sc). Proof. exact (at1_len sc c Hat). Qed.
  Lemma Hrest : skipn (sc_cur sc) (sc_src sc) = rest. Proof. exact (v_rest sc before c rest Hsrc Hst Hcur Hu H7). Qed.
  Lemma Hur : utf8 rest. Proof. exact (v_utf8 sc before c rest Hsrc Hst Hcur Hu H7). Qed.
  Lemma Hlen : List.length (sc_src sc) = S (List.length before + List.length rest).
  Proof. exact (v_len sc before c rest Hsrc Hst Hcur Hu H7). Qed.

  (** ** Views of the compound tests *)
  Lemma peeks_short n : List.length rest < n -> peeks_ahead sc n = [NUL].
  Proof.
    intros H. unfold peeks_ahead.
    assert (List.length (sc_src sc) <? sc_cur sc + n = true) as -> by (apply Nat.ltb_lt; rewrite Hlen, Hcur; lia).
    now rewrite orb_true_r.
  Qed.
  Lemma second_char x y r : rest = x :: y :: r -> ascii7 x -> is_cont y = false.
  Proof.
    intros E Hx. pose proof Hur as U. rewrite E in U. apply (utf8_after [] x) in U; [|exact Hx].
    apply utf8_head in U as [K|(z & r' & K & Kz)]; [discriminate|]. injection K as -> _. exact Kz.
  Qed.
  (** looking two ahead over [x] *)
  Lemma peeks_two x r : rest = x :: r -> ascii7 x ->
    peeks_ahead sc 2 = match r with [] => [NUL] | y :: _ => if high y then [NUL] else [x; y] end.
  Proof.
    intros E Hx. destruct r as [|y r]; [apply peeks_short; rewrite E; cbn; lia|].
    pose proof (second_char x y r E Hx) as Hy. pose proof Hur as U. rewrite E in U.
    destruct (high y) eqn:Eh.
    - apply high_spec in Eh. destruct (lead_followed [x] y r U Eh Hy) as (d & r' & -> & Hd).
      unfold peeks_ahead. assert (is_boundary (sc_src sc) (sc_cur sc + 2) = false) as ->; [|now rewrite !orb_true_r].
      unfold is_boundary. rewrite <- nth_error_skipn', Hrest, E. cbn [nth_error]. rewrite Hd, Hcur. cbn. reflexivity.
    - apply high_false in Eh. eapply (peeks_ahead_at sc 2 [x; y]); [rewrite Hrest; exact E | reflexivity | discriminate|].
      apply utf8_head. apply (utf8_after [x] y r); assumption.
  Qed.
  Lemma rest_case : rest = [] \/ exists x r, rest = x :: r.
  Proof. clear. destruct rest; eauto. Qed.
  Lemma closesv q : ascii7 q -> q <> NUL -> closes_word sc q = closesb q rest.
  Proof.
    intros Hq Hn. unfold closes_word. rewrite peekv. destruct rest_case as [E | (x & r & E)].
    - rewrite peeks_short by (rewrite E; cbn; lia). rewrite E. cbn.
      destruct q as [[] [] [] [] [] [] [] []]; try reflexivity; now elim Hn.
    - rewrite E at 1 2. cbn [hd closesb]. destruct (Ascii.eqb x q) eqn:Ex.
      + apply Ascii.eqb_eq in Ex. subst x. rewrite (peeks_two q r E Hq). cbn [andb].
        destruct r as [|y r]; [now rewrite orb_true_r|]. unfold wordb. destruct (high y) eqn:Ey; cbn [orb].
        * now rewrite !orb_true_r.
        * cbn [memb existsb beqb]. rewrite Ascii.eqb_refl. cbn [andb]. rewrite !andb_true_r, ?andb_false_r, !orb_false_r.
          destruct (Ascii.eqb y SP), (Ascii.eqb y NL); reflexivity.
      + cbn [andb]. rewrite andb_false_r, orb_false_r. apply not_true_is_false. intros K. apply memb_In in K.
        assert (exists y, peeks_ahead sc 2 = [q; y]) as (y & Ky) by (destruct K as [<-|[<-|[]]]; eauto).
        apply (peeks_ahead_prefix sc [q; y]) in Ky as (r' & Ky); [|discriminate]. rewrite Hrest, E in Ky.
        injection Ky as -> _. now rewrite Ascii.eqb_refl in Ex.
  Qed.
  Lemma dashv : starts_text_symbol_replace_emdash sc = match rest with [] => false | x :: r => Ascii.eqb x "-" && dashb r end.
  Proof.
    unfold starts_text_symbol_replace_emdash. rewrite peekv. destruct rest_case as [E | (x & r & E)]; rewrite E; [reflexivity|].
    cbn [hd]. destruct (Ascii.eqb x "-") eqn:Ex; [|reflexivity]. apply Ascii.eqb_eq in Ex. subst x.
    rewrite (peeks_two "-" r E eq_refl). cbn [andb]. destruct r as [|y r]; [reflexivity|]. unfold dashb.
    destruct (high y) eqn:Ey; [rewrite !orb_true_r; reflexivity|]. cbn [last]. apply high_false in Ey. rewrite latin1_ascii by exact Ey.
    cbn [memc existsb].
    destruct (is_ascii_alnum y), (Ascii.eqb y SP), (Ascii.eqb y NUL); reflexivity.
  Qed.
  Lemma parensv : starts_text_symbol_replace_parens sc
    = starts_with (bs "C)") rest || starts_with (bs "R)") rest || starts_with (bs "TM)") rest.
  Proof.
    unfold starts_text_symbol_replace_parens.
    change (peeks_ahead sc 3) with (peeks_ahead sc (List.length (bs "TM)"))). rewrite peeksv by (try discriminate; now repeat constructor).
    f_equal. cbn [memb existsb]. rewrite orb_false_r.
    f_equal; [apply (peeksv (bs "C)")) | apply (peeksv (bs "R)"))]; try discriminate; now repeat constructor.
  Qed.

  Lemma span_cases p l : exists v r, l = v ++ r /\ span_len p l = List.length v
    /\ Forall (fun b => p (peek_byte b) = true) v /\ (r = [] \/ exists y r', r = y :: r' /\ p (peek_byte y) = false).
  Proof.
    clear. induction l as [|b l IH]; cbn.
    - exists [], []. repeat split; auto.
    - destruct (p (peek_byte b)) eqn:E.
      + destruct IH as (v & r & -> & -> & Hv & Hr). exists (b :: v), r. repeat split; auto.
      + exists [], (b :: l). repeat split; eauto.
  Qed.

  (** ** Soundness *)
  Definition Sd : nat -> token_type -> bool -> nat -> Prop := fun n ty _ _ =>
    exists k, n = sc_cur sc + k
      /\ forall s r, rest = s ++ r -> List.length s = k -> at_char r -> prelexed ty before (c :: s) r.

  Lemma split_len {A} (a b a' b' : list A) : a ++ b = a' ++ b' -> List.length a = List.length a' -> a = a' /\ b = b'.
  Proof.
    clear. revert a'. induction a as [|x a IH]; intros [|y a'] E L; cbn in *; try lia; [auto|].
    injection E as -> E. destruct (IH a' E ltac:(lia)) as [-> ->]. auto.
  Qed.
  Lemma sd_fixed p r ty lit adv : rest = p ++ r -> (at_char r -> prelexed ty before (c :: p) r) ->
    emits sc (add_token (bump sc (List.length p)) ty lit adv) Sd.
  Proof.
    intros E H. apply emits_bump. exists (List.length p). split; [reflexivity|]. intros s r' E' L Hr.
    rewrite E in E'. symmetry in E'. apply split_len in E' as [-> ->]; auto.
  Qed.
  Lemma sd_same ty lit adv : prelexed ty before [c] rest -> emits sc (add_token sc ty lit adv) Sd.
  Proof.
    intros H. apply emits_same. exists 0. split; [lia|]. intros s r E L _. destruct s; [|discriminate]. cbn in E. now subst r.
  Qed.
  Lemma markup_stop b : memc (peek_byte b) markup_chars = true <-> In b ends_text.
  Proof.
    clear. rewrite memc_In. unfold peek_byte. destruct (is_cont b) eqn:E; [|reflexivity]. split.
    - intros H. cbn in H. intuition discriminate.
    - intros H. exfalso. cbn in H. repeat (destruct H as [<-|H]; [discriminate|]). exact H.
  Qed.
  Lemma sd_text u r : rest = u ++ r -> (forall y, In y u -> ~ In y ends_text) ->
    emits sc (add_text_until_next_markup (bump sc (List.length u))) Sd.
  Proof.
    intros E H. unfold add_text_until_next_markup. unfold advance.
    cbn [bump set_cur sc_cur sc_src]. rewrite <- skipn_skipn', Hrest, E, skipn_length_app.
    destruct (span_cases (fun c0 => negb (memc c0 markup_chars)) r) as (v & r' & -> & -> & Hv & Hr).
    change (bump (bump sc (List.length u)) (List.length v)) with (set_cur sc (sc_cur sc + List.length u + List.length v)).
    apply emits_add_token; [lia|]. exists (List.length (u ++ v)). split; [rewrite app_length; lia|].
    intros s r0 E' L _. rewrite E, app_assoc in E'. symmetry in E'. apply split_len in E' as [-> ->]; [|exact L].
    cbn. exists c, (u ++ v). split; [reflexivity|]. split.
    - intros x Hx K. apply in_app_or in Hx as [Hx|Hx]; [now apply (H x)|].
      rewrite Forall_forall in Hv. apply Hv in Hx. apply markup_stop in K. rewrite K in Hx. discriminate.
    - destruct Hr as [-> | (y & r1 & -> & Hy)]; [now left | right]. exists y, r1. split; [reflexivity|].
      apply markup_stop. now apply negb_false_iff in Hy.
  Qed.
  Lemma sd_text0 : emits sc (add_text_until_next_markup sc) Sd.
  Proof.
    pose proof (sd_text [] rest eq_refl (fun y K => match K with end)) as H. cbn [List.length] in H.
    replace (bump sc 0) with sc in H; [exact H|]. unfold bump. rewrite Nat.add_0_r. symmetry. apply set_cur_id.
  Qed.
  Lemma sd_tag : emits sc (add_tag sc) Sd.
  Proof. apply emits_tag; [rewrite Hst, Hcur; lia | exact Hle]. Qed.

  Ltac ascii_list := repeat constructor.
  Ltac branch :=
    repeat (match goal with |- emits _ (if _ then _ else _) _ => apply emits_if; intros ? end);
    try (first [exact sd_text0 | exact sd_tag]).
  Ltac refl :=
    repeat match goal with
    | H : _ && _ = true |- _ => apply andb_true_iff in H; destruct H
    | H : Ascii.eqb _ _ = true |- _ => apply Ascii.eqb_eq in H
    | H : Ascii.eqb _ _ = false |- _ => apply Ascii.eqb_neq in H
    | H : starts_with _ _ = true |- _ => apply starts_with_begins in H
    | H : starts_with _ _ = false |- _ => apply starts_with_not in H
    | H : lineb _ = true |- _ => apply lineb_spec in H
    | H : lineb _ = false |- _ => apply lineb_false in H
    end.

  Lemma inline_view ty1 ty2 : handle_inline_formatting sc c ty1 ty2 =
    if Ascii.eqb (hd NUL rest) SP && Ascii.eqb (prevc before) SP then add_text_until_next_markup sc
    else if Ascii.eqb (hd NUL rest) c then add_token (bump sc 1) ty2 false 0
    else if memc (hd NUL rest) after_mark || memc (prevc before) before_mark then add_token sc ty1 false 0
    else add_text_until_next_markup sc.
  Proof.
    unfold handle_inline_formatting. rewrite peekv, backv.
    destruct (Ascii.eqb (hd NUL rest) SP && _); [reflexivity|].
    destruct (Ascii.eqb (hd NUL rest) c); [reflexivity|]. cbn [negb]. rewrite andb_true_r. reflexivity.
  Qed.

  Lemma nextv l : In NUL l -> memc (hd NUL rest) l = true <-> next_in l rest.
  Proof. exact (v_next_in sc before c rest Hsrc Hst Hcur Hu H7 l). Qed.
  Lemma previnv l : In NUL l -> (forall x, In x l -> ascii7 x) -> memc (prevc before) l = true <-> prev_in l before.
  Proof. exact (v_prev_in sc before c rest Hsrc Hst Hcur Hu H7 l). Qed.
  Lemma previsv y : ascii7 y -> y <> NUL -> Ascii.eqb (prevc before) y = true <-> ends [y] before.
  Proof. exact (v_prev_is sc before c rest Hsrc Hst Hcur Hu H7 y). Qed.
  Lemma previsv' y : ascii7 y -> y <> NUL -> Ascii.eqb (prevc before) y = false <-> ~ ends [y] before.
  Proof. intros H H'. rewrite <- (previsv y H H'). destruct (Ascii.eqb (prevc before) y); intuition congruence. Qed.
  Lemma hdv y : y <> NUL -> Ascii.eqb (hd NUL rest) y = true <-> begins [y] rest.
  Proof. intros H. rewrite Ascii.eqb_eq. now apply hd_begins. Qed.
  Lemma hdv' y : y <> NUL -> Ascii.eqb (hd NUL rest) y = false <-> ~ begins [y] rest.
  Proof. intros H. rewrite <- (hdv y H). destruct (Ascii.eqb (hd NUL rest) y); intuition congruence. Qed.
  Lemma all_ascii l : forallb is_ascii l = true -> forall x, In x l -> ascii7 x.
  Proof. clear. intros H x Hx. rewrite forallb_forall in H. apply H in Hx. unfold is_ascii, ascii7 in *. now apply N.ltb_lt. Qed.
  Lemma after_markv : memc (hd NUL rest) after_mark = true <-> next_in after_mark rest.
  Proof. apply nextv. cbn. auto. Qed.
  Lemma before_markv : memc (prevc before) before_mark = true <-> prev_in before_mark before.
  Proof. apply previnv; [cbn; auto | now apply all_ascii]. Qed.

  Lemma sd_inline ty1 ty2 : c <> NUL ->
    (formats c before rest -> prelexed ty1 before [c] rest) ->
    (forall r, rest = c :: r -> prelexed ty2 before [c; c] r) ->
    emits sc (handle_inline_formatting sc c ty1 ty2) Sd.
  Proof.
    intros Hc H1 H2. rewrite inline_view. branch.
    - match goal with H : _ == c = true |- _ => apply (hdv c Hc) in H as (r & E) end.
      apply (sd_fixed [c] r); auto.
    - apply sd_same. apply H1. repeat split.
      + intros [K1 K2]. apply (previsv SP eq_refl) in K1; [|discriminate]. apply (hdv SP) in K2; [|discriminate].
        match goal with H : _ && _ = false |- _ => rewrite K1, K2 in H; discriminate end.
      + apply hdv'; [exact Hc | assumption].
      + match goal with H : _ || _ = true |- _ => apply orb_true_iff in H as [H|H] end.
        * left. now apply after_markv.
        * right. now apply before_markv.
  Qed.

  (** ** Branch by branch *)
  Lemma apostrophe_view : c = "'" -> scan_apostrophe sc c =
    if starts_end_tag_line sc then add_tag sc
    else if starts_with (bs "''" ++ [NL]) rest then add_token (bump sc 2) TThematicBreak false 0
    else if memc (prevc before) [NUL; SP; NL] && (hd NUL rest == "`") then add_token (bump sc 1) TOpenSingleQuote true 0
    else if closesb "s" rest then add_token sc TCharRef false 0
    else add_text_until_next_markup sc.
  Proof.
    intros Hc. unfold scan_apostrophe. rewrite (repv 2), backv, peekv, closesv by (subst; try discriminate; reflexivity).
    now rewrite Hc.
  Qed.
  Lemma quote_prevv : memc (prevc before) [NUL; SP; NL] = true <-> prev_in ["000"; " "; "010"] before.
  Proof. apply (previnv ["000"; " "; "010"]); [cbn; auto | now apply all_ascii]. Qed.
  Lemma closesb_spec q : closesb q rest = true <-> exists r, rest = q :: r /\ word_ends r.
  Proof.
    clear. unfold closesb. destruct rest as [|x r]; [split; [discriminate | intros (r & E & _); discriminate]|].
    rewrite andb_true_iff, Ascii.eqb_eq, wordb_spec. split.
    - intros [-> H]. eauto.
    - intros (r' & E & H). injection E as -> ->. auto.
  Qed.
  Lemma sd_apostrophe : c = "'" -> emits sc (scan_apostrophe sc c) Sd.
  Proof.
    intros Hc. rewrite apostrophe_view by exact Hc. branch.
    - refl. match goal with H : begins _ _ |- _ => destruct H as (r & E) end.
      apply (sd_fixed (bs "''") (NL :: r)); [exact E|]. intros _. rewrite Hc. split; [reflexivity | now exists r].
    - match goal with H : _ && _ = true |- _ => apply andb_true_iff in H as [K1 K2] end.
      apply quote_prevv in K1. apply (hdv "`") in K2 as (r & E); [|discriminate].
      apply (sd_fixed ["`"] r); [exact E|]. intros _. rewrite Hc. split; [reflexivity | exact K1].
    - match goal with H : closesb _ _ = true |- _ => apply closesb_spec in H as (r & E & Hr) end.
      apply sd_same. left. rewrite Hc. split; [reflexivity | eauto].
  Qed.

  (** *** block delimiter characters *)
  Definition comment_tagb : bool := starts_with (bs "/ tag::") rest || starts_with (bs "/ end::") rest.
  Lemma comment_tagv : memb (peeks_ahead sc 7) [bs "/ tag::"; bs "/ end::"] = comment_tagb.
  Proof.
    unfold comment_tagb. cbn [memb existsb]. rewrite orb_false_r.
    f_equal; [apply (peeksv (bs "/ tag::")) | apply (peeksv (bs "/ end::"))]; try discriminate; now repeat constructor.
  Qed.
  Lemma dotsv : beqb (peeks_ahead sc 2) (bs "..") = starts_with (bs "..") rest.
  Proof. apply (peeksv (bs "..")); try discriminate; now repeat constructor. Qed.
  Definition dash_rest : bool := match rest with [] => false | x :: r => (x == "-") && dashb r end.
  Lemma delim_inner_view : scan_delim_inner sc c =
    if c == "=" then
      if hd NUL rest == ">" then add_token (bump sc 1) TCharRef false 0
      else if lineb before then add_heading sc
      else add_text_until_next_markup sc
    else if c == "-" then
      if hd NUL rest == ">" then add_token (bump sc 1) TCharRef false 0
      else if dash_rest then add_token (bump sc 1) TCharRef false 0
      else if lineb before && starts_with (bs "-" ++ [NL]) rest then add_token (bump sc 1) TOpenBlock false 0
      else add_text_until_next_markup sc
    else if c == "*" then
      if lineb before && (hd NUL rest == SP) then add_list_item sc TUnorderedListItem
      else handle_inline_formatting sc c TStrong TUnconstrainedStrong
    else if c == "/" then
      if starts_end_tag_line sc then add_tag sc
      else if lineb before && (hd NUL rest == "/") then
        if comment_tagb then add_token (bump sc 2) TComment true 0
        else add_token (bump sc (span_len (fun c => negb (c == NL)) rest)) TComment true 0
      else add_text_until_next_markup sc
    else if c == "+" then
      if lineb before && (hd NUL rest == NL) then add_token sc TBlockContinuation false 0
      else if (prevc before == SP) && (hd NUL rest == NL) then add_token sc TLineContinuation false 0
      else handle_inline_formatting sc c TLiteral TUnconstrainedLiteral
    else if c == "_" then handle_inline_formatting sc c TEmphasis TUnconstrainedEmphasis
    else if c == "." then
      if starts_with (bs "..") rest then add_token (bump sc 2) TCharRef false 0
      else if lineb before then
        if hd NUL rest == SP then add_list_item sc TOrderedListItem
        else add_token sc TBlockLabel false 0
      else add_text_until_next_markup sc
    else add_text_until_next_markup sc.
  Proof.
    unfold scan_delim_inner. rewrite peekv, linev, backv, dashv, dotsv, comment_tagv, advv.
    destruct (c == "-") eqn:E; [|reflexivity]. rewrite (repv 1); [|apply Ascii.eqb_eq in E; subst; discriminate].
    apply Ascii.eqb_eq in E. now rewrite E.
  Qed.
  Lemma delim_view : c <> NUL -> scan_delim sc c =
    if starts_end_tag_line sc then add_tag sc
    else if lineb before && starts_with (repeat c 3 ++ [NL]) rest then
      let* ty := block_from_char c in add_token (bump sc 3) ty false 0
    else scan_delim_inner sc c.
  Proof. intros Hc. unfold scan_delim. now rewrite linev, (repv 3) by exact Hc. Qed.

  Lemma ends_at_nl v : Forall (fun b => negb (peek_byte b == NL) = true) v -> ~ In "010" v.
  Proof. clear. intros H K. rewrite Forall_forall in H. apply H in K. discriminate. Qed.
  Lemma stops_at_nl y : negb (peek_byte y == NL) = false -> y = NL.
  Proof. clear. intros H. apply negb_false_iff, Ascii.eqb_eq in H. exact (proj1 (peek_byte_ascii y NL eq_refl ltac:(discriminate)) H). Qed.
  Lemma equals_run v : Forall (fun b => peek_byte b == "=" = true) v -> v = repeat "=" (List.length v).
  Proof.
    clear. induction 1 as [|x v H _ IH]; [reflexivity|]. cbn. rewrite <- IH. f_equal.
    apply Ascii.eqb_eq in H. exact (proj1 (peek_byte_ascii x "=" eq_refl ltac:(discriminate)) H).
  Qed.
  (** a character with a boundary behind it that follows ASCII text is ASCII *)
  Lemma followed_ascii p x r : rest = p ++ x :: r -> Forall ascii7 p -> at_char r -> ascii7 x.
  Proof.
    intros E Hp Hr. destruct (ascii7_dec x) as [H|H]; [exact H|]. exfalso.
    assert (utf8 (x :: r)) as U by (eapply (v_utf8_after sc before c rest Hsrc Hst Hcur Hu H7); eassumption).
    assert (is_cont x = false) as Hx by (apply utf8_head in U as [K|(z & r' & K & Kz)]; [discriminate | injection K as -> _; exact Kz]).
    destruct (lead_followed [] x r U H Hx) as (d & r' & -> & Hd).
    destruct Hr as [K|(z & r0 & K & Kz)]; [discriminate|]. injection K as <- _. congruence.
  Qed.
  Lemma sd_heading : c = "=" -> at_line_start before -> ~ begins [">"] rest -> ~ begins (bs "===" ++ [NL]) rest ->
    emits sc (add_heading sc) Sd.
  Proof.
    intros Hc Hl Hg Hd. unfold add_heading. rewrite advv.
    destruct (span_cases (fun c0 => c0 == "=") rest) as (v & r & E & El & Hv & Hr). rewrite El.
    apply equals_run in Hv. remember (List.length v) as k eqn:Ek.
    cbn [bump set_cur sc_cur sc_start].
    replace (sc_cur sc + k + 1 - 1 - sc_start sc) with (S k) by (rewrite Hst, Hcur; lia).
    assert (forall ty, heading_type (S k) = Some ty ->
      (forall s, heading (S k) before s -> prelexed ty before s (tl r)) ->
      emits sc (add_token (bump (bump sc k) 1) ty false 0) Sd) as K.
    { intros ty _ H. change (bump (bump sc k) 1) with (set_cur sc (sc_cur sc + k + 1)). apply emits_add_token; [lia|].
      exists (k + 1). split; [lia|]. intros s r0 Es Ls Hr0. rewrite E in Es.
      destruct r as [|x r].
      - exfalso. rewrite app_nil_r in Es. rewrite Es, app_length in Ek. lia.
      - assert (s = v ++ [x] /\ r0 = r) as [-> ->].
        { apply split_len; [rewrite <- Es, <- app_assoc; reflexivity | rewrite app_length, Ls; cbn; lia]. }
        cbn [tl] in H. apply H. split; [exact Hl|]. exists x. rewrite Hc, Hv. split; [reflexivity|].
        assert (ascii7 x) as Hx.
        { eapply followed_ascii; [exact E | rewrite Hv; apply Forall_forall; intros z Hz; apply repeat_spec in Hz; now subst | exact Hr0]. }
        split; [exact Hx|]. destruct Hr as [K|(y & r' & K & Hy)]; [discriminate|]. injection K as <- <-.
        split; [intros ->; discriminate|]. split.
        + intros [K ->]. apply Hg. rewrite E. assert (v = []) as -> by (destruct v; [reflexivity | cbn in Ek; lia]). now exists r.
        + intros [K ->]. apply Hd. rewrite E, Hv. injection K as ->. now exists r. }
    destruct k as [|[|[|[|[|k]]]]]; try (apply K; [reflexivity | intros s Hs; exact Hs]); apply emits_fail; discriminate.
  Qed.

  Ltac head_is y H r E := let K := fresh in pose proof H as K; apply (hdv y) in K as (r & E); [|discriminate].
  Lemma lineb_both (b : bool) : lineb before && b = false -> at_line_start before -> b = false.
  Proof. intros H L. apply lineb_spec in L. now rewrite L in H. Qed.
  Lemma sd_delim_inner : ~ (at_line_start before /\ begins (repeat c 3 ++ [NL]) rest) ->
    emits sc (scan_delim_inner sc c) Sd.
  Proof.
    intros Hd. rewrite delim_inner_view.
    apply emits_if; intros Ec; [apply Ascii.eqb_eq in Ec|].
    { branch.
      - match goal with H : _ == ">" = true |- _ => head_is ">" H r E end.
        apply (sd_fixed [">"] r); [exact E|]. intros _. rewrite Ec. right. left. cbn; tauto.
      - refl. apply sd_heading; [exact Ec | assumption | |].
        + apply hdv'; [discriminate|]. now apply Ascii.eqb_neq.
        + intros K. apply Hd. rewrite Ec. auto. }
    apply emits_if; intros Ec1; [apply Ascii.eqb_eq in Ec1|].
    { branch.
      - match goal with H : _ == ">" = true |- _ => head_is ">" H r E end.
        apply (sd_fixed [">"] r); [exact E|]. intros _. rewrite Ec1. right. left. cbn; tauto.
      - match goal with H : dash_rest = true |- _ => unfold dash_rest in H; rename H into K end.
        destruct rest_case as [E | (x & r & E)]; rewrite E in K; [discriminate|]. apply andb_true_iff in K as [K1 K2].
        apply Ascii.eqb_eq in K1. subst x. apply (sd_fixed ["-"] r); [exact E|]. intros _. rewrite Ec1.
        right. right. left. split; [reflexivity | now apply dashb_spec].
      - refl. match goal with H : begins _ _ |- _ => destruct H as (r & E) end.
        apply (sd_fixed ["-"] (NL :: r)); [exact E|]. intros _. rewrite Ec1. split; [assumption|]. split; [reflexivity | now exists r]. }
    apply emits_if; intros Ec2; [apply Ascii.eqb_eq in Ec2|].
    { branch.
      - refl. match goal with H : hd _ _ = SP |- _ => apply Ascii.eqb_eq in H; head_is SP H r E end.
        unfold add_list_item. apply (sd_fixed [SP] r); [exact E|]. intros _. rewrite Ec2. split; [assumption | reflexivity].
      - apply sd_inline; [rewrite Ec2; discriminate | |]; rewrite Ec2.
        + intros F. split; [reflexivity|]. split; [exact F|]. intros [L B].
          apply (hdv SP) in B; [|discriminate]. apply lineb_spec in L.
          match goal with H : _ && _ = false |- _ => rewrite L, B in H; discriminate end.
        + intros r E. split; [reflexivity|]. intros [L (t & B)]. apply Hd. rewrite Ec2. split; [exact L|].
          exists t. rewrite E, B. reflexivity. }
    apply emits_if; intros Ec3; [apply Ascii.eqb_eq in Ec3|].
    { branch.
      - match goal with H : comment_tagb = true |- _ => unfold comment_tagb in H; apply orb_true_iff in H; rename H into K end.
        refl. assert (exists kw r, rest = bs "/ " ++ kw ++ r /\ (kw = bs "tag::" \/ kw = bs "end::")) as (kw & r & E & Hk).
        { destruct K as [K|K]; apply starts_with_begins in K as (r & K); [exists (bs "tag::"), r | exists (bs "end::"), r]; auto. }
        apply (sd_fixed (bs "/ ") (kw ++ r)); [exact E|]. intros _. rewrite Ec3. split; [assumption|]. left. split; [reflexivity|].
        destruct Hk as [-> | ->]; [left | right]; apply begins_app.
      - match goal with H : comment_tagb = false |- _ => unfold comment_tagb in H; apply orb_false_iff in H as [K1 K2] end.
        refl. match goal with H : hd _ _ = "/" |- _ => apply Ascii.eqb_eq in H; head_is "/" H r E end.
        destruct (span_cases (fun c0 => negb (c0 == NL)) rest) as (v & t & Ev & El & Hv & Ht). rewrite El.
        apply (sd_fixed v t); [exact Ev|]. intros _. rewrite Ec3. split; [assumption|]. right.
        destruct v as [|y v].
        { exfalso. cbn in Ev. destruct Ht as [->|(y & t' & -> & Hy)]; [rewrite Ev in E; discriminate E|].
          apply stops_at_nl in Hy. rewrite Ev in E. subst y. discriminate E. }
        assert (y = "/") as -> by (cbn in Ev; rewrite Ev in E; injection E; auto).
        assert (line_ends t) as Lt.
        { destruct Ht as [->|(y & t' & -> & Hy)]; [now left | right]. apply stops_at_nl in Hy. subst y. now exists t'. }
        apply ends_at_nl in Hv. exists v. split; [reflexivity|]. split; [intros K; apply Hv; now right|]. split; [exact Lt|].
        split; [|split].
        + intros (z & ->). apply K1. rewrite Ev. exists (z ++ t). reflexivity.
        + intros (z & ->). apply K2. rewrite Ev. exists (z ++ t). reflexivity.
        + intros [-> Hne]. apply Hd. split; [assumption|]. destruct Lt as [->|(z & ->)]; [now elim Hne|].
          rewrite Ec3. exists z. exact Ev. }
    apply emits_if; intros Ec4; [apply Ascii.eqb_eq in Ec4|].
    { branch.
      - refl. match goal with H : hd _ _ = NL |- _ => apply Ascii.eqb_eq in H; head_is NL H r E end.
        apply sd_same. rewrite Ec4. split; [assumption|]. split; [reflexivity | now exists r].
      - match goal with H : (prevc _ == SP) && _ = true |- _ => apply andb_true_iff in H as [K1 K2] end.
        apply previsv in K1; [|reflexivity | discriminate]. apply (hdv NL) in K2; [|discriminate].
        apply sd_same. rewrite Ec4. split; [reflexivity|]. auto.
      - apply sd_inline; [rewrite Ec4; discriminate | |]; rewrite Ec4.
        + intros F. split; [reflexivity|]. split; [exact F|]. split.
          * intros [L B]. apply (hdv NL) in B; [|discriminate]. apply lineb_spec in L.
            match goal with H : lineb _ && _ = false |- _ => rewrite L, B in H; discriminate end.
          * intros [L B]. apply (hdv NL) in B; [|discriminate]. apply (previsv SP eq_refl) in L; [|discriminate].
            match goal with H : (prevc _ == SP) && _ = false |- _ => rewrite L, B in H; discriminate end.
        + intros r E. split; [reflexivity|]. intros [L (t & B)]. apply Hd. rewrite Ec4. split; [exact L|].
          exists t. rewrite E, B. reflexivity. }
    apply emits_if; intros Ec5; [apply Ascii.eqb_eq in Ec5|].
    { apply sd_inline; [rewrite Ec5; discriminate | |]; rewrite Ec5.
      - intros F. split; [reflexivity | exact F].
      - intros r E. split; [reflexivity|]. intros [L (t & B)]. apply Hd. rewrite Ec5. split; [exact L|].
        exists t. rewrite E, B. reflexivity. }
    apply emits_if; intros Ec6; [apply Ascii.eqb_eq in Ec6|].
    { branch.
      - refl. match goal with H : begins _ _ |- _ => destruct H as (r & E) end.
        apply (sd_fixed (bs "..") r); [exact E|]. intros _. rewrite Ec6. right. right. right. left. split; [reflexivity|].
        intros [L (t & B)]. apply Hd. rewrite Ec6. split; [exact L|]. exists t. rewrite E, B. reflexivity.
      - refl. match goal with H : hd _ _ = SP |- _ => apply Ascii.eqb_eq in H; head_is SP H r E end.
        unfold add_list_item. apply (sd_fixed [SP] r); [exact E|]. intros _. rewrite Ec6. split; [assumption | reflexivity].
      - refl. apply sd_same. rewrite Ec6. split; [assumption|]. split; [reflexivity|]. split; [assumption|].
        apply hdv'; [discriminate|]. now apply Ascii.eqb_neq. }
    exact sd_text0.
  Qed.
  Lemma sd_delim : memc c ["+"; "*"; "-"; "_"; "/"; "="; "."] = true -> emits sc (scan_delim sc c) Sd.
  Proof.
    intros Hin. assert (c <> NUL) as Hn by (intros ->; discriminate). rewrite delim_view by exact Hn. branch.
    - refl. match goal with H : begins _ _ |- _ => destruct H as (r & E) end.
      apply emits_bind. intros ty Hty. apply (sd_fixed (repeat c 3) (NL :: r)); [now rewrite <- app_assoc in E|].
      intros _. assert (delimiter_line c before (c :: repeat c 3) (NL :: r)) as D
        by (split; [assumption|]; split; [now exists r | reflexivity]).
      unfold block_from_char in Hty.
      repeat match type of Hty with
        | (if ?b then _ else _) = _ => destruct b eqn:?E
        end; try discriminate; injection Hty as <-; refl; subst c; exact D.
    - apply sd_delim_inner. intros [L B].
      match goal with H : lineb _ && _ = false |- _ => apply lineb_both in H; [|exact L]; apply starts_with_not in H; auto end.
  Qed.

  (** *** references and anchors *)
  Lemma loop_visits stop : forall fuel cur n, boundary_loop (sc_src sc) stop fuel cur = Ok n ->
    cur <= n
    /\ (forall p, cur <= p < n -> p < List.length (sc_src sc)
          /\ (p + List.length stop <= List.length (sc_src sc) -> is_boundary (sc_src sc) (p + List.length stop) = true ->
              is_boundary (sc_src sc) p = true /\ firstn (List.length stop) (skipn p (sc_src sc)) <> stop))
    /\ (List.length (sc_src sc) <= n
        \/ n + List.length stop <= List.length (sc_src sc) /\ firstn (List.length stop) (skipn n (sc_src sc)) = stop).
  Proof.
    clear.
    assert (forall cur n : nat, n = cur -> (List.length (sc_src sc) <= n
        \/ n + List.length stop <= List.length (sc_src sc) /\ firstn (List.length stop) (skipn n (sc_src sc)) = stop) ->
      cur <= n
    /\ (forall p, cur <= p < n -> p < List.length (sc_src sc)
          /\ (p + List.length stop <= List.length (sc_src sc) -> is_boundary (sc_src sc) (p + List.length stop) = true ->
              is_boundary (sc_src sc) p = true /\ firstn (List.length stop) (skipn p (sc_src sc)) <> stop))
    /\ (List.length (sc_src sc) <= n
        \/ n + List.length stop <= List.length (sc_src sc) /\ firstn (List.length stop) (skipn n (sc_src sc)) = stop)) as K0.
    { intros cur n -> H. split; [lia|]. split; [intros; lia | exact H]. }
    induction fuel as [|f IH]; intros cur n H; cbn [boundary_loop] in H;
    destruct (Nat.leb_spec (List.length (sc_src sc)) cur) as [L|L];
      [apply K0; [congruence | left; injection H as <-; exact L] | | apply K0; [congruence | left; injection H as <-; exact L] |].
    - destruct (Nat.ltb_spec (List.length (sc_src sc)) (cur + List.length stop)) as [L1|L1]; [discriminate|].
      destruct (is_boundary (sc_src sc) (cur + List.length stop)) eqn:B1; cbn [negb] in H; [|discriminate].
      destruct (is_boundary (sc_src sc) cur) eqn:B2; cbn [negb] in H; [|discriminate].
      destruct (beqb (firstn (List.length stop) (skipn cur (sc_src sc))) stop) eqn:B3; [|discriminate].
      injection H as <-. apply K0; [reflexivity|]. right. split; [exact L1 | now apply beqb_eq].
    - assert (boundary_loop (sc_src sc) stop f (S cur) = Ok n ->
        (cur + List.length stop <= List.length (sc_src sc) -> is_boundary (sc_src sc) (cur + List.length stop) = true ->
              is_boundary (sc_src sc) cur = true /\ firstn (List.length stop) (skipn cur (sc_src sc)) <> stop) ->
       cur <= n
    /\ (forall p, cur <= p < n -> p < List.length (sc_src sc)
          /\ (p + List.length stop <= List.length (sc_src sc) -> is_boundary (sc_src sc) (p + List.length stop) = true ->
              is_boundary (sc_src sc) p = true /\ firstn (List.length stop) (skipn p (sc_src sc)) <> stop))
    /\ (List.length (sc_src sc) <= n
        \/ n + List.length stop <= List.length (sc_src sc) /\ firstn (List.length stop) (skipn n (sc_src sc)) = stop)) as K1.
      { intros E Q. apply IH in E as (H1 & H2 & H3). split; [lia|]. split; [|exact H3].
        intros p Hp. destruct (Nat.eq_dec p cur) as [->|Hne]; [split; [exact L | exact Q] | apply H2; lia]. }
      destruct (Nat.ltb_spec (List.length (sc_src sc)) (cur + List.length stop)) as [L1|L1]; [apply K1; [exact H | intros; lia]|].
      destruct (is_boundary (sc_src sc) (cur + List.length stop)) eqn:B1; cbn [negb] in H; [|apply K1; [exact H | discriminate]].
      destruct (is_boundary (sc_src sc) cur) eqn:B2; cbn [negb] in H; [|discriminate].
      destruct (beqb (firstn (List.length stop) (skipn cur (sc_src sc))) stop) eqn:B3.
      + injection H as <-. apply K0; [reflexivity|]. right. split; [exact L1 | now apply beqb_eq].
      + apply K1; [exact H|]. intros _ _. split; [reflexivity | now apply beqb_neq].
  Qed.
  Lemma sd_until_stop ty stop2 tail : List.length stop2 = 2 -> Forall ascii7 (stop2 ++ tail) ->
    (forall x r, rest = x ++ (stop2 ++ tail) ++ r -> Forall ascii7 x ->
       (forall u v, x ++ (stop2 ++ tail) = u ++ (stop2 ++ tail) ++ v -> v = []) ->
       prelexed ty before (c :: x ++ stop2) (tail ++ r)) ->
    emits sc (add_until_stop sc (stop2 ++ tail) ty) Sd.
  Proof.
    intros L2 Ha H. unfold add_until_stop. apply emits_bind. intros n Hn.
    apply loop_visits in Hn as (N1 & N2 & N3). apply emits_add_token; [lia|].
    exists (n + 2 - sc_cur sc). split; [lia|]. intros s r Es Ls Hr.
    set (stop := stop2 ++ tail) in *.
    assert (2 <= List.length stop) as Lstop by (unfold stop; rewrite app_length; lia).
    assert (List.length rest = List.length s + List.length r) as Lr by (rewrite Es; apply app_length).
    pose proof Hlen as Hlen'. destruct N3 as [N3|[N3 N4]]; [lia|].
    pose (x := firstn (n - sc_cur sc) rest).
    assert (rest = x ++ stop ++ skipn (List.length stop) (skipn (n - sc_cur sc) rest)) as E.
    { rewrite <- (firstn_skipn (n - sc_cur sc) rest) at 1. fold x. f_equal.
      rewrite <- Hrest, skipn_skipn'. replace (sc_cur sc + (n - sc_cur sc)) with n by lia.
      rewrite <- N4 at 1. symmetry. apply firstn_skipn. }
    set (r0 := skipn _ _) in E.
    assert (List.length x = n - sc_cur sc) as Lx by (unfold x; rewrite firstn_length; lia).
    assert (forall p y, nth_error rest p = Some y -> nth_error (sc_src sc) (sc_cur sc + p) = Some y) as Nth
      by (intros p y Hp; rewrite <- nth_error_skipn', Hrest; exact Hp).
    (* all ASCII up to the stop *)
    assert (forall b a, x = a ++ b -> Forall ascii7 b) as Hx.
    { induction b as [|y b IHb]; intros a Eb; [constructor|].
      assert (Forall ascii7 b) as Hb by (apply (IHb (a ++ [y])); now rewrite <- app_assoc).
      constructor; [|exact Hb]. destruct (ascii7_dec y) as [Hy|Hy]; [exact Hy|]. exfalso.
      assert (List.length a + S (List.length b) = n - sc_cur sc) as La by (rewrite <- Lx, Eb, app_length; reflexivity).
      assert (rest = a ++ y :: (b ++ stop) ++ r0) as Er by (rewrite E, Eb, <- !app_assoc; reflexivity).
      destruct (N2 (sc_cur sc + List.length a) ltac:(lia)) as [_ Q].
      assert (is_boundary (sc_src sc) (sc_cur sc + List.length a) = true) as By.
      { apply Q; [lia|]. destruct (nth_error (b ++ stop) (List.length stop - 1)) as [z|] eqn:Ez.
        - apply boundary_ascii with z.
          + rewrite <- Nat.add_assoc. apply Nth. rewrite Er, nth_error_app2 by lia.
            replace (List.length a + List.length stop - List.length a) with (S (List.length stop - 1)) by lia. cbn [nth_error].
            rewrite nth_error_app1; [exact Ez|]. apply nth_error_Some. congruence.
          + apply ascii7_cont. assert (Forall ascii7 (b ++ stop)) as Hbs by (apply Forall_app; auto).
            rewrite Forall_forall in Hbs. apply Hbs. eapply nth_error_In; exact Ez.
        - apply nth_error_None in Ez. rewrite app_length in Ez. lia. }
      assert (is_cont y = false) as Cy.
      { unfold is_boundary in By. rewrite (Nth (List.length a) y) in By by (rewrite Er, nth_error_app2, Nat.sub_diag by lia; reflexivity).
        rewrite Hcur in By. cbn in By. now apply negb_true_iff in By. }
      pose proof Hur as U. rewrite Er in U. destruct (lead_followed _ _ _ U Hy Cy) as (d & r' & K & Kd).
      assert (Forall ascii7 (b ++ stop)) as Hbs by (apply Forall_app; auto).
      destruct (b ++ stop) as [|z l] eqn:Ebs; [apply (f_equal (@List.length ascii)) in Ebs; rewrite app_length in Ebs; cbn in Ebs; lia|].
      injection K as <- _. apply Forall_inv in Hbs. apply ascii7_cont in Hbs. congruence. }
    specialize (Hx x [] eq_refl).
    assert (s = x ++ stop2 /\ r = tail ++ r0) as [-> ->].
    { apply split_len; [|rewrite app_length; lia]. rewrite <- Es, E. unfold stop. now rewrite <- !app_assoc. }
    apply H; [exact E | exact Hx |]. intros u v Euv.
    assert (List.length u + List.length v = List.length x) as Luv.
    { apply (f_equal (@List.length ascii)) in Euv. rewrite !app_length in Euv. lia. }
    destruct v as [|z v]; [reflexivity|]. exfalso.
    cbn [List.length] in Luv. destruct (N2 (sc_cur sc + List.length u) ltac:(lia)) as [_ Q].
    assert (rest = u ++ stop ++ (z :: v) ++ r0) as Er by (rewrite E, app_assoc, Euv, <- !app_assoc; reflexivity).
    destruct Q as [_ Q]; [lia | |].
    - apply boundary_ascii with z.
      + rewrite <- Nat.add_assoc. apply Nth. rewrite Er, nth_error_app2 by lia.
        rewrite nth_error_app2 by lia. replace (_ - _ - _) with 0 by lia. reflexivity.
      + apply ascii7_cont. assert (Forall ascii7 (x ++ stop)) as K by (apply Forall_app; auto). rewrite Euv in K.
        apply Forall_app in K as [_ K]. apply Forall_app in K as [_ K]. now apply Forall_inv in K.
    - apply Q. rewrite <- skipn_skipn', Hrest, Er, skipn_length_app, firstn_app, Nat.sub_diag, firstn_all. cbn. apply app_nil_r.
  Qed.

  Lemma sd_cross_reference : c = "<" -> begins ["<"] rest -> ~ begins (bs "<<" ++ [NL]) rest -> emits sc (add_cross_reference sc) Sd.
  Proof.
    intros Hc (t & Et) Hp. unfold add_cross_reference. change (bs ">>") with (bs ">>" ++ []).
    apply sd_until_stop; [reflexivity | now repeat constructor |]. intros x r E Hx Hmin. cbn [prelexed].
    destruct x as [|y x]; [rewrite E in Et; discriminate|].
    assert (y = "<") as -> by (rewrite E in Et; now injection Et).
    rewrite Hc. split.
    - exists x. split; [reflexivity|]. split; [now inversion Hx|].
      intros u v Euv. apply (Hmin ("<" :: u) v). cbn [app] in *. f_equal. exact Euv.
    - intros (w & K). apply Hp. exists (w ++ r). rewrite E, app_nil_r, app_assoc.
      cbn in K. injection K as K. change ((("<" :: x) ++ bs ">>") ++ r = ("<" :: "<" :: NL :: w) ++ r).
      f_equal. cbn. f_equal. exact K.
  Qed.
  Lemma sd_block_anchor : c = "[" -> at_line_start before -> begins ["["] rest -> emits sc (add_block_anchor sc) Sd.
  Proof.
    intros Hc Hl (t & Et). unfold add_block_anchor.
    apply sd_until_stop; [reflexivity | now repeat constructor |]. intros x r E Hx Hmin. cbn [prelexed].
    destruct x as [|y x]; [rewrite E in Et; discriminate|].
    assert (y = "[") as -> by (rewrite E in Et; now injection Et).
    rewrite Hc. split; [exact Hl|]. split; [now exists r|].
    exists x. split; [cbn [app]; now rewrite <- app_assoc|]. split; [now inversion Hx|].
    intros u v Euv. apply (Hmin ("[" :: u) v). cbn [app] in *. f_equal. exact Euv.
  Qed.

  (** *** callouts *)
  Definition digit_p (x : ascii) : bool := negb (x == ">") && is_digit x.
  Lemma digit_run v : Forall (fun b => digit_p (peek_byte b) = true) v -> digits v.
  Proof.
    clear. intros H. eapply Forall_impl; [|exact H]. intros b Hb. apply andb_true_iff in Hb as [_ Hb].
    unfold peek_byte in Hb. now destruct (is_cont b).
  Qed.
  Lemma digit_stays v : digits v -> Forall (fun b => digit_p (peek_byte b) = true) v.
  Proof.
    clear. intros H. eapply Forall_impl; [|exact H]. intros b Hb.
    destruct b as [[] [] [] [] [] [] [] []]; try discriminate; reflexivity.
  Qed.
  Lemma digits_ascii d : digits d -> Forall ascii7 d.
  Proof.
    clear. intros H. eapply Forall_impl; [|exact H]. intros b Hb. unfold is_digit in Hb. apply andb_true_iff in Hb as [_ Hb].
    apply N.leb_le in Hb. unfold ascii7. lia.
  Qed.
  Lemma peek_bump u r y : rest = u ++ r -> y <> NUL -> is_cont y = false ->
    Ascii.eqb (peek (bump sc (List.length u))) y = starts_with [y] r.
  Proof.
    intros E Hy Hc. unfold peek, peek_at. cbn [bump set_cur sc_src sc_cur].
    rewrite <- nth_error_skipn', Hrest, E, nth_error_app2, Nat.sub_diag by lia. destruct r as [|z r]; cbn [nth_error starts_with].
    - destruct (NUL == y) eqn:K; [apply Ascii.eqb_eq in K; congruence | reflexivity].
    - rewrite andb_true_r. unfold peek_byte. destruct (is_cont z) eqn:Ez.
      + destruct (NUL == y) eqn:K; [apply Ascii.eqb_eq in K; congruence|].
        destruct (y == z) eqn:K'; [apply Ascii.eqb_eq in K'; congruence | reflexivity].
      + apply Ascii.eqb_sym.
  Qed.
  Lemma callout_at u d r : rest = u ++ d ++ r -> digits d -> (forall y t, r = y :: t -> is_digit (peek_byte y) = false) ->
    callout_loop (bump sc (List.length u))
    = (starts_with [">"] r, bump sc (List.length u + List.length d + (if starts_with [">"] r then 1 else 0))).
  Proof.
    intros E Hd Hr. unfold callout_loop, advance. cbn [bump set_cur sc_cur sc_src].
    rewrite <- skipn_skipn', Hrest, E, skipn_length_app.
    assert (span_len (fun x => negb (x == ">") && is_digit x) (d ++ r) = List.length d) as ->.
    { apply digit_stays in Hd. clear - Hd Hr. induction Hd as [|x d Hx Hd IH]; cbn [app span_len List.length].
      - destruct r as [|y t]; [reflexivity|]. cbn [span_len]. rewrite (Hr y t eq_refl), andb_false_r. reflexivity.
      - unfold digit_p in Hx. rewrite Hx. f_equal. exact IH. }
    change (bump (bump sc (List.length u)) (List.length d)) with (set_cur sc (sc_cur sc + List.length u + List.length d)).
    assert (set_cur sc (sc_cur sc + List.length u + List.length d) = bump sc (List.length (u ++ d))) as ->
      by (unfold bump; f_equal; rewrite app_length; lia).
    rewrite (peek_bump (u ++ d) r) by (try discriminate; try reflexivity; rewrite E, app_assoc; reflexivity).
    rewrite bump_bump. destruct (starts_with [">"] r); f_equal; f_equal; rewrite app_length; lia.
  Qed.
  Lemma digits_cut l : exists d r, l = d ++ r /\ digits d /\ (forall y t, r = y :: t -> is_digit (peek_byte y) = false).
  Proof.
    destruct (span_cases is_digit l) as (d & r & E & _ & Hd & Hr). exists d, r. split; [exact E|]. split.
    - eapply Forall_impl; [|exact Hd]. intros b Hb. unfold peek_byte in Hb. now destruct (is_cont b).
    - intros y t ->. destruct Hr as [K|(y' & t' & K & Hy)]; [discriminate|]. now injection K as <- <-.
  Qed.
  Lemma lt_view : c = "<" -> scan_lt sc c =
    if starts_end_tag_line sc then add_tag sc
    else if starts_with (bs "<<" ++ [NL]) rest then add_token (bump sc 2) TPageBreak false 0
    else if memc (hd NUL rest) ["-"; "="] then add_token (bump sc 1) TCharRef false 0
    else if hd NUL rest == "<" then add_cross_reference sc
    else
      let (is_item, sc1) := if lineb before then starts_code_callout_list_item sc else (false, sc) in
      if is_item then add_token (bump sc1 1) TCodeCalloutListItem true 0
      else let (is_callout, sc2) := starts_code_callout sc1 in
           if is_callout then add_token sc2 TCodeCallout true 0
           else add_text_until_next_markup sc2.
  Proof.
    intros Hc. unfold scan_lt. rewrite (repv 2), peekv, linev by (subst; discriminate). now rewrite Hc.
  Qed.
  Lemma bump0 : bump sc 0 = sc.
  Proof. unfold bump. rewrite Nat.add_0_r. apply set_cur_id. Qed.
  Lemma digit_or d : digits d -> Forall (fun x => is_digit x = true \/ x = ">") d.
  Proof. clear. intros H. eapply Forall_impl; [|exact H]. auto. Qed.
  Lemma digits_run u : Forall (fun x => is_digit x = true \/ x = ">") u -> forall y, In y u -> ~ In y ends_text.
  Proof.
    clear. rewrite Forall_forall. intros H y Hy K. apply H in Hy. cbn in K.
    repeat (destruct K as [<-|K]; [destruct Hy; discriminate|]). exact K.
  Qed.
  (** the second test, from the place [u] *)
  Lemma sd_callout u w : c = "<" -> rest = u ++ w -> Forall (fun x => is_digit x = true \/ x = ">") u ->
    (forall d r, rest = u ++ d ++ ">" :: NL :: r -> digits d -> prelexed TCodeCallout before (c :: u ++ d ++ [">"]) (NL :: r)) ->
    emits sc (let (is_callout, sc2) := starts_code_callout (bump sc (List.length u)) in
           if is_callout then add_token sc2 TCodeCallout true 0
           else add_text_until_next_markup sc2) Sd.
  Proof.
    intros Hc Ew Hu' H. destruct (digits_cut w) as (d & r & -> & Hd & Hr).
    unfold starts_code_callout. rewrite (callout_at u d r Ew Hd Hr).
    destruct (starts_with [">"] r) eqn:Eg.
    - apply starts_with_begins in Eg as (t & Et). cbn [app] in Et.
      assert (rest = (u ++ d ++ [">"]) ++ t) as E1 by (rewrite Ew, Et, <- !app_assoc; reflexivity).
      replace (List.length u + List.length d + 1) with (List.length (u ++ d ++ [">"])) by (rewrite !app_length; cbn; lia).
      rewrite (peek_bump _ t NL E1) by (reflexivity || discriminate). cbn [andb].
      apply emits_if; intros K.
      + apply starts_with_begins in K as (t' & K). apply (sd_fixed _ t); [exact E1|]. intros _. rewrite K. cbn [app].
        apply H; [rewrite Ew, Et, K; reflexivity | exact Hd].
      + apply (sd_text _ t E1). apply digits_run.
        apply Forall_app; split; [exact Hu'|]. apply Forall_app; split; [now apply digit_or | constructor; [now right | constructor]].
    - cbn [andb]. rewrite Nat.add_0_r. replace (List.length u + List.length d) with (List.length (u ++ d)) by apply app_length.
      apply (sd_text _ r); [rewrite Ew, app_assoc; reflexivity|]. apply digits_run.
      apply Forall_app; split; [exact Hu' | now apply digit_or].
  Qed.
  Lemma sd_lt : c = "<" -> emits sc (scan_lt sc c) Sd.
  Proof.
    intros Hc. rewrite lt_view by exact Hc. branch.
    - refl. match goal with H : begins _ _ |- _ => destruct H as (r & E) end.
      apply (sd_fixed (bs "<<") (NL :: r)); [exact E|]. intros _. rewrite Hc. split; [reflexivity | now exists r].
    - match goal with H : memc _ _ = true |- _ => apply memc_In in H as [H|[H|[]]]; symmetry in H; apply Ascii.eqb_eq in H; rename H into K end.
      + head_is "-" K r E. apply (sd_fixed ["-"] r); [exact E|]. intros _. rewrite Hc. right. left. cbn; tauto.
      + head_is "=" K r E. apply (sd_fixed ["="] r); [exact E|]. intros _. rewrite Hc. right. left. cbn; tauto.
    - match goal with H : _ == "<" = true |- _ => head_is "<" H r E end.
      apply sd_cross_reference; [exact Hc | now exists r | now apply starts_with_not].
    - destruct (lineb before) eqn:El.
      + apply lineb_spec in El. destruct (digits_cut rest) as (d & r & E & Hd & Hr).
        unfold starts_code_callout_list_item. pose proof (callout_at [] d r E Hd Hr) as C.
        cbn [List.length Nat.add] in C. rewrite bump0 in C. rewrite C.
        destruct (starts_with [">"] r) eqn:Eg; cbn [andb].
        * apply starts_with_begins in Eg as (t & Et). cbn [app] in Et.
          assert (rest = (d ++ [">"]) ++ t) as E1 by (rewrite E, Et, <- app_assoc; reflexivity).
          replace (List.length d + 1) with (List.length (d ++ [">"])) by (rewrite app_length; cbn; lia).
          rewrite (peek_bump _ t SP E1) by (reflexivity || discriminate).
          apply emits_if; intros K.
          -- apply starts_with_begins in K as (t' & K). cbn [app] in K. subst t.
             replace (bump (bump sc (List.length (d ++ [">"]))) 1) with (bump sc (List.length (d ++ bs "> ")))
               by (rewrite bump_bump, !app_length; f_equal; cbn; lia).
             apply (sd_fixed _ t'); [rewrite E1, <- !app_assoc; reflexivity|]. intros _. rewrite Hc.
             split; [exact El|]. exists d. split; [exact Hd | reflexivity].
          -- apply (sd_callout (d ++ [">"]) t Hc E1).
             ++ apply Forall_app; split; [now apply digit_or | constructor; [now right | constructor]].
             ++ intros d' r' E2 Hd'. split; [now exists r'|]. exists d. split; [exact Hd|]. right. split; [exact El|].
                exists d'. split; [exact Hd'|]. rewrite Hc. now rewrite <- !app_assoc.
        * rewrite Nat.add_0_r. apply (sd_callout d r Hc E); [now apply digit_or|].
          intros d' r' E2 Hd'. exfalso. rewrite E in E2. apply app_inv_head in E2.
          destruct d' as [|x d'].
          -- rewrite E2 in Eg. discriminate.
          -- cbn in E2. inversion Hd' as [|x0 d0 Hx Hd0]; subst.
             specialize (Hr _ _ eq_refl). unfold peek_byte in Hr.
             destruct (is_cont x) eqn:Ex; [|congruence]. destruct x as [[] [] [] [] [] [] [] []]; try discriminate.
      + apply lineb_false in El. cbn zeta iota.
        pose proof (sd_callout [] rest Hc eq_refl (Forall_nil _)) as K. cbn [List.length] in K. rewrite bump0 in K. apply K.
        intros d r E Hd. split; [now exists r|]. exists d. split; [exact Hd|]. left. split; [exact El|]. now rewrite Hc.
  Qed.

  (** *** brackets *)
  Lemma peek_byte_is b y : ascii7 y -> y <> NUL -> peek_byte b == y = true -> b = y.
  Proof. clear. intros H H' K. apply Ascii.eqb_eq in K. apply ascii7_cont in H. exact (proj1 (peek_byte_ascii b y H H') K). Qed.
  Lemma span_until y : ascii7 y -> y <> NUL -> exists v r, rest = v ++ r
    /\ span_len (fun x => negb (x == y)) rest = List.length v /\ ~ In y v /\ (r = [] \/ exists r', r = y :: r').
  Proof.
    intros Hy Hn. destruct (span_cases (fun x => negb (x == y)) rest) as (v & r & E & El & Hv & Hr).
    exists v, r. split; [exact E|]. split; [exact El|]. split.
    - intros K. rewrite Forall_forall in Hv. apply Hv in K. apply negb_true_iff, Ascii.eqb_neq in K. apply K.
      unfold peek_byte. now rewrite (ascii7_cont _ Hy).
    - destruct Hr as [->|(z & r' & -> & Hz)]; [now left | right]. apply negb_false_iff in Hz.
      apply peek_byte_is in Hz; auto. subst z. now exists r'.
  Qed.
  Lemma sd_until_bracket ty kw : begins kw rest -> ~ In "]" kw ->
    (forall x r, rest = kw ++ x ++ "]" :: r -> ~ In "]" x -> prelexed ty before (c :: kw ++ x ++ ["]"]) r) ->
    emits sc (add_until_bracket sc ty) Sd.
  Proof.
    intros (t & Et) Hk H. unfold add_until_bracket, advance_or_hang. rewrite advv.
    destruct (span_until "]" eq_refl ltac:(discriminate)) as (v & r & E & El & Hv & Hr). rewrite El.
    apply emits_bind. intros sc1 K. destruct (is_at_end _) eqn:Ea; [discriminate|]. injection K as <-.
    destruct Hr as [-> | (r' & ->)].
    { exfalso. unfold is_at_end in Ea. cbn [bump set_cur sc_src sc_cur] in Ea. apply Nat.leb_gt in Ea.
      rewrite app_nil_r in E. rewrite Hlen, Hcur, E in Ea. lia. }
    rewrite bump_bump. replace (List.length v + 1) with (List.length (v ++ ["]"])) by (rewrite app_length; reflexivity).
    apply (sd_fixed _ r'); [rewrite E, <- app_assoc; reflexivity|]. intros _.
    assert (exists x, v = kw ++ x) as (x & ->).
    { rewrite E in Et. clear - Et Hk Hv. revert v Et Hv. induction kw as [|y kw IH]; intros v Et Hv; [now exists v|].
      destruct v as [|z v]; cbn in Et.
      - injection Et as <- _. elim Hk. now left.
      - injection Et as -> Et. destruct (IH (fun K => Hk (or_intror K)) v Et (fun K => Hv (or_intror K))) as (x & ->). now exists x. }
    rewrite <- !app_assoc. apply H; [rewrite E, <- app_assoc; reflexivity|]. intros K. apply Hv. apply in_or_app. now right.
  Qed.
  Definition attr_end (v : bytes) : bool := lineb before && match rev v with x :: _ => x == "]" | [] => false end.
  Lemma attribution_at v r : c = "[" -> rest = v ++ r -> ~ In NL v -> (r = [] \/ exists r', r = NL :: r') ->
    starts_attribution_line sc = (attr_end v, if attr_end v then bump sc (List.length v) else sc).
  Proof.
    intros Hc E Hv Hr. unfold starts_attribution_line, attr_end. rewrite advv, linev.
    assert (span_len (fun x => negb (x == NL)) rest = List.length v) as ->.
    { destruct (span_until NL eq_refl ltac:(discriminate)) as (v' & r' & E' & -> & Hv' & Hr'). rewrite E in E'.
      clear - E' Hv Hv' Hr Hr'. revert v' E' Hv'. induction v as [|x v IH]; intros [|x' v'] E' Hv'; cbn in E'; [reflexivity| | |].
      - destruct Hr as [->|(t & ->)]; [discriminate|]. injection E' as <- _. elim Hv'. now left.
      - destruct Hr' as [->|(t & ->)]; [discriminate|]. injection E' as -> _. elim Hv. now left.
      - injection E' as -> E'. cbn. f_equal. apply IH; [intros K; apply Hv; now right | exact E' | intros K; apply Hv'; now right]. }
    cbn [bump set_cur sc_cur].
    assert (nth_error (sc_src sc) (sc_cur sc + List.length v - 1) = nth_error ((c :: v) ++ r) (List.length v)) as ->.
    { rewrite Hcur. replace (S (List.length before) + List.length v - 1) with (List.length before + List.length v) by lia.
      rewrite Hsrc, nth_error_app2 by lia. replace (_ - _) with (List.length v) by lia. rewrite E. reflexivity. }
    destruct (destruct_last v) as [-> | (a & x & ->)].
    - cbn. rewrite Hc; cbn; rewrite !andb_false_r. reflexivity.
    - rewrite (app_comm_cons a [x] c), <- app_assoc, app_length, nth_error_app2, rev_app_distr by (cbn; lia).
      replace (_ - _) with 0 by (cbn; lia). cbn [app nth_error rev].
      destruct (lineb before && (x == "]")); reflexivity.
  Qed.
  Lemma lbracket_view v r : c = "[" -> rest = v ++ r -> ~ In NL v -> (r = [] \/ exists r', r = NL :: r') -> scan_lbracket sc =
    if lineb before && (hd NUL rest == "[") then add_block_anchor sc
    else if attr_end v then add_token (bump sc (List.length v)) (attribution_type (hd NUL rest)) true 0
    else if hd NUL rest == "." then add_until_bracket sc TInlineStyle
    else add_text_until_next_markup sc.
  Proof.
    intros Hc E Hv Hr. unfold scan_lbracket. rewrite peekv, linev, (attribution_at v r Hc E Hv Hr).
    destruct (lineb before && (hd NUL rest == "[")); [reflexivity|].
    destruct (attr_end v) eqn:Ea; [|reflexivity].
    assert (exists y t, rest = y :: t) as (y & t & Et).
    { destruct rest_case as [K | K]; [|exact K]. exfalso. rewrite K in E. destruct v; [|discriminate].
      unfold attr_end in Ea. cbn in Ea. now rewrite andb_false_r in Ea. }
    assert (nth_error (sc_src sc) (sc_start sc + 1) = Some y) as ->; [|now rewrite Et].
    rewrite Hsrc, Hst, nth_error_app2 by lia. replace (_ - _) with 1 by lia. now rewrite Et.
  Qed.
  Lemma line_cut : exists v r, rest = v ++ r /\ ~ In NL v /\ (r = [] \/ exists r', r = NL :: r').
  Proof.
    destruct (span_until NL eq_refl ltac:(discriminate)) as (v & r & E & _ & Hv & Hr). eauto.
  Qed.
  Lemma ends_line r : (r = [] \/ exists r', r = NL :: r') -> line_ends r.
  Proof. clear. intros [->|(r' & ->)]; [now left | right; now exists r']. Qed.
  Lemma ends_line' r : line_ends r -> (r = [] \/ exists r', r = NL :: r').
  Proof. clear. intros [->|(r' & ->)]; [now left | right; now exists r']. Qed.
  Lemma line_cut_unique {A} (n : A) v r v' r' : v ++ r = v' ++ r' -> ~ In n v -> ~ In n v' ->
    (r = [] \/ exists t, r = n :: t) -> (r' = [] \/ exists t, r' = n :: t) -> v = v' /\ r = r'.
  Proof.
    clear. revert v'. induction v as [|x v IH]; intros [|x' v'] E Hv Hv' Hr Hr'; cbn in E; [auto | | |].
    - destruct Hr as [->|(t & ->)]; [discriminate|]. injection E as <- _. elim Hv'. now left.
    - destruct Hr' as [->|(t & ->)]; [discriminate|]. injection E as -> _. elim Hv. now left.
    - injection E as -> E. apply IH in E as [-> ->]; auto; intros K; [apply Hv | apply Hv']; now right.
  Qed.
  Lemma sd_lbracket : c = "[" -> emits sc (scan_lbracket sc) Sd.
  Proof.
    intros Hc. destruct line_cut as (v & r & E & Hv & Hr). rewrite (lbracket_view v r Hc E Hv Hr). branch.
    - match goal with H : lineb _ && _ = true |- _ => apply andb_true_iff in H as [K1 K2] end. apply lineb_spec in K1.
      head_is "[" K2 t Et. apply sd_block_anchor; [exact Hc | exact K1 | now exists t].
    - match goal with H : attr_end v = true |- _ => unfold attr_end in H; apply andb_true_iff in H as [K1 K2] end.
      apply (sd_fixed v r); [exact E|]. intros _. rewrite Hc.
      destruct (destruct_last v) as [Ev | (a & x & Ev)]; [rewrite Ev in K2; discriminate|].
      assert (x = "]") as -> by (rewrite Ev, rev_app_distr in K2; cbn in K2; now apply Ascii.eqb_eq).
      match goal with H : lineb _ && (hd NUL rest == "[") = false |- _ => rewrite K1 in H; cbn [andb] in H; rename H into K3 end.
      apply lineb_spec in K1. clear K2. assert (~ In "010" a) as Ha by (intros K; apply Hv; rewrite Ev; apply in_or_app; now left).
      destruct a as [|y a].
      + assert (hd NUL rest = "]") as -> by (rewrite E, Ev; reflexivity). cbn [attribution_type Ascii.eqb Bool.eqb prelexed lexed].
        rewrite Ev. split; [|intros y t Ey; injection Ey as <- <-; cbn; intuition discriminate].
        split; [exact K1|]. split; [now apply ends_line|]. exists []. split; [reflexivity | auto].
      + assert (hd NUL rest = y) as Ey by (rewrite E, Ev; reflexivity). rewrite Ey in *. rewrite Ev.
        assert (forall k, y = k -> bracket_line ["["; k] before ("[" :: (y :: a) ++ ["]"]) r) as KN.
        { intros k ->. split; [exact K1|]. split; [now apply ends_line|]. exists a. split; [reflexivity|].
          intros K; apply Ha; now right. }
        unfold attribution_type.
        repeat match goal with |- context [y == ?k] => let Ek := fresh "Ek" in destruct (y == k) eqn:Ek;
          [apply Ascii.eqb_eq in Ek; right; now apply KN |] end.
        cbn [prelexed lexed]. split.
        * split; [exact K1|]. split; [now apply ends_line|]. exists (y :: a). split; [reflexivity | exact Ha].
        * intros z t Ez. injection Ez as <- _. refl. intros K. cbn in K. intuition congruence.
    - match goal with H : _ == "." = true |- _ => head_is "." H t Et end.
      match goal with H : attr_end v = false |- _ => rename H into Ka end.
      apply (sd_until_bracket TInlineStyle ["."]); [now exists t | cbn; intuition discriminate|].
      intros x r' E' Hx. rewrite Hc. split; [now exists x|]. intros (L & l & r0 & El & Hl & Hr0).
      destruct l as [|y l]; [discriminate|]. cbn in El. injection El as <- El.
      assert (v = l ++ ["]"] /\ r = r0) as [-> _].
      { apply (line_cut_unique NL); [|exact Hv | | exact Hr | now apply ends_line'].
        - rewrite <- E, E', <- app_assoc. cbn. rewrite <- El. cbn. now rewrite <- app_assoc.
        - intros K. apply in_app_iff in K as [K|[K|[]]]; [apply Hl; now right | discriminate]. }
      unfold attr_end in Ka. rewrite rev_app_distr in Ka. cbn in Ka. rewrite andb_true_r in Ka.
      apply lineb_false in Ka. contradiction.
  Qed.

  (** *** the short ones *)
  Lemma sd_backquote : c = "`" -> emits sc (scan_backquote sc c) Sd.
  Proof.
    intros Hc. unfold scan_backquote. rewrite !closesv by (reflexivity || discriminate). branch.
    - match goal with H : closesb _ _ = true |- _ => apply closesb_spec in H as (r & E & Hr) end.
      apply (sd_fixed ["'"] r); [exact E|]. intros _. rewrite Hc. split; [reflexivity | exact Hr].
    - match goal with H : closesb _ _ = true |- _ => apply closesb_spec in H as (r & E & Hr) end.
      apply (sd_fixed [DQ] r); [exact E|]. intros _. rewrite Hc. split; [reflexivity | exact Hr].
    - apply sd_inline; [rewrite Hc; discriminate | |]; rewrite Hc.
      + intros F. split; [reflexivity|]. split; [exact F|]. intros q r Er Hq Hw.
        assert (closesb q rest = true) as K by (apply closesb_spec; eauto).
        destruct Hq as [-> | ->]; [congruence|]. change "034" with DQ in K. congruence.
      + intros r E. reflexivity.
  Qed.
  Lemma sd_keyword kw ty lit : kw <> [] -> kw <> [NUL] -> Forall ascii7 kw ->
    (forall r, prelexed ty before (c :: kw) r) -> emits sc (scan_keyword sc kw ty lit) Sd.
  Proof.
    intros H1 H2 H3 H. unfold scan_keyword. rewrite peeksv by assumption. branch.
    match goal with H : starts_with _ _ = true |- _ => apply starts_with_begins in H as (r & E) end.
    apply (sd_fixed kw r); auto.
  Qed.
  Lemma sd_i : c = "i" -> emits sc (scan_i sc) Sd.
  Proof.
    intros Hc. unfold scan_i. rewrite linev.
    assert (forall kw, kw <> [] -> kw <> [NUL] -> forallb is_ascii kw = true ->
      beqb (peeks_ahead sc (List.length kw)) kw = starts_with kw rest) as P.
    { intros kw K1 K2 K3. apply peeksv; auto. apply Forall_forall. now apply all_ascii. }
    assert (beqb (peeks_ahead sc 8) (bs "nclude::") = starts_with (bs "nclude::") rest) as P1
      by exact (P (bs "nclude::") ltac:(discriminate) ltac:(discriminate) eq_refl).
    assert (beqb (peeks_ahead sc 6) (bs "mage::") = starts_with (bs "mage::") rest) as P2
      by exact (P (bs "mage::") ltac:(discriminate) ltac:(discriminate) eq_refl).
    assert (beqb (peeks_ahead sc 5) (bs "mage:") = starts_with (bs "mage:") rest) as P3
      by exact (P (bs "mage:") ltac:(discriminate) ltac:(discriminate) eq_refl).
    assert (beqb (peeks_ahead sc 6) (bs "mage: ") = starts_with (bs "mage: ") rest) as P4
      by exact (P (bs "mage: ") ltac:(discriminate) ltac:(discriminate) eq_refl).
    rewrite P1, P2, P3, P4. clear P P1 P2 P3 P4. branch.
    - match goal with H : lineb _ && _ = true |- _ => apply andb_true_iff in H as [K1 K2] end. refl.
      apply (sd_until_bracket TInclude (bs "nclude::")); [assumption | cbn; intuition discriminate|].
      intros x r E Hx. rewrite Hc. split; [assumption | now exists x].
    - match goal with H : lineb _ && _ = true |- _ => apply andb_true_iff in H as [K1 K2] end. refl.
      apply (sd_until_bracket TBlockImageMacro (bs "mage::")); [assumption | cbn; intuition discriminate|].
      intros x r E Hx. rewrite Hc. split; [assumption | now exists x].
    - match goal with H : _ && _ = true |- _ => apply andb_true_iff in H as [K1 K2]; apply andb_true_iff in K1 as [K1 K3] end.
      apply negb_true_iff in K2. apply negb_true_iff in K3. apply starts_with_not in K2, K3. apply starts_with_begins in K1.
      apply (sd_until_bracket TInlineImageMacro (bs "mage:")); [assumption | cbn; intuition discriminate|].
      intros x r E Hx. rewrite Hc. split; [now exists x|]. split; intros (z & Ez).
      + apply K3. injection Ez as Ez. exists (z ++ r). rewrite E. cbn. repeat f_equal.
        change (x ++ "]" :: r) with (x ++ ["]"] ++ r). now rewrite app_assoc, Ez.
      + apply K2. injection Ez as Ez. exists (z ++ r). rewrite E. cbn. repeat f_equal.
        change (x ++ "]" :: r) with (x ++ ["]"] ++ r). now rewrite app_assoc, Ez.
  Qed.
  Lemma sd_dq : c = DQ ->
    emits sc (if memc (peek_back sc) [NUL; SP; NL] && (peek sc == "`")
    then add_token (bump sc 1) TOpenDoubleQuote true 0
    else add_text_until_next_markup sc) Sd.
  Proof.
    intros Hc. rewrite backv, peekv. branch.
    match goal with H : _ && _ = true |- _ => apply andb_true_iff in H as [K1 K2] end.
    apply quote_prevv in K1. head_is "`" K2 r E.
    apply (sd_fixed ["`"] r); [exact E|]. intros _. rewrite Hc. split; [reflexivity | exact K1].
  Qed.
  Lemma sd_parens : c = "(" ->
    emits sc (if starts_text_symbol_replace_parens sc then handle_text_symbol_replacement_parens sc
              else add_text_until_next_markup sc) Sd.
  Proof.
    intros Hc. rewrite parensv. branch.
    match goal with H : _ || _ = true |- _ => rename H into K end.
    assert (exists kw r, rest = kw ++ ")" :: r /\ In kw [bs "C"; bs "R"; bs "TM"]) as (kw & r & E & Hk).
    { rewrite !orb_true_iff, !starts_with_begins in K. destruct K as [[(r & E)|(r & E)]|(r & E)];
      [exists (bs "C"), r | exists (bs "R"), r | exists (bs "TM"), r]; (split; [exact E | cbn; auto]). }
    unfold handle_text_symbol_replacement_parens, advance_or_hang. rewrite advv.
    destruct (span_until ")" eq_refl ltac:(discriminate)) as (v & t & E' & El & Hv & Ht). rewrite El.
    assert (v = kw /\ t = ")" :: r) as [-> ->].
    { apply (line_cut_unique ")"); [congruence | exact Hv | | exact Ht | right; eauto].
      intros K'. destruct Hk as [<-|[<-|[<-|[]]]]; cbn in K'; intuition discriminate. }
    apply emits_bind. intros sc1 K1. destruct (is_at_end _); [discriminate|]. injection K1 as <-.
    rewrite bump_bump. replace (List.length kw + 1) with (List.length (kw ++ [")"])) by (rewrite app_length; reflexivity).
    apply (sd_fixed _ r); [rewrite E, <- app_assoc; reflexivity|]. intros _. rewrite Hc. right. left.
    destruct Hk as [<-|[<-|[<-|[]]]]; cbn; tauto.
  Qed.

  (** *** names *)
  Lemma all_before_char s r : rest = s ++ r -> Forall (fun b => is_cont b = false) s -> at_char r -> Forall ascii7 s.
  Proof.
    intros E Hs Hr. apply Forall_forall. intros x Hx. destruct (ascii7_dec x) as [H|H]; [exact H|]. exfalso.
    apply in_split in Hx as (a & b & ->). pose proof Hur as U. rewrite E, <- app_assoc in U. cbn in U.
    apply Forall_app in Hs as [_ Hs]. inversion Hs as [|x0 b0 Hx Hb]; subst.
    destruct (lead_followed _ _ _ U H Hx) as (d & r' & K & Kd).
    destruct b as [|y b]; cbn in K.
    - destruct Hr as [->|(z & t & -> & Kz)]; [discriminate|]. injection K as <- _. congruence.
    - injection K as <- _. inversion Hb; congruence.
  Qed.
  Lemma not_cont_of p v : p NUL = false -> Forall (fun b => p (peek_byte b) = true) v ->
    Forall (fun b => is_cont b = false) v.
  Proof.
    clear. intros Hp H. eapply Forall_impl; [|exact H]. intros b Hb. unfold peek_byte in Hb. destruct (is_cont b); congruence.
  Qed.
  Lemma byte_at_bump u r : rest = u ++ r ->
    byte_at (bump sc (List.length u)) = match r with y :: _ => Ok y | [] => Panic end.
  Proof.
    intros E. unfold byte_at. cbn [bump set_cur sc_src sc_cur]. rewrite <- nth_error_skipn', Hrest, E, nth_error_app2, Nat.sub_diag by lia.
    now destruct r.
  Qed.
  Lemma sd_amp : c = "&" -> emits sc (scan_amp sc) Sd.
  Proof.
    intros Hc. unfold scan_amp, starts_charref. rewrite advv.
    destruct (span_cases is_alnum_latin1 rest) as (v & r & E & El & Hv & Hr). rewrite El, (byte_at_bump v r E).
    destruct r as [|y r]; [apply emits_fail; discriminate|]. cbn [bind]. branch. refl. subst y.
    rewrite bump_bump. replace (List.length v + 1) with (List.length (v ++ [";"])) by (rewrite app_length; reflexivity).
    apply (sd_fixed _ r); [rewrite E, <- app_assoc; reflexivity|]. intros _. rewrite Hc. right. right. right. right.
    exists v. split; [reflexivity|].
    assert (Forall ascii7 v) as Ha.
    { eapply all_before_char; [exact E | eapply not_cont_of; [|exact Hv]; reflexivity | right; exists ";", r; auto]. }
    rewrite Forall_forall in *. intros x Hx. rewrite <- latin1_ascii by auto. specialize (Hv x Hx). unfold peek_byte in Hv.
    now rewrite (ascii7_cont _ (Ha x Hx)) in Hv.
  Qed.
  Lemma sd_lbrace : c = "{" -> emits sc (scan_lbrace sc) Sd.
  Proof.
    intros Hc. unfold scan_lbrace, starts_attribute_reference. rewrite advv.
    destruct (span_cases is_attr_ref_char rest) as (v & r & E & El & Hv & Hr). rewrite El, (byte_at_bump v r E).
    destruct r as [|y r]; [apply emits_fail; discriminate|]. cbn [bind]. branch. refl. subst y.
    rewrite bump_bump. replace (List.length v + 1) with (List.length (v ++ ["}"])) by (rewrite app_length; reflexivity).
    apply (sd_fixed _ r); [rewrite E, <- app_assoc; reflexivity|]. intros _. rewrite Hc.
    exists v. split; [reflexivity|].
    assert (Forall ascii7 v) as Ha.
    { eapply all_before_char; [exact E | eapply not_cont_of; [|exact Hv]; reflexivity | right; exists "}", r; auto]. }
    rewrite Forall_forall in *. intros x Hx. rewrite <- latin1_ascii by auto. specialize (Hv x Hx). unfold peek_byte in Hv.
    rewrite (ascii7_cont _ (Ha x Hx)) in Hv. unfold is_attr_ref_char in Hv. apply orb_true_iff in Hv as [Hv|Hv]; [now left|].
    right. now apply Ascii.eqb_eq.
  Qed.
  Lemma name_cut : exists n r, rest = n ++ r /\ span_len (fun x => negb (memc x [SP; NL; ":"])) rest = List.length n
    /\ (forall x, In x n -> ~ In x [" "; "010"; ":"]) /\ (r = [] \/ exists y r', r = y :: r' /\ In y [SP; NL; ":"]).
  Proof.
    destruct (span_cases (fun x => negb (memc x [SP; NL; ":"])) rest) as (v & r & E & El & Hv & Hr).
    assert (forall b, memc (peek_byte b) [SP; NL; ":"] = true <-> In b [SP; NL; ":"]) as K.
    { intros b. rewrite memc_In. unfold peek_byte. destruct (is_cont b) eqn:Eb; [|reflexivity]. split.
      - cbn. intuition discriminate.
      - intros H. exfalso. cbn in H. repeat (destruct H as [<-|H]; [discriminate|]). exact H. }
    exists v, r. split; [exact E|]. split; [exact El|]. split.
    - intros x Hx Kx. rewrite Forall_forall in Hv. apply Hv in Hx. apply K in Kx. rewrite Kx in Hx. discriminate.
    - destruct Hr as [->|(y & r' & -> & Hy)]; [now left | right]. exists y, r'. split; [reflexivity|].
      apply K. now apply negb_false_iff in Hy.
  Qed.
  Lemma dlistv : memb (peeks_ahead sc 2) [[":"; SP]; [":"; NL]] = starts_with [":"; SP] rest || starts_with [":"; NL] rest.
  Proof.
    cbn [memb existsb]. rewrite orb_false_r.
    f_equal; [apply (peeksv [":"; SP]) | apply (peeksv [":"; NL])]; try discriminate; now repeat constructor.
  Qed.
  Lemma sd_colon : c = ":" -> emits sc (scan_colon sc) Sd.
  Proof.
    intros Hc. unfold scan_colon, starts_attr. rewrite linev, advv, backv, dlistv.
    destruct name_cut as (n & r & E & El & Hn & Hr). rewrite El, (byte_at_bump n r E).
    apply emits_bind. intros ia Hia. branch.
    - destruct (lineb before) eqn:Elb; [|injection Hia as <-; discriminate].
      destruct r as [|y r]; [discriminate|]. cbn [bind] in Hia. injection Hia as <-. refl. subst y.
      unfold advance_or_hang. rewrite advv.
      destruct (span_until NL eq_refl ltac:(discriminate)) as (v & t & E' & El' & Hv & Ht). rewrite El'.
      apply emits_bind. intros sc1 K. destruct (is_at_end _) eqn:Ea; [discriminate|]. injection K as <-.
      destruct Ht as [-> | (t' & ->)].
      { exfalso. unfold is_at_end in Ea. cbn [bump set_cur sc_src sc_cur] in Ea. apply Nat.leb_gt in Ea.
        rewrite app_nil_r in E'. rewrite Hlen, Hcur, E' in Ea. lia. }
      apply (sd_fixed _ (NL :: t')); [exact E'|]. intros _. rewrite Hc. split; [assumption|]. split; [now exists t'|].
      assert (exists w, v = n ++ ":" :: w) as (w & Ew).
      { assert (forall x, In x (n ++ [":"]) -> x <> NL) as Hx.
        { intros x Hx ->. apply in_app_iff in Hx as [Hx|[Hx|[]]]; [apply Hn in Hx; apply Hx; cbn; auto | discriminate]. }
        assert ((n ++ [":"]) ++ r = v ++ NL :: t') as Ev by (rewrite <- E', E, <- app_assoc; reflexivity).
        clear - Hx Ev.
        assert (exists w, v = (n ++ [":"]) ++ w) as (w & ->); [|exists w; now rewrite <- app_assoc].
        revert v Ev. induction (n ++ [":"]) as [|x m IH]; intros v Ev; [now exists v|].
        destruct v as [|z v]; cbn in Ev.
        - injection Ev as -> _. elim (Hx NL); [now left | reflexivity].
        - injection Ev as -> Ev. destruct (IH (fun x K => Hx x (or_intror K)) v Ev) as (w & ->). now exists w. }
      exists n, w. rewrite Ew. split; [reflexivity|]. split; [exact Hn|]. intros K. apply Hv. rewrite Ew. apply in_or_app. right. now right.
    - match goal with H : negb _ && _ = true |- _ => apply andb_true_iff in H as [K1 K2] end.
      apply negb_true_iff in K1. apply previsv' in K1; [|reflexivity | discriminate].
      rewrite orb_true_iff, !starts_with_begins in K2.
      assert (~ at_line_start before) as Hl.
      { intros L. apply lineb_spec in L. rewrite L in Hia.
        assert (n = [] /\ exists r', r = ":" :: r') as [-> (r' & ->)].
        { assert (exists t, rest = ":" :: t) as (t & Et) by (destruct K2 as [(t & K2)|(t & K2)]; eexists; exact K2).
          rewrite Et in E. destruct n as [|x n]; [cbn in E; eauto|]. injection E as <- _. elim (Hn ":"); [now left | cbn; auto]. }
        cbn in Hia. injection Hia as <-. discriminate. }
      destruct K2 as [(t & Et)|(t & Et)].
      + apply (sd_fixed [":"; SP] t); [exact Et|]. intros _. rewrite Hc. split; [now left|]. auto.
      + apply (sd_fixed [":"; NL] t); [exact Et|]. intros _. rewrite Hc. split; [now right|]. auto.
  Qed.

  (** *** cells *)
  Lemma advance_bump u r p v t : rest = u ++ r -> r = v ++ t -> span_len p r = List.length v ->
    advance (bump sc (List.length u)) p = bump sc (List.length (u ++ v)).
  Proof.
    intros E Er El. unfold advance. cbn [bump set_cur sc_cur sc_src]. rewrite <- skipn_skipn', Hrest, E, skipn_length_app, El.
    rewrite app_length. apply bump_bump.
  Qed.
  Lemma peek_bump_any u r : rest = u ++ r ->
    peek (bump sc (List.length u)) = match r with [] => NUL | y :: _ => peek_byte y end.
  Proof.
    intros E. unfold peek, peek_at. cbn [bump set_cur sc_src sc_cur].
    rewrite <- nth_error_skipn', Hrest, E, nth_error_app2, Nat.sub_diag by lia. now destruct r.
  Qed.
  Lemma prev_byte u r y : rest = u ++ r ->
    match nth_error (sc_src sc) (sc_cur (bump sc (List.length u)) - 1) with Some b => b == y | None => false end = true
    <-> ends [y] (c :: u).
  Proof.
    intros E. cbn [bump set_cur sc_cur].
    assert (nth_error (sc_src sc) (sc_cur sc + List.length u - 1) = nth_error ((c :: u) ++ r) (List.length u)) as ->.
    { rewrite Hcur. replace (S (List.length before) + List.length u - 1) with (List.length before + List.length u) by lia.
      rewrite Hsrc, nth_error_app2 by lia. replace (_ - _) with (List.length u) by lia. rewrite E. reflexivity. }
    destruct (destruct_last (c :: u)) as [K | (a & x & K)]; [discriminate|].
    assert (List.length u = List.length a) as -> by (apply (f_equal (@List.length ascii)) in K; rewrite app_length in K; cbn in K; lia).
    rewrite K, <- app_assoc, nth_error_app2, Nat.sub_diag by lia. cbn [app nth_error]. rewrite Ascii.eqb_eq. split.
    - intros ->. now exists a.
    - intros (b & Eb). now apply app_inj_tail in Eb.
  Qed.
  Definition cell_stop (y : ascii) : Prop := memc (peek_byte y) [NL; NUL; "|"] = true.
  Definition cell_char (b : ascii) : Prop := is_cont b = false /\ b <> NL /\ b <> NUL.
  Lemma cell_cut w : exists v r, w = v ++ r /\ span_len (fun x => negb (memc x [NL; NUL; "|"])) w = List.length v
    /\ Forall cell_char v /\ ~ In "|" v /\ (r = [] \/ exists y r', r = y :: r' /\ cell_stop y).
  Proof.
    destruct (span_cases (fun x => negb (memc x [NL; NUL; "|"])) w) as (v & r & E & El & Hv & Hr).
    exists v, r. split; [exact E|]. split; [exact El|].
    assert (forall b, In b v -> cell_char b /\ b <> "|") as K.
    { intros b Hb. rewrite Forall_forall in Hv. apply Hv in Hb. unfold peek_byte in Hb. destruct (is_cont b) eqn:Eb; [discriminate|].
      unfold cell_char. repeat split; auto; intros ->; discriminate. }
    split; [apply Forall_forall; intros b Hb; now apply K|]. split; [intros Hb; apply K in Hb; now apply Hb|].
    destruct Hr as [->|(y & r' & -> & Hy)]; [now left | right]. exists y, r'. split; [reflexivity|]. now apply negb_false_iff in Hy.
  Qed.
  Lemma sd_cell : c = "|" -> (at_line_start before \/ ends [" "] before) ->
    ~ (at_line_start before /\ begins (bs "===") rest) ->
    forall fuel u w, rest = u ++ w -> Forall cell_char u -> ~ occurs (bs " |") (c :: u) ->
    emits sc (add_table_cell_fuel fuel (bump sc (List.length u))) Sd.
  Proof.
    intros Hc Hb Ht. induction fuel as [|fuel IH]; intros u w E Hu' Ho; cbn [add_table_cell_fuel];
    destruct (cell_cut w) as (v & r & -> & El & Hv & Hnb & Hr); rewrite (advance_bump u (v ++ r) _ v r E eq_refl El);
    (assert (rest = (u ++ v) ++ r) as E1 by (rewrite E, app_assoc; reflexivity));
    (assert (Forall cell_char (u ++ v)) as Huv by (apply Forall_app; auto));
    (assert (~ occurs (bs " |") (c :: u ++ v)) as Ho1 by (intros K; apply Ho, (occurs_ext (c :: u) v Hnb K)));
    cbn zeta; rewrite (peek_bump_any _ r E1); change (sc_src (bump sc (List.length u))) with (sc_src sc);
    apply emits_if; intros K.
    - apply emits_fail. discriminate.
    - (* the end *)
      apply (sd_fixed _ r); [exact E1|]. intros Hat'. rewrite Hc; rewrite Hc in Ho1. split; [exact Hb|]. split.
      { intros [L (z & Ez)]. apply Ht. split; [exact L|]. cbn in Ez. injection Ez as Ez. exists z. rewrite E1. exact Ez. }
      split; [exists (u ++ v); split; [reflexivity|]|].
      { assert (Forall ascii7 (u ++ v)) as Ha.
        { eapply all_before_char; [exact E1 | | exact Hat']. eapply Forall_impl; [|exact Huv]. now intros b (Q & _). }
        rewrite Forall_forall in *. intros b Q. split; [auto|]. apply Huv in Q. split; apply Q. }
      split; [exact Ho1|].
      destruct Hr as [->|(y & r' & -> & Hy)]; [left; now left|]. unfold cell_stop in Hy.
      destruct Hat' as [Q|(z & r0 & Q & Hz)]; [discriminate|]. injection Q as <- <-. unfold peek_byte in *. rewrite Hz in *.
      apply memc_In in Hy. destruct Hy as [<-|[<-|[<-|[]]]].
      + left. right. exists NL, r'. cbn; auto.
      + left. right. exists NUL, r'. cbn; auto.
      + right. split; [now exists r'|]. cbn [Ascii.eqb Bool.eqb andb] in K. apply negb_false_iff in K.
        apply (prev_byte _ _ SP E1) in K. rewrite Hc in K. exact K.
    - apply andb_true_iff in K as [K1 K2]. apply negb_true_iff in K2.
      destruct Hr as [->|(y & r' & -> & Hy)]; [discriminate|].
      apply peek_byte_is in K1; [|reflexivity | discriminate]. subst y.
      rewrite bump_bump. replace (List.length (u ++ v) + 1) with (List.length ((u ++ v) ++ ["|"])) by (rewrite (app_length (u ++ v)); reflexivity).
      apply (IH _ r'); [rewrite E1, <- (app_assoc (u ++ v)); reflexivity | |].
      + apply Forall_app. split; [exact Huv|]. constructor; [|constructor]. repeat split; try reflexivity; discriminate.
      + intros Q. apply (occurs_snoc (c :: u ++ v)) in Q as [Q|[_ Q]]; [auto|]. apply (prev_byte _ _ SP E1) in Q. congruence.
    - apply (sd_fixed _ r); [exact E1|]. intros Hat'. rewrite Hc; rewrite Hc in Ho1. split; [exact Hb|]. split.
      { intros [L (z & Ez)]. apply Ht. split; [exact L|]. cbn in Ez. injection Ez as Ez. exists z. rewrite E1. exact Ez. }
      split; [exists (u ++ v); split; [reflexivity|]|].
      { assert (Forall ascii7 (u ++ v)) as Ha.
        { eapply all_before_char; [exact E1 | | exact Hat']. eapply Forall_impl; [|exact Huv]. now intros b (Q & _). }
        rewrite Forall_forall in *. intros b Q. split; [auto|]. apply Huv in Q. split; apply Q. }
      split; [exact Ho1|].
      destruct Hr as [->|(y & r' & -> & Hy)]; [left; now left|]. unfold cell_stop in Hy.
      destruct Hat' as [Q|(z & r0 & Q & Hz)]; [discriminate|]. injection Q as <- <-. unfold peek_byte in *. rewrite Hz in *.
      apply memc_In in Hy. destruct Hy as [<-|[<-|[<-|[]]]].
      + left. right. exists NL, r'. cbn; auto.
      + left. right. exists NUL, r'. cbn; auto.
      + right. split; [now exists r'|]. cbn [Ascii.eqb Bool.eqb andb] in K. apply negb_false_iff in K.
        apply (prev_byte _ _ SP E1) in K. rewrite Hc in K. exact K.
  Qed.
  Lemma bar_view : scan_bar sc =
    if lineb before && starts_with (bs "===") rest then
      let sc1 := bump sc 3 in
      if memc (peek sc1) [NL; NUL] then add_token sc1 TTable false 0
      else add_text_until_next_markup sc1
    else if lineb before || (prevc before == SP) then add_table_cell sc
    else add_text_until_next_markup sc.
  Proof.
    unfold scan_bar. rewrite linev, backv.
    assert (beqb (peeks_ahead sc 3) (bs "===") = starts_with (bs "===") rest) as ->; [|reflexivity].
    apply (peeksv (bs "===")); try discriminate; now repeat constructor.
  Qed.
  Lemma sd_bar : c = "|" -> emits sc (scan_bar sc) Sd.
  Proof.
    intros Hc. rewrite bar_view. apply emits_if; intros K.
    - apply andb_true_iff in K as [K1 K2]. refl. match goal with H : begins _ _ |- _ => destruct H as (r & E) end.
      cbn zeta. change (bump sc 3) with (bump sc (List.length (bs "==="))). rewrite (peek_bump_any _ r E). apply emits_if; intros K.
      + apply (sd_fixed _ r); [exact E|]. intros Hr. rewrite Hc. split; [assumption|]. split; [reflexivity|].
        destruct Hr as [->|(y & r' & -> & Hy)]; [now left | right]. exists y, r'. split; [reflexivity|].
        apply memc_In in K. unfold peek_byte in K. now rewrite Hy in K.
      + apply (sd_text _ r E). cbn. intuition (subst; discriminate).
    - branch. match goal with H : _ || _ = true |- _ => rename H into K1 end.
      assert (~ occurs (bs " |") [c]) as Ho.
      { rewrite Hc. intros (a & z & Q). apply (f_equal (@List.length ascii)) in Q. rewrite !app_length in Q. cbn in Q. lia. }
      pose proof (sd_cell Hc) as Q. unfold add_table_cell.
      specialize (Q ltac:(apply orb_true_iff in K1 as [K1|K1]; [left; now apply lineb_spec | right; apply previsv in K1; [exact K1 | reflexivity | discriminate]])).
      specialize (Q ltac:(intros [L B]; apply lineb_spec in L; apply starts_with_begins in B; rewrite L, B in K; discriminate)).
      specialize (Q (List.length (sc_src sc)) [] rest eq_refl (Forall_nil _) Ho). cbn [List.length] in Q. now rewrite bump0 in Q.
  Qed.

  (** *** links *)
  Lemma peeks_two_at u x r : rest = u ++ x :: r -> ascii7 x ->
    peeks_ahead (bump sc (List.length u)) 2 = match r with [] => [NUL] | y :: _ => if high y then [NUL] else [x; y] end.
  Proof.
    intros E Hx. pose proof Hur as U. rewrite E in U. pose proof (utf8_after _ _ _ U Hx) as Ur.
    assert (List.length rest = List.length u + S (List.length r)) as Lr by (rewrite E, app_length; reflexivity).
    pose proof Hlen as L. destruct r as [|y r].
    - unfold peeks_ahead. cbn [bump set_cur sc_cur sc_src].
      assert (List.length (sc_src sc) <? sc_cur sc + List.length u + 2 = true) as -> by (apply Nat.ltb_lt; cbn in Lr; lia).
      now rewrite orb_true_r.
    - assert (is_cont y = false) as Hy by (apply utf8_head in Ur as [K|(z & r' & K & Kz)]; [discriminate | injection K as -> _; exact Kz]).
      assert (skipn (sc_cur (bump sc (List.length u))) (sc_src (bump sc (List.length u))) = x :: y :: r) as Es.
      { cbn [bump set_cur sc_cur sc_src]. rewrite <- skipn_skipn', Hrest, E. apply skipn_length_app. }
      destruct (high y) eqn:Eh.
      + apply high_spec in Eh. destruct (lead_followed [] y r Ur Eh Hy) as (d & r' & -> & Hd).
        unfold peeks_ahead. assert (is_boundary (sc_src (bump sc (List.length u))) (sc_cur (bump sc (List.length u)) + 2) = false) as ->; [|now rewrite !orb_true_r].
        unfold is_boundary. rewrite <- nth_error_skipn', Es. cbn [nth_error]. rewrite Hd. cbn [negb]. rewrite orb_false_r.
        apply Nat.eqb_neq. lia.
      + apply high_false in Eh. eapply (peeks_ahead_at _ 2 [x; y]); [exact Es | reflexivity | discriminate|].
        apply utf8_head. apply (utf8_after [] y r); assumption.
  Qed.
  Lemma link_cut w : exists v r, w = v ++ r
    /\ span_len (fun x => negb (memc x [NUL; SP]) && negb (is_punct x)) w = List.length v /\ Forall span_link v
    /\ (r = [] \/ exists y r', r = y :: r' /\ (peek_byte y = NUL \/ peek_byte y = SP \/ is_punct (peek_byte y) = true)).
  Proof.
    destruct (span_cases (fun x => negb (memc x [NUL; SP]) && negb (is_punct x)) w) as (v & r & E & El & Hv & Hr).
    exists v, r. split; [exact E|]. split; [exact El|]. split.
    - eapply Forall_impl; [|exact Hv]. intros b Hb. unfold peek_byte in Hb. destruct (is_cont b) eqn:Eb; [discriminate|].
      apply andb_true_iff in Hb as [H1 H2]. apply negb_true_iff in H2. unfold span_link. repeat split; auto; intros ->; discriminate.
    - destruct Hr as [->|(y & r' & -> & Hy)]; [now left | right]. exists y, r'. split; [reflexivity|].
      apply andb_false_iff in Hy as [Hy|Hy]; apply negb_false_iff in Hy; [|auto]. apply memc_In in Hy. cbn in Hy. intuition.
  Qed.
  Lemma http_in x r : c = "h" -> begins (bs "ttp") rest -> rest = x ++ r ->
    (r = [] \/ exists y r', r = y :: r' /\ y <> "t" /\ y <> "p") -> begins (bs "http") (c :: x).
  Proof.
    clear. intros -> (t & Et) E Hr. rewrite Et in E. destruct x as [|a [|b [|d x]]]; cbn in E.
    - exfalso. destruct Hr as [->|(y & r' & -> & H1 & H2)]; [discriminate|]. injection E as <- _. congruence.
    - injection E as <- E. exfalso. destruct Hr as [->|(y & r' & -> & H1 & H2)]; [discriminate|]. injection E as <- _. congruence.
    - injection E as <- <- E. exfalso. destruct Hr as [->|(y & r' & -> & H1 & H2)]; [discriminate|]. injection E as <- _. congruence.
    - injection E as <- <- <- _. now exists x.
  Qed.
  (** the end of a link without brackets *)
  Lemma link_stop u v r : c = "h" -> begins (bs "ttp") rest -> rest = u ++ v ++ r -> Forall linkish u -> Forall span_link v ->
    (forall a p, c :: u = a ++ [p] -> In p inside_links -> goes (v ++ r)) ->
    (at_char r -> SpecLex.link_ends r) -> emits sc (add_token (bump sc (List.length (u ++ v))) THyperlink true 0) Sd.
  Proof.
    intros Hc Hh E Hu' Hv Hg He. apply (sd_fixed _ r); [rewrite E, app_assoc; reflexivity|]. intros Hr. specialize (He Hr).
    assert (Forall linkish (u ++ v)) as Huv.
    { apply Forall_app. split; [exact Hu'|]. eapply Forall_impl; [|exact Hv]. apply span_linkish. }
    assert (Forall ascii7 (u ++ v)) as Ha.
    { eapply all_before_char; [rewrite E, app_assoc; reflexivity | | exact Hr]. eapply Forall_impl; [|exact Huv]. now intros b (Q & _). }
    split; [|split; [|split; [exact He|]]].
    - apply (http_in _ r Hc Hh); [rewrite E, app_assoc; reflexivity|].
      destruct He as [->|(y & r' & -> & Hy)]; [now left | right]. exists y, r'. split; [reflexivity|].
      assert (forall z, In z (bs "tp") -> y <> z) as Q; [|split; apply Q; cbn; auto].
      intros z Hz ->. assert (is_punct z = false /\ z <> " " /\ z <> "000" /\ ~ In z inside_links) as (Q1 & Q2 & Q3 & Q4)
        by (destruct Hz as [<-|[<-|[]]]; repeat split; try reflexivity; try discriminate; cbn; intuition discriminate).
      destruct Hy as [Hy|[Hy|[(Hy & _)|(Hy & _)]]]; try contradiction. apply punct_spec in Hy. congruence.
    - constructor; [|now apply linkish_char]. rewrite Hc. repeat split; try discriminate. intros [_ K]. discriminate.
    - intros a p Ea Hp. destruct (destruct_last v) as [-> | (v' & x & ->)].
      + cbn [app] in Hg. rewrite app_nil_r in Ea. exact (Hg a p Ea Hp).
      + exfalso. rewrite app_comm_cons, app_assoc in Ea. apply app_inj_tail in Ea as [_ ->].
        apply Forall_app in Hv as [_ Hv]. apply Forall_inv in Hv as (_ & _ & _ & Q). apply inside_punct in Hp as [Hp _]. congruence.
  Qed.
  Lemma sd_link_loop : c = "h" -> begins (bs "ttp") rest ->
    forall fuel u w, rest = u ++ w -> Forall linkish u ->
    (forall a p, c :: u = a ++ [p] -> In p inside_links -> goes w) ->
    emits sc (add_link_fuel fuel (bump sc (List.length u))) Sd.
  Proof.
    intros Hc Hh. induction fuel as [|fuel IH]; intros u w E Hu' Hg; cbn [add_link_fuel];
    destruct (link_cut w) as (v & r & -> & El & Hv & Hr); rewrite (advance_bump u (v ++ r) _ v r E eq_refl El); cbn zeta;
    (assert (rest = (u ++ v) ++ r) as E1 by (rewrite E, app_assoc; reflexivity)); rewrite (peek_bump_any _ r E1);
    (assert (at_char r -> match r with [] => NUL | y :: _ => peek_byte y end = hd NUL r) as Hhd
      by (intros [->|(y & r' & -> & Hy)]; [reflexivity | cbn; unfold peek_byte; now rewrite Hy]));
    (assert (Forall linkish (u ++ v)) as Huv
      by (apply Forall_app; split; [exact Hu' | eapply Forall_impl; [|exact Hv]; apply span_linkish])).
    all: apply emits_if; intros K1.
    (* with brackets *)
    1, 3: destruct r as [|y r]; [discriminate|]; apply peek_byte_is in K1; [|reflexivity | discriminate]; subst y;
      rewrite bump_bump; replace (List.length (u ++ v) + 1) with (List.length ((u ++ v) ++ ["["])) by (rewrite (app_length (u ++ v)); reflexivity);
      apply (sd_fixed _ r); [rewrite E1, <- (app_assoc (u ++ v)); reflexivity|]; intros _; exists (c :: u ++ v); split; [reflexivity|]; split;
      [apply (http_in _ ("[" :: r) Hc Hh E1); right; exists "[", r; repeat split; discriminate|];
      constructor; [rewrite Hc; repeat split; try discriminate; intros [_ K]; discriminate|];
      apply linkish_char; [exact Huv|]; eapply all_before_char; [exact E1 | | right; exists "[", r; auto];
      eapply Forall_impl; [|exact Huv]; now intros b (Q & _).
    all: apply emits_if; intros K2.
    1, 3: apply (link_stop u v r Hc Hh E Hu' Hv Hg); intros Hat'; specialize (Hhd Hat'); rewrite Hhd in K2;
      destruct Hat' as [->|(y & r' & -> & Hy)]; [now left | right]; exists y, r'; split; [reflexivity|]; cbn [hd] in K2;
      apply memc_In in K2; destruct K2 as [<-|[<-|[]]]; auto.
    all: apply emits_if; intros K3.
    1, 3: (assert (exists y r', r = y :: r' /\ In y inside_links) as (y & r' & -> & Hy)
        by (destruct r as [|y r']; [discriminate|]; exists y, r'; split; [reflexivity|]; unfold peek_byte in K3; destruct (is_cont y); [discriminate | now apply allowed_in]));
      destruct (inside_punct y Hy) as (Py & Ay & By); rewrite (peeks_two_at _ y r' E1 Ay); apply emits_if; intros K4;
      [apply (link_stop u v (y :: r') Hc Hh E Hu' Hv Hg); intros _; right; exists y, r'; split; [reflexivity|]; right; right; right; split; [exact Hy|];
       destruct r' as [|z r'']; [now left | right]; exists z, r''; split; [reflexivity|]; unfold outside;
       destruct (high z) eqn:Ez; [right; right; now apply high_spec|]; cbn [last] in K4; apply memc_In in K4; destruct K4 as [<-|[<-|[]]]; auto |].
    - apply emits_fail. discriminate.
    - rewrite bump_bump. replace (List.length (u ++ v) + 1) with (List.length ((u ++ v) ++ [y])) by (rewrite (app_length (u ++ v)); reflexivity).
      apply (IH _ r'); [rewrite E1, <- (app_assoc (u ++ v)); reflexivity | |].
      + apply Forall_app. split; [exact Huv|]. constructor; [|constructor]. repeat split; auto using ascii7_cont; intros ->; discriminate Py.
      + intros a p _ _. destruct r' as [|z r'']; [discriminate|]. exists z, r''. split; [reflexivity|]. intros Hz. destruct (high z) eqn:Ez; [discriminate|].
        cbn [last] in K4. apply high_false in Ez. destruct Hz as [-> | [-> | Hz]]; [discriminate | discriminate | contradiction].
    - apply (link_stop u v r Hc Hh E Hu' Hv Hg). intros Hat'. specialize (Hhd Hat'). rewrite Hhd in K1, K2, K3.
      destruct Hr as [->|(y & r' & -> & Hy)]; [now left | right]. exists y, r'. split; [reflexivity|]. cbn [hd] in *.
      destruct Hat' as [Q|(z & r0 & Q & Hz)]; [discriminate|]. injection Q as <- <-. unfold peek_byte in Hy. rewrite Hz in Hy.
      right. right. left. split; [|split].
      + apply punct_spec. destruct Hy as [-> | [-> | Hy]]; [discriminate | discriminate | exact Hy].
      + now apply Ascii.eqb_neq.
      + intros Q. apply allowed_in in Q. congruence.
    - apply (link_stop u v r Hc Hh E Hu' Hv Hg). intros Hat'. specialize (Hhd Hat'). rewrite Hhd in K1, K2, K3.
      destruct Hr as [->|(y & r' & -> & Hy)]; [now left | right]. exists y, r'. split; [reflexivity|]. cbn [hd] in *.
      destruct Hat' as [Q|(z & r0 & Q & Hz)]; [discriminate|]. injection Q as <- <-. unfold peek_byte in Hy. rewrite Hz in Hy.
      right. right. left. split; [|split].
      + apply punct_spec. destruct Hy as [-> | [-> | Hy]]; [discriminate | discriminate | exact Hy].
      + now apply Ascii.eqb_neq.
      + intros Q. apply allowed_in in Q. congruence.
  Qed.
  Lemma sd_h : c = "h" ->
    emits sc (if beqb (peeks_ahead sc 3) (bs "ttp") then add_link sc else add_text_until_next_markup sc) Sd.
  Proof.
    intros Hc. assert (beqb (peeks_ahead sc 3) (bs "ttp") = starts_with (bs "ttp") rest) as ->
      by (apply (peeksv (bs "ttp")); try discriminate; now repeat constructor).
    branch. refl. unfold add_link.
    pose proof (sd_link_loop Hc ltac:(assumption) (List.length (sc_src sc)) [] rest eq_refl (Forall_nil _)) as Q.
    cbn [List.length] in Q. rewrite bump0 in Q. apply Q. intros a p Ea Hp. exfalso.
    destruct a as [|x a]; [injection Ea as <-; rewrite Hc in Hp; cbn in Hp; intuition discriminate | destruct a; discriminate].
  Qed.
End Lex.
