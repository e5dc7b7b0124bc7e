(** * What [scan_token] yields, branch by branch *)
From Verif Require Import Base Location Token Scanner SpecScan ScanLemmas.
Local Open Scope char_scope.
Local Open Scope nat_scope.

Definition lex (src : bytes) (i n : nat) : bytes := firstn (n - i) (skipn i src).
Definition nlstart (src : bytes) (i : nat) : Prop :=
  i = 0 \/ exists j, i = S j /\ nth_error src j = Some NL.

Definition facts (src : bytes) (i n : nat) (ty : token_type) (lit : bool) (adv : nat) : Prop :=
  i < n /\ (n <= List.length src ->
  (ty = TNewLineChar -> adv = 1 /\ lex src i n = [NL])
  /\ (ty <> TNewLineChar -> adv = 0)
  /\ ty <> TStartTag /\ ty <> TEndTag /\ ty <> TEof
  /\ (forall k, heading_type k = Some ty ->
        nlstart src i /\ exists x, lex src i n = repeat "=" k ++ [x] /\ x <> "=")
  /\ (forall c, delimiter_of ty = Some c ->
        nlstart src i /\ lex src i n = repeat c 4 /\ nth_error src n = Some NL)
  /\ (ty = TOpenBlock ->
        nlstart src i /\ lex src i n = bs "--" /\ nth_error src n = Some NL)
  /\ (ty = TTable -> nlstart src i /\ lex src i n = bs "|===")
  /\ (ty = TCharRef ->
        In (lex src i n) (map fst replacements)
        \/ (lit = true /\ exists name, lex src i n = "&" :: name ++ [";"]
                                       /\ Forall (fun c => is_alnum_latin1 c = true) name))
  /\ (ty = TUnorderedListItem -> nlstart src i /\ lex src i n = bs "* ")
  /\ (ty = TOrderedListItem -> nlstart src i /\ lex src i n = bs ". ")
  /\ (ty = TBlockContinuation ->
        nlstart src i /\ lex src i n = bs "+" /\ nth_error src n = Some NL)
  /\ (ty = TComment -> nlstart src i /\ exists r, lex src i n = bs "//" ++ r)
  /\ (ty = TAttribute -> nlstart src i /\ exists r, lex src i n = bs ":" ++ r /\ ~ In NL r)
  /\ (forall s s', In (ty, (s, s')) quotes -> lex src i n = s)
  /\ (forall c, break_of ty = Some c -> lex src i n = repeat c 3 /\ nth_error src n = Some NL)).

Lemma starts_new_line_spec sc : starts_new_line sc = true -> nlstart (sc_src sc) (sc_start sc).
Proof.
  unfold starts_new_line, nlstart. destruct (sc_start sc) as [|j]; [auto|].
  destruct (nth_error (sc_src sc) j) eqn:E; [|discriminate].
  intros H. apply Ascii.eqb_eq in H. subst. right. eauto.
Qed.

(** the scanner inside [scan_token]: one byte past the start *)
Definition at1 (sc : scanner) (c : ascii) : Prop :=
  nth_error (sc_src sc) (sc_start sc) = Some c /\ sc_cur sc = S (sc_start sc).

Lemma at1_skipn sc c : at1 sc c ->
  skipn (sc_start sc) (sc_src sc) = c :: skipn (sc_cur sc) (sc_src sc).
Proof. intros [H1 H2]. rewrite H2. now apply skipn_nth. Qed.

Lemma at1_len sc c : at1 sc c -> sc_cur sc <= List.length (sc_src sc).
Proof.
  intros [H1 H2]. assert (nth_error (sc_src sc) (sc_start sc) <> None) as H by congruence.
  apply nth_error_Some in H. lia.
Qed.

Lemma lex_at1 sc c k : at1 sc c ->
  lex (sc_src sc) (sc_start sc) (sc_cur sc + k) = c :: firstn k (skipn (sc_cur sc) (sc_src sc)).
Proof.
  intros H. unfold lex. rewrite (at1_skipn sc c H). destruct H as [_ H]. rewrite H.
  replace (S (sc_start sc) + k - sc_start sc) with (S k) by lia. reflexivity.
Qed.

Lemma peeks_firstn sc k s : peeks_ahead sc k = s -> s <> [NUL] ->
  firstn k (skipn (sc_cur sc) (sc_src sc)) = s.
Proof. intros H Hs. apply peeks_ahead_eq in H; [|assumption]. now destruct H as (_ & -> & _). Qed.

Lemma peek_firstn sc c : is_cont c = false -> c <> NUL -> peek sc = c ->
  firstn 1 (skipn (sc_cur sc) (sc_src sc)) = [c].
Proof.
  intros Hc Hn H. apply peek_at_some in H; [|assumption..].
  now rewrite (skipn_nth _ _ _ H).
Qed.

Lemma peek_skipn sc c : is_cont c = false -> c <> NUL -> peek sc = c ->
  skipn (sc_cur sc) (sc_src sc) = c :: skipn (S (sc_cur sc)) (sc_src sc).
Proof.
  intros Hc Hn H. apply peek_at_some in H; [|assumption..]. now apply skipn_nth.
Qed.

Lemma repeated_line sc c n : starts_repeated_char_line sc c n = true -> n <> 0 -> c <> NUL ->
  firstn n (skipn (sc_cur sc) (sc_src sc)) = repeat c (n - 1) ++ [NL].
Proof.
  unfold starts_repeated_char_line. intros H Hn Hc. apply andb_true_iff in H as [_ H].
  apply beqb_eq in H. apply peeks_firstn; [exact H|].
  destruct (n - 1); cbn; [discriminate|]. injection. congruence.
Qed.

Lemma firstn_app_nth {A} (l : list A) n s x :
  firstn (S n) l = s ++ [x] -> List.length s = n -> firstn n l = s /\ nth_error l n = Some x.
Proof.
  intros H Hs. split.
  - replace (firstn n l) with (firstn n (firstn (S n) l))
      by (rewrite firstn_firstn; f_equal; lia).
    rewrite H, firstn_app, firstn_all2 by lia. rewrite Hs, Nat.sub_diag. cbn. now rewrite app_nil_r.
  - rewrite <- (firstn_skipn (S n) l), H.
    rewrite nth_error_app1 by (rewrite app_length; cbn; lia).
    rewrite nth_error_app2 by lia. now rewrite Hs, Nat.sub_diag.
Qed.

Lemma forall_repeat {A} (l : list A) x : Forall (fun y => y = x) l -> l = repeat x (List.length l).
Proof. induction 1; cbn; congruence. Qed.

Lemma span_len_eq_repeat c l : is_cont c = false -> c <> NUL ->
  let k := span_len (fun x => Ascii.eqb x c) l in firstn k l = repeat c k.
Proof.
  intros Hc Hn k. pose proof (span_len_all (fun x => Ascii.eqb x c) l) as Ha. fold k in Ha.
  assert (Forall (fun y => y = c) (firstn k l)) as Hb.
  { eapply Forall_impl; [|exact Ha]. intros b Hb. cbn in Hb.
    apply Ascii.eqb_eq in Hb. exact (proj1 (peek_byte_ascii _ _ Hc Hn) Hb). }
  apply forall_repeat in Hb. rewrite Hb. f_equal. rewrite firstn_length.
  pose proof (span_len_le (fun x => Ascii.eqb x c) l). fold k in H. lia.
Qed.

Ltac eqb_subst :=
  repeat match goal with
  | H : Ascii.eqb _ _ = true |- _ => apply Ascii.eqb_eq in H
  | H : beqb _ _ = true |- _ => apply beqb_eq in H
  | H : _ && _ = true |- _ => apply andb_true_iff in H; destruct H
  end.

Ltac no_special :=
  split; [cbn; lia|]; intros;
  repeat split; intros; try discriminate; try congruence;
  try (match goal with H : heading_type ?k = Some _ |- _ =>
         destruct k as [|[|[|[|[|[|k]]]]]]; try discriminate end);
  try (match goal with H : delimiter_of _ = Some _ |- _ => cbn in H; try discriminate end);
  try (match goal with H : break_of _ = Some _ |- _ => cbn in H; discriminate end);
  try (match goal with H : In _ quotes |- _ =>
         cbn in H; destruct H as [H|[H|[H|[H|[]]]]]; try discriminate end).

Section Tok.
  Variable sc : scanner.
  Variable c : ascii.
  Hypothesis A1 : at1 sc c.
  Let src := sc_src sc.
  Let i := sc_start sc.

  Notation F n ty lit adv := (facts (sc_src sc) (sc_start sc) n ty lit adv).
  Let Hcur : sc_cur sc = S (sc_start sc) := proj2 A1.
  Let Hle := at1_len sc c A1.

  Lemma f_text n : sc_cur sc <= n -> F n TText true 0.
  Proof. intros H. no_special. Qed.
  Hint Resolve f_text : scan.

  Lemma e_text sc2 : set_cur sc (sc_cur sc2) = sc2 -> sc_cur sc <= sc_cur sc2 ->
    emits sc (add_text_until_next_markup sc2) (facts (sc_src sc) (sc_start sc)).
  Proof.
    intros E H. apply (emits_weaken_sc sc (sc_cur sc2) _ _ H). rewrite E.
    apply emits_text. intros n Hn. apply f_text. lia.
  Qed.
  Lemma e_text0 : emits sc (add_text_until_next_markup sc) (facts (sc_src sc) (sc_start sc)).
  Proof. apply emits_text. apply f_text. Qed.
  Lemma e_tag : emits sc (add_tag sc) (facts (sc_src sc) (sc_start sc)).
  Proof. apply emits_tag; [lia | exact Hle]. Qed.

  Ltac leaf := first [apply e_text0 | apply e_tag | apply e_text; [reflexivity | cbn; lia]].
  Ltac branch :=
    repeat (match goal with |- emits _ (if _ then _ else _) _ => apply emits_if; intros ? end);
    try leaf.

  Lemma e_inline ty1 ty2 :
    (forall n, sc_cur sc <= n -> F n ty1 false 0) -> (forall n, sc_cur sc <= n -> F n ty2 false 0) ->
    emits sc (handle_inline_formatting sc c ty1 ty2) (facts (sc_src sc) (sc_start sc)).
  Proof. intros H1 H2. apply emits_inline. intros n Hn. auto using f_text. Qed.

  Lemma charref_at k s : firstn k (skipn (sc_cur sc) (sc_src sc)) = s ->
    In (c :: s) (map fst replacements) -> forall lit, F (sc_cur sc + k) TCharRef lit 0.
  Proof.
    intros H1 H2 lit. no_special. left. rewrite (lex_at1 sc c k A1), H1. exact H2.
  Qed.

  Lemma f_break ty : break_of ty = Some c -> starts_repeated_char_line sc c 3 = true ->
    F (sc_cur sc + 2) ty false 0.
  Proof.
    intros Hb H.
    assert (c <> NUL) as Hc by (destruct ty; cbn in Hb; try discriminate; injection Hb as <-; discriminate).
    apply repeated_line in H; [|discriminate|exact Hc].
    apply (firstn_app_nth _ 2 (repeat c 2) NL) in H as [H1 H2]; [|reflexivity].
    rewrite nth_error_skipn' in H2.
    split; [lia|]. intros _.
    assert (lex (sc_src sc) (sc_start sc) (sc_cur sc + 2) = repeat c 3) as L
      by (rewrite (lex_at1 sc c 2 A1), H1; reflexivity).
    destruct ty; cbn in Hb; try discriminate; injection Hb as Hb;
    repeat split; intros; try discriminate; try congruence;
    try (match goal with H : heading_type ?k = Some _ |- _ =>
         destruct k as [|[|[|[|[|[|k]]]]]]; discriminate end);
    try (match goal with H : In _ quotes |- _ =>
         cbn in H; destruct H as [H|[H|[H|[H|[]]]]]; discriminate end);
    (match goal with H : break_of _ = Some _ |- _ => cbn in H; injection H as H end; congruence).
  Qed.

  Lemma f_quote ty x s' lit : In (ty, (c :: [x], s')) quotes ->
    firstn 1 (skipn (sc_cur sc) (sc_src sc)) = [x] -> F (sc_cur sc + 1) ty lit 0.
  Proof.
    intros Hq H. split; [lia|]. intros _.
    assert (lex (sc_src sc) (sc_start sc) (sc_cur sc + 1) = c :: [x]) as L
      by (rewrite (lex_at1 sc c 1 A1), H; reflexivity).
    destruct Hq as [Hq|[Hq|[Hq|[Hq|[]]]]]; injection Hq as <- <- <- <-;
    repeat split; intros; try discriminate; try congruence;
    try (match goal with H : heading_type ?k = Some _ |- _ =>
         destruct k as [|[|[|[|[|[|k]]]]]]; discriminate end);
    match goal with H : In _ quotes |- _ =>
         cbn in H; destruct H as [H|[H|[H|[H|[]]]]]; try discriminate; injection H as <- _; exact L end.
  Qed.

  Lemma closes_word_peek q : is_cont q = false -> q <> NUL -> closes_word sc q = true ->
    firstn 1 (skipn (sc_cur sc) (sc_src sc)) = [q].
  Proof.
    intros Hq Hn H. unfold closes_word in H. apply orb_true_iff in H as [H|H].
    - apply memb_In in H.
      assert (exists y, peeks_ahead sc 2 = [q; y]) as [y Hy].
      { destruct H as [H|[H|[]]]; rewrite <- H; eauto. }
      apply (peeks_ahead_prefix sc [q; y]) in Hy as [r Hr]; [|discriminate]. now rewrite Hr.
    - apply andb_true_iff in H as [_ H]. apply Ascii.eqb_eq in H. now apply peek_firstn.
  Qed.

  Lemma e_apostrophe : c = "'" ->
    emits sc (scan_apostrophe sc c) (facts (sc_src sc) (sc_start sc)).
  Proof.
    intros Hc. unfold scan_apostrophe. branch.
    - apply emits_bump. apply f_break; [subst c; reflexivity | assumption].
    - eqb_subst. apply emits_bump. eapply (f_quote _ "`"); [subst c; cbn; tauto | now apply peek_firstn].
    - apply emits_same. replace (sc_cur sc) with (sc_cur sc + 0) by lia.
      apply (charref_at 0 []); [reflexivity|]. subst c. cbn. tauto.
  Qed.

  Lemma callout_loop_at sc2 b : callout_loop sc = (b, sc2) ->
    set_cur sc (sc_cur sc2) = sc2 /\ sc_cur sc <= sc_cur sc2.
  Proof.
    unfold callout_loop. destruct (peek _ == ">"); intros H; injection H as <- <-; split;
    reflexivity || (cbn; lia).
  Qed.
  Lemma callout_loop_at' sc1 sc2 b : set_cur sc (sc_cur sc1) = sc1 -> sc_cur sc <= sc_cur sc1 ->
    callout_loop sc1 = (b, sc2) ->
    set_cur sc (sc_cur sc2) = sc2 /\ sc_cur sc <= sc_cur sc2.
  Proof.
    intros E L. unfold callout_loop. destruct (peek _ == ">"); intros H; injection H as <- <-; split;
    try (cbn; lia); rewrite <- E; reflexivity.
  Qed.

  Lemma e_lt : c = "<" -> emits sc (scan_lt sc c) (facts (sc_src sc) (sc_start sc)).
  Proof.
    intros Hc. unfold scan_lt. branch.
    - apply emits_bump. apply f_break; [subst c; reflexivity | assumption].
    - apply emits_bump. match goal with H : memc _ _ = true |- _ => apply memc_In in H as [H|[H|[]]] end.
      + apply (charref_at 1 ["-"]); [now apply peek_firstn|]. subst c. cbn. tauto.
      + apply (charref_at 1 ["="]); [now apply peek_firstn|]. subst c. cbn. tauto.
    - apply emits_until_stop. intros n Hn. no_special.
    - destruct (if starts_new_line sc then starts_code_callout_list_item sc else (false, sc))
        as [is_item sc1] eqn:E1.
      assert (B1 : set_cur sc (sc_cur sc1) = sc1 /\ sc_cur sc <= sc_cur sc1).
      { destruct (starts_new_line sc).
        - unfold starts_code_callout_list_item in E1. destruct (callout_loop sc) eqn:E2.
          injection E1 as <- <-. eapply callout_loop_at; eassumption.
        - injection E1 as <- <-. split; [apply set_cur_id | lia]. }
      destruct B1 as [B1 B2]. branch.
      + apply emits_at; [rewrite <- B1 at 2; reflexivity | cbn; lia | no_special].
      + destruct (starts_code_callout sc1) as [is_callout sc2] eqn:E2.
        assert (B3 : set_cur sc (sc_cur sc2) = sc2 /\ sc_cur sc <= sc_cur sc2).
        { unfold starts_code_callout in E2. destruct (callout_loop sc1) eqn:E3.
          injection E2 as <- <-. eapply callout_loop_at'; eassumption. }
        destruct B3 as [B3 B4]. apply emits_if; intros ?.
        * apply emits_at; [assumption | assumption | no_special].
        * apply e_text; assumption.
  Qed.

  Lemma nls : starts_new_line sc = true -> nlstart (sc_src sc) (sc_start sc).
  Proof. apply starts_new_line_spec. Qed.

  Lemma e_heading : c = "=" -> starts_new_line sc = true ->
    emits sc (add_heading sc) (facts (sc_src sc) (sc_start sc)).
  Proof.
    intros Hc Hnl. unfold add_heading.
    set (k := span_len (fun x => x == "=") (skipn (sc_cur sc) (sc_src sc))).
    set (sc2 := bump (advance sc (fun c0 => c0 == "=")) 1).
    assert (H2 : sc_cur sc2 = sc_cur sc + (k + 1)) by (cbn; fold k; lia).
    assert (Hlex : sc_cur sc2 <= List.length (sc_src sc) ->
              exists x, lex (sc_src sc) (sc_start sc) (sc_cur sc2) = repeat "=" (S k) ++ [x]
                        /\ x <> "=").
    { intros Hn. rewrite H2, (lex_at1 sc c _ A1), firstn_add.
      pose proof (span_len_eq_repeat "=" (skipn (sc_cur sc) (sc_src sc)) eq_refl ltac:(discriminate)) as Hr.
      cbn zeta in Hr. fold k in Hr. rewrite Hr.
      destruct (nth_error (skipn (sc_cur sc) (sc_src sc)) k) as [x|] eqn:Hx.
      - exists x. rewrite (skipn_nth _ _ _ Hx). subst c. split; [reflexivity|].
        apply span_len_stop in Hx. intros ->. discriminate.
      - apply nth_error_None in Hx. rewrite skipn_length in Hx. lia. }
    assert (Hk : sc_cur sc2 - 1 - sc_start sc = S k) by lia.
    rewrite Hk.
    assert (Hf : forall ty, heading_type (S k) = Some ty -> F (sc_cur sc2) ty false 0).
    { intros ty Hty. split; [lia|]. intros Hn. specialize (Hlex Hn).
      assert (Hspec : forall k', heading_type k' = Some ty -> k' = S k).
      { intros k' Hk'. destruct k' as [|[|[|[|[|[|k']]]]]]; try discriminate;
          destruct k as [|[|[|[|[|k]]]]]; cbn in Hty, Hk'; congruence. }
      assert (ty = THeading1 \/ ty = THeading2 \/ ty = THeading3 \/ ty = THeading4 \/ ty = THeading5)
        as Hcase.
      { destruct k as [|[|[|[|[|k]]]]]; cbn in Hty; try discriminate; injection Hty as <-; tauto. }
      repeat split; intros;
        try (destruct Hcase as [->|[->|[->|[->| ->]]]]; discriminate);
        try congruence;
        try (match goal with H : In _ quotes |- _ =>
               destruct Hcase as [->|[->|[->|[->| ->]]]];
               cbn in H; destruct H as [H|[H|[H|[H|[]]]]]; discriminate end).
      - now apply nls.
      - match goal with H : heading_type ?k' = Some ty |- _ => rewrite (Hspec k' H) end. exact Hlex.
      }
    clearbody k. destruct k as [|[|[|[|[|k]]]]];
      try (apply emits_at; [reflexivity | lia | apply Hf; reflexivity]).
    apply emits_fail. congruence.
  Qed.

  Lemma e_delim_inner : memc c ["+"; "*"; "-"; "_"; "/"; "="; "."] = true ->
    emits sc (scan_delim_inner sc c) (facts (sc_src sc) (sc_start sc)).
  Proof.
    intros Hc. unfold scan_delim_inner. branch; eqb_subst.
    - apply emits_bump. apply (charref_at 1 [">"]); [now apply peek_firstn|]. subst c. cbn. tauto.
    - now apply e_heading.
    - apply emits_bump. apply (charref_at 1 [">"]); [now apply peek_firstn|]. subst c. cbn. tauto.
    - match goal with H : starts_text_symbol_replace_emdash sc = true |- _ =>
        unfold starts_text_symbol_replace_emdash in H end. eqb_subst.
      apply emits_bump. apply (charref_at 1 ["-"]); [now apply peek_firstn|]. subst c. cbn. tauto.
    - match goal with H : starts_repeated_char_line _ _ _ = true |- _ =>
        apply repeated_line in H; [|discriminate|subst; discriminate]; rename H into R end.
      apply firstn_app_nth in R as [R1 R2]; [|reflexivity].
      apply emits_bump. no_special.
      + now apply nls.
      + rewrite (lex_at1 sc c 1 A1), R1. now subst c.
      + now rewrite nth_error_skipn' in R2.
    - apply emits_bump. no_special; [now apply nls|].
      rewrite (lex_at1 sc c 1 A1), (peek_firstn sc SP); [now subst c|reflexivity|discriminate|assumption].
    - apply e_inline; intros n Hn; no_special.
    - apply emits_bump. no_special; [now apply nls|].
      rewrite (lex_at1 sc c 2 A1).
      rewrite (peek_skipn sc "/") by (reflexivity || discriminate || assumption).
      subst c. cbn. eexists. reflexivity.
    - apply emits_at; [reflexivity | cbn; lia |]. no_special; [now apply nls|].
      unfold advance, bump. cbn [sc_cur set_cur]. rewrite (lex_at1 sc c _ A1).
      rewrite (peek_skipn sc "/") by (reflexivity || discriminate || assumption).
      subst c. cbn. eexists. reflexivity.
    - apply emits_same. no_special; [now apply nls| |].
      + replace (sc_cur sc) with (sc_cur sc + 0) by lia. rewrite (lex_at1 sc c 0 A1). now subst c.
      + now apply peek_at_some.
    - apply emits_same. no_special.
    - apply e_inline; intros n Hn; no_special.
    - apply e_inline; intros n Hn; no_special.
    - apply emits_bump. apply (charref_at 2 ["."; "."]); [now apply peeks_firstn|]. subst c. cbn. tauto.
    - apply emits_bump. no_special; [now apply nls|].
      rewrite (lex_at1 sc c 1 A1), (peek_firstn sc SP); [now subst c|reflexivity|discriminate|assumption].
    - apply emits_same. no_special.
  Qed.

  Lemma e_delim : memc c ["+"; "*"; "-"; "_"; "/"; "="; "."] = true ->
    emits sc (scan_delim sc c) (facts (sc_src sc) (sc_start sc)).
  Proof.
    intros Hc. unfold scan_delim. branch; [|now apply e_delim_inner].
    eqb_subst.
    match goal with H : starts_repeated_char_line _ _ _ = true |- _ => rename H into R end.
    apply repeated_line in R; [|discriminate|].
    2:{ intros ->. discriminate. }
    apply firstn_app_nth in R as [R1 R2]; [|reflexivity]. rewrite nth_error_skipn' in R2.
    apply emits_bind. intros ty Hty. apply emits_bump.
    assert (Hd : delimiter_of ty = Some c /\ ty <> TNewLineChar /\ ty <> TStartTag
                 /\ ty <> TEndTag /\ ty <> TEof /\ ty <> TOpenBlock /\ ty <> TTable /\ ty <> TCharRef
                 /\ ty <> TUnorderedListItem /\ ty <> TOrderedListItem /\ ty <> TBlockContinuation
                 /\ ty <> TComment /\ ty <> TAttribute
                 /\ break_of ty = None /\ (forall s s', ~ In (ty, (s, s')) quotes)
                 /\ forall k, heading_type k <> Some ty).
    { unfold block_from_char in Hty.
      repeat match type of Hty with
      | (if ?b then _ else _) = _ => destruct b eqn:?E; eqb_subst
      end; try discriminate; injection Hty as <-; subst c; cbn;
      (repeat split; try discriminate);
      try (intros [|[|[|[|[|[|k]]]]]]; cbn; discriminate);
      (intros ? ? [Q|[Q|[Q|[Q|[]]]]]; discriminate). }
    destruct Hd as (D & D1 & D2 & D3 & D4 & D5 & D6 & D7 & D8 & D9 & D10 & D11 & D12 & D13 & D14 & D15).
    split; [lia|]. intros Hn. repeat split; intros; try congruence; try tauto;
      try (exfalso; eapply D14; eassumption).
    - now apply nls.
    - rewrite D in H1. injection H1 as <-. rewrite (lex_at1 sc c 3 A1), R1. reflexivity.
  Qed.

  Lemma e_lbracket : emits sc (scan_lbracket sc) (facts (sc_src sc) (sc_start sc)).
  Proof.
    unfold scan_lbracket. branch.
    - apply emits_until_stop. intros n Hn. no_special.
    - destruct (starts_attribution_line sc) as [b sc1] eqn:E1.
      assert (B1 : set_cur sc (sc_cur sc1) = sc1 /\ sc_cur sc <= sc_cur sc1).
      { unfold starts_attribution_line in E1.
        cbv zeta in E1. match type of E1 with (if ?b then _ else _) = _ => destruct b end;
          injection E1 as <- <-.
        - split; [reflexivity | cbn; lia].
        - split; [apply set_cur_id | lia]. }
      destruct B1 as [B1 B2]. branch.
      + destruct (nth_error (sc_src sc) (sc_start sc + 1)) as [x|]; [|apply emits_fail; congruence].
        apply emits_at; [assumption | assumption |].
        unfold attribution_type. repeat (destruct (x == _); [no_special|]). no_special.
      + apply emits_until_bracket. intros n Hn. no_special.
  Qed.

  Lemma e_backquote : c = "`" -> emits sc (scan_backquote sc c) (facts (sc_src sc) (sc_start sc)).
  Proof.
    intros Hc. unfold scan_backquote. branch.
    - apply emits_bump. eapply (f_quote _ "'"); [subst c; cbn; tauto | now apply closes_word_peek].
    - apply emits_bump. eapply (f_quote _ DQ); [subst c; cbn; tauto | now apply closes_word_peek].
    - apply e_inline; intros n Hn; no_special.
  Qed.

  Lemma e_colon : c = ":" -> emits sc (scan_colon sc) (facts (sc_src sc) (sc_start sc)).
  Proof.
    intros Hc. unfold scan_colon. apply emits_bind. intros is_attr Ha. branch.
    - assert (Hnl : starts_new_line sc = true).
      { destruct (starts_new_line sc); [reflexivity|]. congruence. }
      apply emits_bind. intros sc1 H1. unfold advance_or_hang in H1.
      destruct (is_at_end _) eqn:Hend; [discriminate|]. injection H1 as <-.
      apply emits_at; [reflexivity | cbn; lia|]. no_special; [now apply nls|].
      destruct (advance_until sc NL eq_refl ltac:(discriminate) Hle) as [[Hx _]|(_ & _ & Hx)].
      + unfold is_at_end in Hend. apply Nat.leb_gt in Hend.
        change (sc_src (advance sc (fun c0 => negb (c0 == NL)))) with (sc_src sc) in Hend. lia.
      + set (n := sc_cur (advance sc _)) in *.
        assert (Hn : n = sc_cur sc + (n - sc_cur sc)) by (unfold n; cbn; lia).
        rewrite Hn, (lex_at1 sc c _ A1). subst c. eexists. split; [reflexivity|exact Hx].
    - apply emits_bump. no_special.
  Qed.

  Lemma e_keyword kw ty lit :
    (forall n, sc_cur sc <= n -> F n ty lit 0) ->
    emits sc (scan_keyword sc kw ty lit) (facts (sc_src sc) (sc_start sc)).
  Proof.
    intros H. unfold scan_keyword. branch. apply emits_bump. apply H. lia.
  Qed.

  Lemma e_i : emits sc (scan_i sc) (facts (sc_src sc) (sc_start sc)).
  Proof.
    unfold scan_i. branch; apply emits_until_bracket; intros n Hn; no_special.
  Qed.

  Lemma e_amp : c = "&" -> emits sc (scan_amp sc) (facts (sc_src sc) (sc_start sc)).
  Proof.
    intros Hc. unfold scan_amp. apply emits_bind. intros ok Hok. branch.
    apply emits_at; [reflexivity | cbn; lia |]. subst ok.
    unfold starts_charref in Hok. apply bind_ok in Hok as (b & Hb & Hok).
    injection Hok as Hok. apply Ascii.eqb_eq in Hok. subst b.
    unfold byte_at in Hb.
    set (k := span_len is_alnum_latin1 (skipn (sc_cur sc) (sc_src sc))).
    assert (Hcurs : sc_cur (bump (advance sc is_alnum_latin1) 1) = sc_cur sc + (k + 1))
      by (cbn; fold k; lia).
    rewrite Hcurs. no_special. right. split; [reflexivity|].
    exists (firstn k (skipn (sc_cur sc) (sc_src sc))).
    rewrite (lex_at1 sc c _ A1), firstn_add. subst c. split.
    - rewrite skipn_skipn'. fold (sc_cur (advance sc is_alnum_latin1)) in Hb.
      change (sc_cur (advance sc is_alnum_latin1)) with (sc_cur sc + k) in Hb.
      change (sc_src (advance sc is_alnum_latin1)) with (sc_src sc) in Hb.
      destruct (nth_error (sc_src sc) (sc_cur sc + k)) as [x|] eqn:Hx; [|discriminate].
      injection Hb as ->. now rewrite (skipn_nth _ _ _ Hx).
    - pose proof (span_len_all is_alnum_latin1 (skipn (sc_cur sc) (sc_src sc))) as Ha.
      fold k in Ha. eapply Forall_impl; [|exact Ha]. intros b Hbb. cbn in Hbb.
      unfold peek_byte in Hbb. destruct (is_cont b) eqn:Hcb; [discriminate|exact Hbb].
  Qed.

  Lemma e_lbrace : emits sc (scan_lbrace sc) (facts (sc_src sc) (sc_start sc)).
  Proof.
    unfold scan_lbrace. apply emits_bind. intros ok Hok. branch.
    apply emits_at; [reflexivity | cbn; lia | no_special].
  Qed.

  Lemma e_bar : c = "|" -> emits sc (scan_bar sc) (facts (sc_src sc) (sc_start sc)).
  Proof.
    intros Hc. unfold scan_bar. branch; eqb_subst.
    - cbn zeta. branch. apply emits_bump. no_special; [now apply nls|].
      rewrite (lex_at1 sc c 3 A1), (peeks_firstn sc 3 (bs "===")); [now subst c|assumption|discriminate].
    - apply emits_table_cell. intros n Hn. no_special.
  Qed.

  Lemma e_parens : c = "(" -> starts_text_symbol_replace_parens sc = true ->
    emits sc (handle_text_symbol_replacement_parens sc) (facts (sc_src sc) (sc_start sc)).
  Proof.
    intros Hc H. unfold handle_text_symbol_replacement_parens.
    apply emits_bind. intros sc1 H1. unfold advance_or_hang in H1.
    destruct (is_at_end _) eqn:Hend; [discriminate|]. injection H1 as <-.
    apply emits_at; [reflexivity | cbn; lia |].
    unfold starts_text_symbol_replace_parens in H. apply orb_true_iff in H as [H|H].
    - apply memb_In in H.
      assert (exists x, In x ["C"; "R"] /\ peeks_ahead sc 2 = [x; ")"]) as (x & Hx & Hp).
      { destruct H as [H|[H|[]]]; rewrite <- H; [exists "C" | exists "R"]; cbn; tauto. }
      apply (peeks_ahead_prefix sc [x; ")"]) in Hp as [r Hr]; [|discriminate].
      assert (E : sc_cur (bump (advance sc (fun c0 => negb (c0 == ")"))) 1) = sc_cur sc + 2).
      { unfold advance, bump. cbn [sc_cur set_cur]. rewrite Hr.
        destruct Hx as [<-|[<-|[]]]; cbn; lia. }
      rewrite E. apply (charref_at 2 [x; ")"]); [now rewrite Hr|].
      subst c. destruct Hx as [<-|[<-|[]]]; cbn; tauto.
    - apply beqb_eq in H.
      apply (peeks_ahead_prefix sc (bs "TM)")) in H as [r Hr]; [|discriminate].
      assert (E : sc_cur (bump (advance sc (fun c0 => negb (c0 == ")"))) 1) = sc_cur sc + 3).
      { unfold advance, bump. cbn [sc_cur set_cur]. rewrite Hr. cbn; lia. }
      rewrite E. apply (charref_at 3 (bs "TM)")); [now rewrite Hr|].
      subst c. cbn; tauto.
  Qed.
End Tok.

(** ** The whole of [scan_token] *)
Theorem scan_token_emits sc0 :
  sc_start sc0 = sc_cur sc0 ->
  emits (bump sc0 1) (scan_token sc0) (facts (sc_src sc0) (sc_start sc0)).
Proof.
  intros Hst. unfold scan_token. apply emits_bind. intros c Hb.
  unfold byte_at in Hb. destruct (nth_error (sc_src sc0) (sc_cur sc0)) as [b|] eqn:Hc; [|discriminate].
  injection Hb as ->.
  assert (A1 : at1 (bump sc0 1) c).
  { split; cbn; [now rewrite Hst | lia]. }
  set (sc := bump sc0 1) in *. cbn zeta.
  change (sc_src sc0) with (sc_src sc). change (sc_start sc0) with (sc_start sc).
  clearbody sc. pose proof (proj2 A1) as Hcur.
  Ltac go A1 := match goal with
    | |- emits _ (if ?b then _ else _) _ => apply emits_if; intros ?
    | |- emits ?sc (add_text_until_next_markup ?sc) _ => eapply e_text0; exact A1
    | |- emits ?sc (add_tag ?sc) _ => eapply e_tag; exact A1
    | |- emits ?sc (scan_keyword ?sc _ _ _) _ => eapply e_keyword; [exact A1 | intros; no_special]
    | |- emits ?sc (scan_i ?sc) _ => eapply e_i; exact A1
    | |- emits ?sc (scan_lbrace ?sc) _ => eapply e_lbrace; exact A1
    | |- emits ?sc (scan_lbracket ?sc) _ => eapply e_lbracket; exact A1
  end.
  repeat go A1; eqb_subst.
  - apply emits_same. split; [lia|]. intros Hn. repeat split; intros; try discriminate; try congruence;
    try (match goal with H : heading_type ?k = Some _ |- _ =>
         destruct k as [|[|[|[|[|[|k]]]]]]; discriminate end);
    try (match goal with H : In _ quotes |- _ =>
               cbn in H; destruct H as [H|[H|[H|[H|[]]]]]; discriminate end).
    replace (sc_cur sc) with (sc_cur sc + 0) by lia. rewrite (lex_at1 sc c 0 A1). now subst c.
  - now apply e_apostrophe.
  - now apply e_lt.
  - now apply e_delim.
  - now apply e_backquote.
  - apply emits_same. no_special.
  - apply emits_same. no_special.
  - eapply e_inline; [exact A1| |]; intros; no_special.
  - eapply e_colon; eassumption.
  - eapply e_parens; eassumption.
  - apply emits_link. intros n Hn. split; no_special.
  - apply emits_same. no_special.
  - eapply e_amp; eassumption.
  - eapply e_bar; eassumption.
  - apply emits_bump. eapply f_quote; [exact A1 | subst c; cbn; tauto | now apply peek_firstn].
Qed.
