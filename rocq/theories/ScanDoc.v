(** * The scanner, construct by construct, from any place of the source *)
From Verif Require Import Base Location Token Scanner Parser SpecScan SpecStart SpecDoc ScanLemmas ScanFacts ScanMain
  ScanMain2 ScanLine ScanStart.
Local Open Scope char_scope.
Local Open Scope nat_scope.

(** the scanner of [src] has read [before] and stands at line [line], column [col] *)
Definition at_place (src : bytes) (files : list bytes) (before : bytes) (line col : nat) (sc : scanner) : Prop :=
  sc_src sc = src /\ sc_cur sc = List.length before /\ sc_line sc = line /\ sc_startcol sc = col
  /\ sc_scanning sc = true /\ sc_tagend sc = false /\ sc_files sc = files.
Definition here (src : bytes) (files : list bytes) (before : bytes) (line col : nat) : scanner :=
  mkSc src (List.length before) col (List.length before) line true false files.

Inductive runs : scanner -> list token -> scanner -> Prop :=
| runs_nil sc : runs sc [] sc
| runs_cons sc t sc1 ts sc2 : next sc = Ok (Some t, sc1) -> runs sc1 ts sc2 -> runs sc (t :: ts) sc2.
Lemma runs_app sc ts sc1 ts' sc2 : runs sc ts sc1 -> runs sc1 ts' sc2 -> runs sc (ts ++ ts') sc2.
Proof. induction 1; cbn; intros; [assumption|]. econstructor; eauto. Qed.

(** a token of the kind most branches make *)
Definition tok (ty : token_type) (lit : bool) (files : list bytes) (line col : nat) (s : bytes) : token :=
  validate (mkTok ty s (if lit then Some s else None) line col (col + List.length s - 1) files).

Definition boundary_head (s : bytes) : Prop := s = [] \/ exists x r, s = x :: r /\ is_cont x = false.

Section Place.
  Variables (src : bytes) (files : list bytes).

  Lemma next_here before line col sc c r :
    at_place src files before line col sc -> src = before ++ c :: r ->
    next sc = (let* (sc2, t) := scan_token (here src files before line col) in Ok (Some t, sc2)).
  Proof.
    intros (A1 & A2 & A3 & A4 & A5 & A6 & A7) E. unfold next, is_at_end, here. rewrite A1, A2, A3, A4, A5, A6, A7.
    destruct (Nat.leb_spec (List.length src) (List.length before)) as [L|L].
    - rewrite E, app_length in L. cbn in L. lia.
    - reflexivity.
  Qed.

  Lemma next_end before line col sc :
    at_place src files before line col sc -> src = before ->
    exists sc1, next sc = Ok (Some (final_token line files), sc1) /\ next sc1 = Ok (None, sc1).
  Proof.
    intros (A1 & A2 & A3 & A4 & A5 & A6 & A7) E. unfold next, is_at_end. rewrite A1, A2, A3, A5, A7, E, Nat.leb_refl.
    cbn [negb]. eexists. split; [reflexivity|]. cbn. rewrite Nat.leb_refl. reflexivity.
  Qed.

  (** [add_token] cuts the text from the start of the token *)
  Lemma add_token_here before line col n ty lit adv s tail :
    src = before ++ s ++ tail -> n = List.length before + List.length s -> s <> [] ->
    boundary_head s -> boundary_head tail ->
    exists sc', add_token (set_cur (here src files before line col) n) ty lit adv
                = Ok (sc', tok ty lit files line col s)
      /\ at_place src files (before ++ s) (line + adv) (if adv =? 0 then col + List.length s else 1) sc'.
  Proof.
    intros E -> Hne Hs Ht. unfold add_token, slice, here. cbn [set_cur sc_src sc_start sc_cur].
    assert (List.length src = List.length before + List.length s + List.length tail) as L
      by (rewrite E, !app_length; lia).
    assert (skipn (List.length before) src = s ++ tail) as K by (rewrite E; apply skipn_length_app).
    destruct (Nat.leb_spec (List.length before) (List.length before + List.length s)); [|lia].
    destruct (Nat.leb_spec (List.length before + List.length s) (List.length src)); [|lia].
    assert (is_boundary src (List.length before) = true) as ->.
    { destruct Hs as [->|(x & r & -> & Hx)]; [congruence|]. eapply is_boundary_ascii_at; [|exact Hx]. exact K. }
    assert (is_boundary src (List.length before + List.length s) = true) as ->.
    { destruct Ht as [->|(x & r & -> & Hx)].
      - cbn in L. replace (List.length before + List.length s) with (List.length src) by lia. apply boundary_end.
      - eapply is_boundary_ascii_at; [|exact Hx]. rewrite <- skipn_skipn', K. apply skipn_length_app. }
    cbn [andb bind]. rewrite K.
    replace (List.length before + List.length s - List.length before) with (List.length s) by lia.
    rewrite firstn_app, Nat.sub_diag, firstn_all. cbn [firstn]. rewrite app_nil_r.
    unfold tok. eexists. split; [reflexivity|]. unfold at_place.
    destruct adv; cbn; rewrite ?app_length; repeat split; auto; lia.
  Qed.

  Lemma add_token_next before line col sc n ty lit adv s tail :
    at_place src files before line col sc ->
    src = before ++ s ++ tail -> n = List.length before + List.length s -> s <> [] ->
    boundary_head s -> boundary_head tail ->
    scan_token (here src files before line col) = add_token (set_cur (here src files before line col) n) ty lit adv ->
    exists sc', next sc = Ok (Some (tok ty lit files line col s), sc')
      /\ at_place src files (before ++ s) (line + adv) (if adv =? 0 then col + List.length s else 1) sc'.
  Proof.
    intros A E Hn Hne Hs Ht K.
    destruct (add_token_here before line col n ty lit adv s tail E Hn Hne Hs Ht) as (sc' & H & A').
    exists sc'. split; [|exact A']. destruct s as [|c s]; [congruence|].
    erewrite next_here; [|exact A|rewrite E; reflexivity]. rewrite K, H. reflexivity.
  Qed.

  (** ** newline *)
  Lemma next_newline before line col sc tail :
    at_place src files before line col sc -> src = before ++ [NL] ++ tail -> boundary_head tail ->
    exists sc', next sc = Ok (Some (tok TNewLineChar false files line col [NL]), sc')
      /\ at_place src files (before ++ [NL]) (S line) 1 sc'.
  Proof.
    intros A E Ht.
    destruct (add_token_next before line col sc (List.length before + 1) TNewLineChar false 1 [NL] tail A E)
      as (sc' & H & A'); auto.
    - discriminate.
    - right. exists NL, []. auto.
    - unfold scan_token, byte_at, here. cbn [sc_src sc_cur].
      rewrite E, nth_error_app2, Nat.sub_diag by lia. reflexivity.
    - exists sc'. split; [exact H|]. now rewrite Nat.add_1_r in A'.
  Qed.

  (** ** plain text *)
  (** what comes after the text [s]: the end, or one of the characters that stop it.
      A double quote before a back quote is another spelling. *)
  Definition stop_chars : bytes := [NL; "{"; "*"; "_"; "#"; "^"; "~"; "`"].
  Definition free (o : bytes) : bool := forallb (fun x => negb (memc x stop_chars)) o.
  Definition closing (s tail : bytes) : Prop :=
    tail = [] \/ exists x r, tail = x :: r /\ In x stop_chars /\ (x = "`" -> last s NUL <> DQ).

  Lemma stop_facts x : In x stop_chars -> is_cont x = false /\ memc (peek_byte x) markup_chars = true.
  Proof. intros H. repeat destruct H as [<-|H]; try (split; reflexivity). contradiction. Qed.
  Lemma closing_boundary s tail : closing s tail -> boundary_head tail.
  Proof. intros [->|(x & r & -> & H & _)]; [now left | right]. apply stop_facts in H as [H _]. eauto. Qed.

  Lemma occurs_prefix (o s0 s tail : bytes) r : closing s0 tail -> free o = true ->
    s ++ tail = o ++ r -> exists y, s = o ++ y.
  Proof.
    intros Ht Hn. revert s. induction o as [|a o IH]; intros s E; [now exists s|].
    unfold free in Hn. cbn [forallb] in Hn. apply andb_prop in Hn as [Ha Hn].
    destruct s as [|b s].
    - cbn in E. destruct Ht as [Et|(x & r' & Et & Hx & _)]; rewrite Et in E; [discriminate E|].
      injection E as <- _. apply memc_In in Hx. now rewrite Hx in Ha.
    - cbn in E. injection E as <- E. apply IH in E as (y & ->); [now exists y|assumption].
  Qed.

  Lemma occurs_tail o c s : occurs o s -> occurs o (c :: s).
  Proof. intros (x & y & ->). exists (c :: x), y. reflexivity. Qed.
  Lemma occurs_suffix o a s : occurs o s -> occurs o (a ++ s).
  Proof. intros (x & y & ->). exists (a ++ x), y. now rewrite app_assoc. Qed.
  Lemma occurs_head o y : occurs o (o ++ y).
  Proof. now exists [], y. Qed.

  Section Text.
    Variables (before : bytes) (line col : nat) (c : ascii) (s tail : bytes).
    Hypothesis Es : src = before ++ (c :: s) ++ tail.
    Hypothesis Hm : Forall (fun o => ~ occurs o (c :: s)) markup.
    Hypothesis Ht : closing (c :: s) tail.
    Let sc := bump (here src files before line col) 1.
    Hypothesis Hl : starts_new_line sc = true -> plain_start (c :: s).

    Lemma rest_here : skipn (sc_cur sc) (sc_src sc) = s ++ tail.
    Proof.
      unfold sc, here. cbn [bump set_cur sc_cur sc_src]. rewrite Es, <- skipn_skipn', skipn_length_app. reflexivity.
    Qed.

    Lemma no_markup o : In o markup -> (exists y, c :: s = o ++ y) -> False.
    Proof. intros H (y & E). rewrite Forall_forall in Hm. apply (Hm o H). rewrite E. apply occurs_head. Qed.

    Lemma no_char a : In [a] markup -> c <> a.
    Proof. intros H E. apply (no_markup [a] H). exists s. now rewrite E. Qed.

    Lemma not_ahead k : In (c :: k) markup -> free k = true -> k <> [NUL] ->
      peeks_ahead sc (List.length k) = k -> False.
    Proof.
      intros H H1 H3 E. apply peeks_ahead_prefix in E as (r & E); [|assumption].
      rewrite rest_here in E. apply (occurs_prefix _ _ _ _ _ Ht) in E as (y & Ey); auto.
      apply (no_markup (c :: k) H). exists y. now rewrite Ey.
    Qed.
    (** the same, when a shorter opener already occurs *)
    Lemma not_ahead' o a k : In o markup -> c :: k = a ++ o ++ skipn (List.length a + List.length o) (c :: k) ->
      free k = true -> k <> [NUL] -> peeks_ahead sc (List.length k) = k -> False.
    Proof.
      intros H Ek H1 H3 E. apply peeks_ahead_prefix in E as (r & E); [|assumption].
      rewrite rest_here in E. apply (occurs_prefix _ _ _ _ _ Ht) in E as (y & Ey); auto.
      rewrite Forall_forall in Hm. apply (Hm o H). rewrite Ey. change (c :: k ++ y) with ((c :: k) ++ y). rewrite Ek.
      exists a, (skipn (List.length a + List.length o) (c :: k) ++ y). now rewrite <- !app_assoc.
    Qed.
    Lemma peek_in a : is_cont a = false -> a <> NUL -> free [a] = true -> peek sc = a -> exists s', s = a :: s'.
    Proof.
      intros H1 H2 H3 E. apply peek_skipn in E; auto. rewrite rest_here in E.
      destruct (occurs_prefix [a] _ s tail _ Ht H3 E) as (y & Ey). now exists y.
    Qed.
    Lemma not_peek a : In [c; a] markup -> is_cont a = false -> a <> NUL -> free [a] = true -> peek sc == a = false.
    Proof.
      intros H H1 H2 H3. apply Ascii.eqb_neq. intros E. apply peek_in in E as (s' & E); auto.
      apply (no_markup [c; a] H). exists s'. now rewrite E.
    Qed.
    Lemma not_peek1 a : In [a] markup -> is_cont a = false -> a <> NUL -> free [a] = true -> peek sc == a = false.
    Proof.
      intros H H1 H2 H3. apply Ascii.eqb_neq. intros E. apply peek_in in E as (s' & E); auto.
      rewrite Forall_forall in Hm. apply (Hm [a] H). exists [c], s'. now rewrite E.
    Qed.
    Lemma keyword_text k ty lit : In (c :: k) markup -> free k = true -> k <> [NUL] ->
      scan_keyword sc k ty lit = add_text_until_next_markup sc.
    Proof.
      intros H H1 H3. unfold scan_keyword. destruct (beqb (peeks_ahead sc (List.length k)) k) eqn:E; [|reflexivity].
      apply beqb_eq in E. exfalso. revert E. now apply not_ahead.
    Qed.
    Lemma keyword_text' o a k ty lit : In o markup -> c :: k = a ++ o ++ skipn (List.length a + List.length o) (c :: k) ->
      free k = true -> k <> [NUL] ->
      scan_keyword sc k ty lit = add_text_until_next_markup sc.
    Proof.
      intros H Ek H1 H3. unfold scan_keyword. destruct (beqb (peeks_ahead sc (List.length k)) k) eqn:E; [|reflexivity].
      apply beqb_eq in E. exfalso. revert E. now apply (not_ahead' o a).
    Qed.

    Lemma not_start o : In o line_markup -> (exists y, c :: s = o ++ y) -> starts_new_line sc = false.
    Proof.
      intros H E. apply not_true_is_false. intros F. specialize (Hl F). unfold plain_start in Hl. rewrite Forall_forall in Hl. exact (Hl o H E).
    Qed.

    Ltac inm := vm_compute; repeat first [left; reflexivity | right].
    Ltac out := cbn; let H := fresh in intros H; repeat destruct H as [H|H]; try discriminate H; try contradiction.
    Ltac nochar a := let E := fresh in destruct (c == a) eqn:E;
      [exfalso; apply Ascii.eqb_eq in E; revert E; apply no_char; inm | ].

    Lemma repeated_in n a : starts_repeated_char_line sc a (S (S n)) = true -> a <> NUL -> free [a] = true ->
      exists s', s = a :: s'.
    Proof.
      intros H H1 H3. apply repeated_line in H; [|discriminate|assumption].
      cbn [Nat.sub repeat app] in H. rewrite rest_here in H.
      destruct (s ++ tail) as [|x r] eqn:E; [discriminate|]. cbn in H. injection H as -> _.
      destruct (occurs_prefix [a] _ s tail r Ht H3 E) as (y & Ey). now exists y.
    Qed.

    Lemma text_branch : scan_token (here src files before line col) = add_text_until_next_markup sc.
    Proof.
      unfold scan_token, byte_at, here. cbn [sc_src sc_cur].
      rewrite Es at 1. rewrite nth_error_app2, Nat.sub_diag by lia. cbn [nth_error bind app].
      fold (here src files before line col). fold sc.
      assert (starts_end_tag_line sc = false) as Htag by reflexivity.
      nochar NL. nochar "'". nochar "<".
      destruct (memc c ["+"; "*"; "-"; "_"; "/"; "="; "."]) eqn:D.
      { assert (c = "-" \/ c = "/" \/ c = "=" \/ c = ".") as D'.
        { apply memc_In in D. cbn in D.
          destruct D as [D|[D|[D|[D|[D|[D|[D|[]]]]]]]]; auto; exfalso; symmetry in D; revert D; apply no_char; inm. }
        clear D. unfold scan_delim. rewrite Htag.
        assert (starts_new_line sc && starts_repeated_char_line sc c 4 = false) as ->.
        { apply not_true_is_false. intros G. apply andb_true_iff in G as [F G].
          apply repeated_in in G as (s' & G); [|intros ->; now repeat destruct D' as [D'|D']|now repeat destruct D' as [->|D']; [..|subst c]].
          destruct D' as [D'|[D'|[D'|D']]].
          - apply (no_markup (bs "--")); [inm | exists s'; now rewrite G, D'].
          - rewrite (not_start (bs "//")) in F; [discriminate|inm|]. exists s'. now rewrite G, D'.
          - rewrite (not_start (bs "=")) in F; [discriminate|inm|]. exists s. now rewrite D'.
          - rewrite (not_start (bs ".")) in F; [discriminate|inm|]. exists s. now rewrite D'. }
        unfold scan_delim_inner. destruct D' as [D'|[D'|[D'|D']]]; rewrite D'.
        - cbn [Ascii.eqb Bool.eqb]. rewrite (not_peek ">"); [|rewrite D'; inm|reflexivity|discriminate|reflexivity].
          unfold starts_text_symbol_replace_emdash. rewrite (not_peek "-"); [|rewrite D'; inm|reflexivity|discriminate|reflexivity].
          cbn [andb]. destruct (starts_new_line sc && starts_repeated_char_line sc "-" 2) eqn:G; [|reflexivity].
          exfalso. apply andb_true_iff in G as [_ G]. apply repeated_in in G as (s' & G); [|discriminate|reflexivity].
          apply (no_markup (bs "--")); [inm | exists s'; now rewrite G, D'].
        - cbn [Ascii.eqb Bool.eqb]. rewrite Htag. destruct (starts_new_line sc && (peek sc == "/")) eqn:G; [|reflexivity].
          exfalso. apply andb_true_iff in G as [F G]. apply Ascii.eqb_eq, peek_in in G as (s' & G); [|reflexivity|discriminate|reflexivity].
          rewrite (not_start (bs "//")) in F; [discriminate|inm|]. exists s'. now rewrite G, D'.
        - cbn [Ascii.eqb Bool.eqb]. rewrite (not_peek ">"); [|rewrite D'; inm|reflexivity|discriminate|reflexivity].
          rewrite (not_start (bs "=")); [reflexivity|inm|]. exists s. now rewrite D'.
        - cbn [Ascii.eqb Bool.eqb]. rewrite (not_start (bs ".")); [|inm|exists s; now rewrite D'].
          destruct (beqb (peeks_ahead sc 2) (bs "..")) eqn:G; [|reflexivity]. exfalso.
          apply beqb_eq in G. revert G. apply (not_ahead (bs "..")); [rewrite D'; inm|reflexivity|discriminate]. }
      nochar "[". nochar "`". nochar "^". nochar "~". nochar "#".
      destruct (c == ":") eqn:Ec.
      { apply Ascii.eqb_eq in Ec. unfold scan_colon. rewrite (not_start (bs ":")); [|inm|exists s; now rewrite Ec].
        assert (memb (peeks_ahead sc 2) [[":"; SP]; [":"; NL]] = false) as ->.
        { apply not_true_is_false. intros G. apply memb_In in G. assert (peek sc = ":") as P.
          { destruct G as [G|[G|[]]]; symmetry in G; apply peeks_ahead_eq in G; try discriminate;
            destruct G as (_ & G & _);
            (destruct (skipn (sc_cur sc) (sc_src sc)) as [|x [|y r]] eqn:K; cbn in G; try discriminate;
             injection G as <- _; eapply peek_at_head; [exact K|reflexivity]). }
          apply peek_in in P as (s' & P); [|reflexivity|discriminate|reflexivity].
          apply (no_markup (bs "::")); [inm | exists s'; now rewrite P, Ec]. }
        rewrite andb_false_r. reflexivity. }
      destruct (c == "(") eqn:Ep.
      { apply Ascii.eqb_eq in Ep. unfold starts_text_symbol_replace_parens.
        destruct (_ || _) eqn:G; [|reflexivity]. exfalso. apply orb_true_iff in G as [G|G].
        - apply memb_In in G. destruct G as [G|[G|[]]]; symmetry in G; revert G.
          + apply (not_ahead (bs "C)")); [rewrite Ep; inm|reflexivity|discriminate].
          + apply (not_ahead (bs "R)")); [rewrite Ep; inm|reflexivity|discriminate].
        - apply beqb_eq in G. revert G. apply (not_ahead (bs "TM)")); [rewrite Ep; inm|reflexivity|discriminate]. }
      Ltac onchar a E := destruct (c == a) eqn:E; [apply Ascii.eqb_eq in E|].
      onchar "f" E1.
      { apply (keyword_text' (bs "[") (bs "footnote:")); [inm|rewrite E1; reflexivity|reflexivity|discriminate]. }
      onchar "p" E2.
      { apply (keyword_text' (bs "[") (bs "pass:")); [inm|rewrite E2; reflexivity|reflexivity|discriminate]. }
      onchar "h" E3.
      { destruct (beqb _ _) eqn:G; [|reflexivity]. exfalso. apply beqb_eq in G. revert G.
        apply (not_ahead (bs "ttp")); [rewrite E3; inm|reflexivity|discriminate]. }
      onchar "i" E4.
      { unfold scan_i.
        assert (beqb (peeks_ahead sc 8) (bs "nclude::") = false) as ->.
        { apply not_true_is_false. intros G. apply beqb_eq in G. revert G.
          apply (not_ahead' (bs "::") (bs "include") (bs "nclude::")); [inm|rewrite E4; reflexivity|reflexivity|discriminate]. }
        assert (beqb (peeks_ahead sc 6) (bs "mage::") = false) as ->.
        { apply not_true_is_false. intros G. apply beqb_eq in G. revert G.
          apply (not_ahead' (bs "::") (bs "image") (bs "mage::")); [inm|rewrite E4; reflexivity|reflexivity|discriminate]. }
        assert (beqb (peeks_ahead sc 5) (bs "mage:") = false) as ->.
        { apply not_true_is_false. intros G. apply beqb_eq in G. revert G.
          apply (not_ahead (bs "mage:")); [rewrite E4; inm|reflexivity|discriminate]. }
        rewrite !andb_false_r. reflexivity. }
      onchar "t" E5.
      { destruct (beqb _ _) eqn:G; [|reflexivity]. exfalso. apply beqb_eq in G. revert G.
        apply (not_ahead' (bs "::") (bs "tag") (bs "ag::")); [inm|rewrite E5; reflexivity|reflexivity|discriminate]. }
      onchar "e" E6.
      { destruct (beqb _ _) eqn:G; [|reflexivity]. exfalso. apply beqb_eq in G. revert G.
        apply (not_ahead' (bs "::") (bs "end") (bs "nd::")); [inm|rewrite E6; reflexivity|reflexivity|discriminate]. }
      onchar "N" E7. { apply keyword_text; [rewrite E7; inm|reflexivity|discriminate]. }
      onchar "T" E8. { apply keyword_text; [rewrite E8; inm|reflexivity|discriminate]. }
      onchar "I" E9. { apply keyword_text; [rewrite E9; inm|reflexivity|discriminate]. }
      onchar "C" E10. { apply keyword_text; [rewrite E10; inm|reflexivity|discriminate]. }
      onchar "W" E11. { apply keyword_text; [rewrite E11; inm|reflexivity|discriminate]. }
      nochar "]". nochar "&". nochar "{". nochar "|".
      destruct (c == DQ) eqn:Eq.
      { assert (peek sc == "`" = false) as ->; [|rewrite andb_false_r; reflexivity].
        apply Ascii.eqb_neq. intros P. apply peek_skipn in P; [|reflexivity|discriminate]. rewrite rest_here in P.
        rewrite Forall_forall in Hm. destruct s as [|d s'] eqn:Ed.
        - cbn [app] in P. destruct Ht as [Et|(x & r & Et & _ & Hq)]; rewrite Et in P; [discriminate|].
          injection P as -> _. apply Hq; [reflexivity|]. cbn. now apply Ascii.eqb_eq.
        - injection P as -> _. apply (Hm ["`"]); [inm|]. now exists [c], s'. }
      rewrite Htag. destruct ((c == SP) || (c == "%")); reflexivity.
    Qed.
  End Text.

  (** a stretch of text tokens side by side *)
  Inductive texts (line : nat) : nat -> list token -> bytes -> Prop :=
  | texts_nil col : texts line col [] []
  | texts_cons col s ts s' : s <> [] -> ~ In NL s -> texts line (col + List.length s) ts s' ->
      texts line col (tok TText true files line col s :: ts) (s ++ s').

  Lemma span_len_split p l : exists a b, l = a ++ b /\ span_len p l = List.length a
    /\ Forall (fun x => p (peek_byte x) = true) a
    /\ (b = [] \/ exists x r, b = x :: r /\ p (peek_byte x) = false).
  Proof.
    induction l as [|x l (a & b & E & L & Fa & Fb)]; [now exists [], []; repeat split; auto|].
    cbn. destruct (p (peek_byte x)) eqn:Ex.
    - exists (x :: a), b. rewrite E at 1. cbn. repeat split; auto.
    - exists [], (x :: l). repeat split; auto. right. eauto.
  Qed.
  Lemma span_len_app_stop p a b : (b = [] \/ exists x r, b = x :: r /\ p (peek_byte x) = false) ->
    forall a1 a2, a = a1 ++ a2 -> Forall (fun x => p (peek_byte x) = true) a1 ->
    (a2 = [] \/ exists x r, a2 = x :: r /\ p (peek_byte x) = false) ->
    span_len p (a ++ b) = List.length a1.
  Proof.
    intros Hb a1 a2 -> F H2. induction F as [|x a1 Hx F IH]; cbn.
    - destruct H2 as [->|(x & r & -> & Hx)]; cbn.
      + destruct Hb as [->|(x & r & -> & Hx)]; cbn; [reflexivity|]. now rewrite Hx.
      + now rewrite Hx.
    - rewrite Hx, IH. reflexivity.
  Qed.

  Lemma starts_line_before before rest line col :
    src = before ++ rest -> starts_new_line (bump (here src files before line col) 1) = true -> at_line_start before.
  Proof.
    intros E H. apply starts_new_line_spec in H. cbn in H. eapply nlstart_before; [exact H|exact E|reflexivity].
  Qed.

  Lemma markup_no_nl s : Forall (fun o => ~ occurs o s) markup -> ~ In NL s.
  Proof.
    intros F H. apply in_split in H as (x & y & ->). inversion F as [|? ? K _]. apply K. now exists x, y.
  Qed.
  Lemma markup_suffix a s : Forall (fun o => ~ occurs o (a ++ s)) markup -> Forall (fun o => ~ occurs o s) markup.
  Proof. intros F. eapply Forall_impl; [|exact F]. intros o H K. apply H. now apply occurs_suffix. Qed.

  Lemma closing_suffix a s tail : closing (a ++ s) tail -> closing s tail.
  Proof.
    intros [->|(x & r & -> & H & L)]; [now left|]. right. exists x, r. split; [reflexivity|]. split; [assumption|].
    intros E K. destruct s as [|c s]; [discriminate|]. apply (L E). rewrite <- K. destruct (exists_last (l := c :: s)) as (q & z & ->); [discriminate|].
    rewrite app_assoc. clear. assert (forall l : bytes, last (l ++ [z]) NUL = z) as H; [|now rewrite !H].
    induction l as [|x l IH]; [reflexivity|]. cbn. destruct (l ++ [z]) eqn:E; [now destruct l|exact IH].
  Qed.

  Lemma text_run n : forall before line col sc s tail, List.length s <= n ->
    at_place src files before line col sc -> src = before ++ s ++ tail ->
    boundary_head s -> Forall (fun o => ~ occurs o s) markup -> closing s tail ->
    (at_line_start before -> plain_start s) ->
    exists ts sc', runs sc ts sc' /\ at_place src files (before ++ s) line (col + List.length s) sc'
                   /\ texts line col ts s.
  Proof.
    induction n as [|n IH]; intros before line col sc s tail Hn A E Hs Hm Ht Hl.
    - destruct s; [|cbn in Hn; lia]. exists [], sc. rewrite app_nil_r, Nat.add_0_r. repeat split; try apply A; constructor.
    - destruct s as [|c s].
      { exists [], sc. rewrite app_nil_r, Nat.add_0_r. repeat split; try apply A; constructor. }
      destruct (span_len_split (fun x => negb (memc x markup_chars)) s) as (s1 & s2 & Es & Lx & F1 & F2).
      assert (closing_stop : tail = [] \/ exists x r, tail = x :: r /\ negb (memc (peek_byte x) markup_chars) = false).
      { destruct Ht as [->|(x & r & -> & Hx & _)]; [now left | right]. apply stop_facts in Hx as [_ Hx].
        exists x, r. split; [reflexivity|]. now rewrite Hx. }
      assert (boundary_head (s2 ++ tail)) as Hb2.
      { destruct F2 as [->|(x & r & -> & Hx)]; [now apply closing_boundary in Ht|]. right. exists x, (r ++ tail).
        split; [reflexivity|]. destruct (is_cont x) eqn:Ex; [|reflexivity]. unfold peek_byte in Hx. rewrite Ex in Hx. discriminate. }
      assert (~ In NL (c :: s)) as Hnl by now apply markup_no_nl.
      assert (~ In NL (c :: s1)) as Hnl1.
      { intros K. apply Hnl. rewrite Es. cbn. cbn in K. rewrite in_app_iff. tauto. }
      destruct (add_token_next before line col sc (List.length before + List.length (c :: s1)) TText true 0 (c :: s1) (s2 ++ tail) A)
        as (sc1 & N1 & A1).
      + rewrite E, Es. cbn. now rewrite !app_assoc.
      + reflexivity.
      + discriminate.
      + destruct Hs as [|(x & r & Ex & Hx)]; [discriminate|]. injection Ex as -> _. right. eauto.
      + exact Hb2.
      + rewrite (text_branch before line col c s tail E Hm Ht).
        * unfold add_text_until_next_markup, advance. rewrite (rest_here before line col c s tail E).
          rewrite (span_len_app_stop (fun x => negb (memc x markup_chars)) s tail closing_stop s1 s2 Es F1 F2).
          unfold bump. rewrite set_cur_set_cur. cbn [set_cur sc_cur here List.length].
          f_equal. f_equal. lia.
        * intros K. apply Hl. eapply starts_line_before; [exact E|exact K].
      + cbn [Nat.eqb] in A1. rewrite Nat.add_0_r in A1.
        destruct (IH (before ++ c :: s1) line (col + List.length (c :: s1)) sc1 s2 tail) as (ts & sc2 & R & A2 & T).
        * rewrite Es in Hn. cbn in Hn. rewrite app_length in Hn. lia.
        * exact A1.
        * rewrite E, Es, <- app_assoc. cbn. now rewrite <- app_assoc.
        * destruct Hb2 as [Hb2|(x & r & Hb2 & Hx)].
          -- left. now destruct s2.
          -- destruct s2 as [|y s2]; [now left|]. injection Hb2 as -> _. right. eauto.
        * rewrite Es in Hm. change (c :: s1 ++ s2) with ((c :: s1) ++ s2) in Hm. now apply markup_suffix in Hm.
        * rewrite Es in Ht. apply (closing_suffix (c :: s1)). exact Ht.
        * intros [K|(b & K)].
          -- now destruct before.
          -- exfalso. apply Hnl1. destruct (@exists_last _ (c :: s1)) as (q & z & Eq); [discriminate|].
             rewrite Eq, app_assoc in K. apply app_inj_tail in K as [_ ->]. rewrite Eq. apply in_or_app. right. now left.
        * exists (tok TText true files line col (c :: s1) :: ts), sc2. split; [econstructor; eassumption|].
          rewrite Es. change (c :: s1 ++ s2) with ((c :: s1) ++ s2). split.
          -- rewrite app_assoc, app_length, Nat.add_assoc. exact A2.
          -- constructor; [discriminate|assumption|assumption].
  Qed.

  (** ** attribute references *)
  Lemma span_len_name p name x r : Forall (fun c => p (peek_byte c) = true) name -> p (peek_byte x) = false ->
    span_len p (name ++ x :: r) = List.length name.
  Proof.
    intros F Hx. apply (span_len_app_stop p name (x :: r) (or_intror (ex_intro _ x (ex_intro _ r (conj eq_refl Hx)))) name []).
    - now rewrite app_nil_r.
    - exact F.
    - now left.
  Qed.

  Lemma name_char_peek c : name_char c -> is_attr_ref_char (peek_byte c) = true /\ is_cont c = false.
  Proof.
    unfold name_char, is_attr_ref_char, is_alnum_latin1, peek_byte. intros [H|H].
    - assert (is_cont c = false) as K; [|rewrite K, H; auto].
      destruct c as [[] [] [] [] [] [] [] []]; vm_compute in H |- *; congruence.
    - subst. auto.
  Qed.

  Lemma ref_next before line col sc name tail :
    at_place src files before line col sc -> src = before ++ ("{" :: name ++ ["}"]) ++ tail ->
    Forall name_char name -> boundary_head tail ->
    exists sc', next sc = Ok (Some (tok TAttributeReference false files line col ("{" :: name ++ ["}"])), sc')
      /\ at_place src files (before ++ "{" :: name ++ ["}"]) line (col + List.length ("{" :: name ++ ["}"])) sc'.
  Proof.
    intros A E Hn Ht.
    destruct (add_token_next before line col sc (List.length before + List.length ("{" :: name ++ ["}"]))
                TAttributeReference false 0 ("{" :: name ++ ["}"]) tail A E) as (sc' & N & A'); auto.
    - discriminate.
    - right. eexists _, _. split; reflexivity.
    - set (sc1 := bump (here src files before line col) 1).
      assert (skipn (sc_cur sc1) (sc_src sc1) = name ++ "}" :: tail) as K.
      { unfold sc1, here. cbn [bump set_cur sc_cur sc_src]. rewrite E, <- skipn_skipn', skipn_length_app.
        cbn. now rewrite <- app_assoc. }
      assert (scan_token (here src files before line col) = scan_lbrace sc1) as ->.
      { unfold scan_token, byte_at, here. cbn [sc_src sc_cur]. rewrite E at 1.
        rewrite nth_error_app2, Nat.sub_diag by lia. reflexivity. }
      unfold scan_lbrace, starts_attribute_reference, advance. rewrite K.
      rewrite span_len_name; [| |reflexivity].
      + unfold byte_at. cbn [bump set_cur sc_src sc_cur].
        assert (nth_error (sc_src sc1) (sc_cur sc1 + List.length name) = Some "}") as ->.
        { rewrite <- nth_error_skipn', K, nth_error_app2, Nat.sub_diag by lia. reflexivity. }
        cbn [bind Ascii.eqb Bool.eqb]. unfold sc1, bump, here. cbn [set_cur sc_cur sc_src]. rewrite !set_cur_set_cur.
        f_equal. f_equal. cbn [List.length]. rewrite app_length. cbn. lia.
      + eapply Forall_impl; [|exact Hn]. intros c Hc. now apply name_char_peek.
    - exists sc'. split; [exact N|]. cbn [Nat.eqb] in A'. now rewrite Nat.add_0_r in A'.
  Qed.

  (** ** attribute entries *)
  Lemma entry_next before line col sc name body tail :
    at_place src files before line col sc -> src = before ++ (":" :: name ++ ":" :: body) ++ NL :: tail ->
    at_line_start before -> Forall name_char name -> ~ In NL body ->
    exists sc', next sc = Ok (Some (tok TAttribute false files line col (":" :: name ++ ":" :: body)), sc')
      /\ at_place src files (before ++ ":" :: name ++ ":" :: body) line (col + List.length (":" :: name ++ ":" :: body)) sc'.
  Proof.
    intros A E Hl Hn Hb.
    destruct (add_token_next before line col sc (List.length before + List.length (":" :: name ++ ":" :: body))
                TAttribute false 0 (":" :: name ++ ":" :: body) (NL :: tail) A E) as (sc' & N & A'); auto.
    - discriminate.
    - right. eexists _, _. split; reflexivity.
    - right. eexists _, _. split; reflexivity.
    - set (sc1 := bump (here src files before line col) 1).
      assert (skipn (sc_cur sc1) (sc_src sc1) = name ++ ":" :: body ++ NL :: tail) as K.
      { unfold sc1, here. cbn [bump set_cur sc_cur sc_src]. rewrite E, <- skipn_skipn', skipn_length_app.
        cbn. rewrite <- app_assoc. reflexivity. }
      assert (scan_token (here src files before line col) = scan_colon sc1) as ->.
      { unfold scan_token, byte_at, here. cbn [sc_src sc_cur]. rewrite E at 1.
        rewrite nth_error_app2, Nat.sub_diag by lia. reflexivity. }
      unfold scan_colon. rewrite (at_line_start_sc before ((":" :: name ++ ":" :: body) ++ NL :: tail) sc1);
        [|unfold sc1; cbn [bump set_cur here sc_src]; exact E|reflexivity|exact Hl].
      unfold starts_attr, advance. rewrite K. rewrite span_len_name; [| |reflexivity].
      + unfold byte_at. cbn [bump set_cur sc_src sc_cur].
        assert (nth_error (sc_src sc1) (sc_cur sc1 + List.length name) = Some ":") as ->.
        { rewrite <- nth_error_skipn', K, nth_error_app2, Nat.sub_diag by lia. reflexivity. }
        cbn [bind Ascii.eqb Bool.eqb]. unfold advance_or_hang, advance. rewrite K.
        replace (name ++ ":" :: body ++ NL :: tail) with ((name ++ ":" :: body) ++ NL :: tail) by now rewrite <- app_assoc.
        rewrite span_len_name; [| |reflexivity].
        * assert (is_at_end (bump sc1 (List.length (name ++ ":" :: body))) = false) as ->.
          { unfold is_at_end, sc1, here. cbn [bump set_cur sc_src sc_cur]. apply Nat.leb_gt. rewrite E, !app_length.
            cbn. rewrite !app_length. cbn. lia. }
          cbn [bind]. unfold sc1, bump, here. cbn [set_cur sc_cur sc_src]. rewrite !set_cur_set_cur.
          f_equal. f_equal. cbn [List.length]. lia.
        * rewrite Forall_app. assert (forall c, c <> NL -> negb (peek_byte c == NL) = true) as P.
          { intros c Hc. apply negb_true_iff, Ascii.eqb_neq. rewrite peek_byte_ascii; [exact Hc|reflexivity|discriminate]. }
          split.
          -- eapply Forall_impl; [|exact Hn]. intros c Hc. apply P. intros ->. destruct Hc as [Hc|Hc]; discriminate.
          -- constructor; [reflexivity|]. apply Forall_forall. intros c Hc. apply P. intros ->. contradiction.
      + eapply Forall_impl; [|exact Hn]. intros c Hc. cbn beta.
        destruct (name_char_peek c Hc) as [_ Hcc]. unfold peek_byte. rewrite Hcc.
        destruct Hc as [Hc| ->]; [|reflexivity].
        destruct c as [[] [] [] [] [] [] [] []]; vm_compute in Hc |- *; congruence.
    - exists sc'. split; [exact N|]. cbn [Nat.eqb] in A'. now rewrite Nat.add_0_r in A'.
  Qed.
End Place.

(** ** whole streams *)
Lemma runs_stream sc ts sc1 t sc2 : runs sc ts sc1 -> next sc1 = Ok (Some t, sc2) -> next sc2 = Ok (None, sc2) ->
  forall f, List.length ts + 2 <= f -> stream_from f sc = (ts ++ [t], Ok tt).
Proof.
  intros R H1 H2. induction R as [sc|sc t' sc3 ts sc4 N R IH]; intros [|f] L; cbn in L; try lia; cbn [stream_from].
  - rewrite H1. destruct f as [|f]; [lia|]. cbn [stream_from]. rewrite H2. reflexivity.
  - rewrite N, IH by (auto; lia). reflexivity.
Qed.
