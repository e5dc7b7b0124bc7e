(** * Where tokens of each type start *)
From Verif Require Import Base Location Token Scanner Parser SpecScan SpecStart ScanLemmas ScanFacts ScanMain ScanMain2 ScanProofs.
Local Open Scope char_scope.
Local Open Scope nat_scope.

Section Start.
  Variable sc : scanner.
  Variable c : ascii.
  Hypothesis A1 : at1 sc c.
  Let rest := skipn (sc_cur sc) (sc_src sc).
  Definition St : nat -> token_type -> bool -> nat -> Prop := fun _ ty _ _ => started ty (c :: rest).
  Let Hle := at1_len sc c A1.
  Let Hcur : sc_cur sc = S (sc_start sc) := proj2 A1.

  Lemma opened_by s ty : firstn (List.length s) rest = s ->
    (exists l, openers ty = Some l /\ In (c :: s) l) -> started ty (c :: rest).
  Proof.
    intros H (l & E & Hi). unfold started. rewrite E. exists (c :: s), (skipn (List.length s) rest).
    split; [exact Hi|]. cbn. f_equal. rewrite <- H at 1. now rewrite firstn_skipn.
  Qed.
  Lemma by_peeks s ty : peeks_ahead sc (List.length s) = s -> s <> [NUL] ->
    (exists l, openers ty = Some l /\ In (c :: s) l) -> started ty (c :: rest).
  Proof. intros H Hs. apply opened_by. now apply peeks_firstn. Qed.
  Lemma by_peek x ty : peek sc = x -> is_cont x = false -> x <> NUL ->
    (exists l, openers ty = Some l /\ In [c; x] l) -> started ty (c :: rest).
  Proof. intros H Hx Hn. apply (opened_by [x]). now apply peek_firstn. Qed.
  Lemma by_one ty : (exists l, openers ty = Some l /\ In [c] l) -> started ty (c :: rest).
  Proof. apply (opened_by []). reflexivity. Qed.
  Lemma by_line n ty : starts_repeated_char_line sc c (S n) = true -> c <> NUL ->
    (exists l, openers ty = Some l /\ In (c :: repeat c n) l) -> started ty (c :: rest).
  Proof.
    intros R Hc. apply repeated_line in R; [|discriminate | exact Hc].
    replace (S n - 1) with n in R by lia.
    apply (firstn_app_nth _ n) in R as [R1 _]; [|now rewrite repeat_length].
    apply opened_by. rewrite repeat_length. exact R1.
  Qed.
  Ltac lst := eexists; split; [reflexivity|]; cbn; tauto.

  Lemma s_text sc2 : set_cur sc (sc_cur sc2) = sc2 -> sc_cur sc <= sc_cur sc2 ->
    emits sc (add_text_until_next_markup sc2) St.
  Proof.
    intros E H. apply (emits_weaken_sc sc (sc_cur sc2) _ _ H). rewrite E. apply emits_text. intros; exact I.
  Qed.
  Ltac leaf := first [ apply emits_text; intros; exact I
                     | apply emits_tag; [lia | exact Hle]
                     | apply s_text; [reflexivity | cbn; lia] ].
  Ltac branch :=
    repeat (match goal with |- emits _ (if _ then _ else _) _ => apply emits_if; intros ? end);
    try leaf.
  Ltac peekc :=
    match goal with
    | H : peek sc = ?x |- _ => eapply (by_peek x); [exact H | reflexivity | discriminate | subst c; lst]
    end.

  Lemma s_inline ty1 ty2 :
    (exists l, openers ty1 = Some l /\ In [c] l) -> (exists l, openers ty2 = Some l /\ In [c; c] l) ->
    is_cont c = false -> c <> NUL -> emits sc (handle_inline_formatting sc c ty1 ty2) St.
  Proof.
    intros H1 H2 Hc Hn. unfold handle_inline_formatting. branch; eqb_subst.
    - apply emits_bump. now apply (by_peek c).
    - apply emits_same. now apply by_one.
  Qed.
  Lemma closes_peek q : is_cont q = false -> q <> NUL -> closes_word sc q = true -> peek sc = q.
  Proof.
    intros Hq Hn H. apply (closes_word_peek sc q Hq Hn) in H. unfold peek, peek_at.
    destruct (skipn (sc_cur sc) (sc_src sc)) as [|x r] eqn:E; [discriminate|]. cbn in H. injection H as ->.
    assert (nth_error (sc_src sc) (sc_cur sc) = Some q) as ->
      by (rewrite <- (Nat.add_0_r (sc_cur sc)), <- nth_error_skipn', E; reflexivity).
    unfold peek_byte. now rewrite Hq.
  Qed.
  Lemma s_apostrophe : c = "'" -> emits sc (scan_apostrophe sc c) St.
  Proof.
    intros Hc. unfold scan_apostrophe. branch; eqb_subst.
    - apply emits_bump. eapply (by_line 2); [eassumption | subst; discriminate | subst c; lst].
    - apply emits_bump. peekc.
    - apply emits_same. apply by_one. subst c; lst.
  Qed.
  Lemma s_lt : c = "<" -> emits sc (scan_lt sc c) St.
  Proof.
    intros Hc. unfold scan_lt. branch; eqb_subst.
    - apply emits_bump. eapply (by_line 2); [eassumption | subst; discriminate | subst c; lst].
    - apply emits_bump. match goal with H : memc _ _ = true |- _ => apply memc_In in H as [H|[H|[]]] end; symmetry in H1; peekc.
    - apply emits_until_stop. intros n Hn. peekc.
    - destruct (if starts_new_line sc then starts_code_callout_list_item sc else (false, sc))
        as [is_item sc1] eqn:E1.
      assert (B1 : set_cur sc (sc_cur sc1) = sc1 /\ sc_cur sc <= sc_cur sc1).
      { destruct (starts_new_line sc).
        - unfold starts_code_callout_list_item in E1. destruct (callout_loop sc) eqn:E2.
          injection E1 as <- <-. eapply callout_loop_at; eassumption.
        - injection E1 as <- <-. split; [apply set_cur_id | lia]. }
      destruct B1 as [B1 B2]. branch.
      + apply emits_at; [rewrite <- B1 at 2; reflexivity | cbn; lia | apply by_one; subst c; lst].
      + destruct (starts_code_callout sc1) as [is_callout sc2] eqn:E2.
        assert (B3 : set_cur sc (sc_cur sc2) = sc2 /\ sc_cur sc <= sc_cur sc2).
        { unfold starts_code_callout in E2. destruct (callout_loop sc1) eqn:E3.
          injection E2 as <- <-. eapply callout_loop_at'; eassumption. }
        destruct B3 as [B3 B4]. apply emits_if; intros ?.
        * apply emits_at; [assumption | assumption | apply by_one; subst c; lst].
        * apply s_text; assumption.
  Qed.
  Lemma s_delim_inner : emits sc (scan_delim_inner sc c) St.
  Proof.
    unfold scan_delim_inner. branch; eqb_subst.
    - apply emits_bump. peekc.
    - unfold add_heading.
      assert (forall ty, (exists l, openers ty = Some l /\ In ["="] l) ->
        emits sc (add_token (bump (advance sc (fun c0 => c0 == "=")) 1) ty false 0) St) as K.
      { intros ty H'. apply emits_at; [reflexivity | cbn; lia|]. apply by_one. now subst c. }
      destruct (_ - _) as [|[|[|[|[|[|k]]]]]]; try (apply K; lst); apply emits_fail; discriminate.
    - apply emits_bump. peekc.
    - match goal with H : starts_text_symbol_replace_emdash sc = true |- _ =>
        unfold starts_text_symbol_replace_emdash in H end. eqb_subst. apply emits_bump. peekc.
    - apply emits_bump. eapply (by_line 1); [eassumption | subst; discriminate | subst c; lst].
    - apply emits_bump. peekc.
    - apply s_inline; subst c; [lst | lst | reflexivity | discriminate].
    - apply emits_bump. peekc.
    - apply emits_at; [reflexivity | cbn; lia |]. peekc.
    - apply emits_same. apply by_one. subst c; lst.
    - apply emits_same. apply by_one. subst c; lst.
    - apply s_inline; subst c; [lst | lst | reflexivity | discriminate].
    - apply s_inline; subst c; [lst | lst | reflexivity | discriminate].
    - apply emits_bump. eapply (by_peeks (bs "..")); [eassumption | discriminate | subst c; lst].
    - apply emits_bump. peekc.
    - apply emits_same. apply by_one. subst c; lst.
  Qed.
  Lemma s_delim : c <> NUL -> emits sc (scan_delim sc c) St.
  Proof.
    intros Hn. unfold scan_delim. branch; [|apply s_delim_inner]. eqb_subst.
    apply emits_bind. intros ty Hty. apply emits_bump. eapply (by_line 3); [eassumption | exact Hn|].
    unfold block_from_char in Hty.
    repeat match type of Hty with
      | (if ?b then _ else _) = _ => destruct b eqn:?E; eqb_subst
      end; try discriminate; injection Hty as <-; subst c; lst.
  Qed.
  Lemma s_lbracket : c = "[" -> emits sc (scan_lbracket sc) St.
  Proof.
    intros Hc. unfold scan_lbracket. branch; eqb_subst.
    - apply emits_until_stop. intros n Hn. peekc.
    - destruct (starts_attribution_line sc) as [b sc1] eqn:E1.
      assert (B1 : set_cur sc (sc_cur sc1) = sc1 /\ sc_cur sc <= sc_cur sc1).
      { unfold starts_attribution_line in E1.
        cbv zeta in E1. match type of E1 with (if ?b then _ else _) = _ => destruct b end;
          injection E1 as <- <-.
        - split; [reflexivity | cbn; lia].
        - split; [apply set_cur_id | lia]. }
      destruct B1 as [B1 B2]. branch; eqb_subst.
      + destruct (nth_error (sc_src sc) (sc_start sc + 1)) as [x|] eqn:Ex; [|apply emits_fail; congruence].
        apply emits_at; [assumption | assumption |].
        assert (forall y ty, x = y -> (exists l, openers ty = Some l /\ In ["["; y] l) -> started ty (c :: rest)) as K.
        { intros y ty -> H'. apply (opened_by [y]); [|now subst c]. unfold rest. rewrite Hcur.
          replace (sc_start sc + 1) with (S (sc_start sc)) in Ex by lia. now rewrite (skipn_nth _ _ _ Ex). }
        unfold attribution_type.
        repeat match goal with
        | |- St _ (if ?b then _ else _) _ _ => destruct b eqn:?E; eqb_subst; [eapply K; [eassumption | lst]|]
        end.
        apply by_one. subst c; lst.
      + apply emits_until_bracket. intros n Hn. peekc.
  Qed.
  Lemma s_backquote : c = "`" -> emits sc (scan_backquote sc c) St.
  Proof.
    intros Hc. unfold scan_backquote. branch.
    - apply emits_bump. match goal with H : closes_word _ _ = true |- _ => apply closes_peek in H; [|reflexivity | discriminate] end. peekc.
    - apply emits_bump. match goal with H : closes_word _ DQ = true |- _ => apply closes_peek in H; [|reflexivity | discriminate] end. peekc.
    - apply s_inline; subst c; [lst | lst | reflexivity | discriminate].
  Qed.
  Lemma s_colon : c = ":" -> emits sc (scan_colon sc) St.
  Proof.
    intros Hc. unfold scan_colon. apply emits_bind. intros is_attr Ha. branch.
    - apply emits_bind. intros sc1 H1. unfold advance_or_hang in H1.
      destruct (is_at_end _) eqn:Hend; [discriminate|]. injection H1 as <-.
      apply emits_at; [reflexivity | cbn; lia|]. apply by_one. subst c; lst.
    - eqb_subst. apply emits_bump.
      match goal with H : memb _ _ = true |- _ => apply memb_In in H as [H|[H|[]]]; symmetry in H end.
      + eapply (by_peeks [":"; SP]); [eassumption | discriminate | subst c; lst].
      + eapply (by_peeks [":"; NL]); [eassumption | discriminate | subst c; lst].
  Qed.
  Lemma s_keyword kw ty lit : kw <> [NUL] -> (exists l, openers ty = Some l /\ In (c :: kw) l) ->
    emits sc (scan_keyword sc kw ty lit) St.
  Proof.
    intros Hk H. unfold scan_keyword. branch. eqb_subst. apply emits_bump. now apply (by_peeks kw).
  Qed.
  Lemma s_i : c = "i" -> emits sc (scan_i sc) St.
  Proof.
    intros Hc. unfold scan_i. branch; eqb_subst; apply emits_until_bracket; intros n Hn.
    - eapply (by_peeks (bs "nclude::")); [eassumption | discriminate | subst c; lst].
    - eapply (by_peeks (bs "mage::")); [eassumption | discriminate | subst c; lst].
    - eapply (by_peeks (bs "mage:")); [eassumption | discriminate | subst c; lst].
  Qed.
  Lemma s_amp : c = "&" -> emits sc (scan_amp sc) St.
  Proof.
    intros Hc. unfold scan_amp. apply emits_bind. intros ok Hok. branch.
    apply emits_at; [reflexivity | cbn; lia |]. apply by_one. subst c; lst.
  Qed.
  Lemma s_lbrace : c = "{" -> emits sc (scan_lbrace sc) St.
  Proof.
    intros Hc. unfold scan_lbrace. apply emits_bind. intros ok Hok. branch.
    apply emits_at; [reflexivity | cbn; lia |]. apply by_one. subst c; lst.
  Qed.
  Lemma s_bar : c = "|" -> emits sc (scan_bar sc) St.
  Proof.
    intros Hc. unfold scan_bar. branch; eqb_subst.
    - cbn zeta. branch. apply emits_bump. eapply (by_peeks (bs "===")); [eassumption | discriminate | subst c; lst].
    - apply emits_table_cell. intros n Hn. apply by_one. subst c; lst.
  Qed.
  Lemma s_parens : c = "(" -> starts_text_symbol_replace_parens sc = true ->
    emits sc (handle_text_symbol_replacement_parens sc) St.
  Proof.
    intros Hc H. unfold handle_text_symbol_replacement_parens.
    apply emits_bind. intros sc1 H1. unfold advance_or_hang in H1.
    destruct (is_at_end _) eqn:Hend; [discriminate|]. injection H1 as <-.
    apply emits_at; [reflexivity | cbn; lia |].
    unfold starts_text_symbol_replace_parens in H. apply orb_true_iff in H as [H|H].
    - apply memb_In in H as [H|[H|[]]]; symmetry in H.
      + eapply (by_peeks (bs "C)")); [eassumption | discriminate | subst c; lst].
      + eapply (by_peeks (bs "R)")); [eassumption | discriminate | subst c; lst].
    - eqb_subst. eapply (by_peeks (bs "TM)")); [eassumption | discriminate | subst c; lst].
  Qed.
End Start.

Theorem scan_token_starts sc0 c :
  sc_start sc0 = sc_cur sc0 -> nth_error (sc_src sc0) (sc_cur sc0) = Some c ->
  emits (bump sc0 1) (scan_token sc0) (fun _ ty _ _ => started ty (skipn (sc_cur sc0) (sc_src sc0))).
Proof.
  intros Hst Hc. unfold scan_token, byte_at. rewrite Hc. cbn [bind].
  assert (A1 : at1 (bump sc0 1) c) by (split; cbn; [now rewrite Hst | lia]).
  rewrite (skipn_nth _ _ _ Hc).
  replace (skipn (S (sc_cur sc0)) (sc_src sc0)) with (skipn (sc_cur (bump sc0 1)) (sc_src (bump sc0 1)))
    by (replace (sc_cur (bump sc0 1)) with (S (sc_cur sc0)) by (cbn; lia); reflexivity).
  set (sc := bump sc0 1) in *. cbn zeta. clearbody sc.
  change (fun _ ty _ _ => started ty (c :: skipn (sc_cur sc) (sc_src sc))) with (St sc c).
  pose proof (proj2 A1) as Hcur. pose proof (at1_len sc c A1) as Hle.
  Ltac lst' := eexists; split; [reflexivity|]; cbn; tauto.
  Ltac stop A1 := match goal with
    | |- emits _ (if ?b then _ else _) _ => apply emits_if; intros ?
    | |- emits ?sc (add_text_until_next_markup ?sc) _ => apply emits_text; intros; exact I
    | |- emits ?sc (add_tag ?sc) _ => apply emits_tag; lia
  end.
  repeat stop A1; eqb_subst.
  all: try match goal with |- emits _ (scan_keyword _ _ _ _) _ => apply s_keyword; [discriminate | subst c; lst'] end.
  all: try match goal with |- emits _ (handle_inline_formatting _ _ _ _) _ =>
             apply s_inline; subst c; [lst' | lst' | reflexivity | discriminate] end.
  all: try (apply emits_same; apply by_one; subst c; lst').
  all: eauto using s_apostrophe, s_lt, s_lbracket, s_backquote, s_colon, s_i, s_amp, s_lbrace, s_bar, s_parens.
  - apply s_delim; [exact A1|]. intros ->. discriminate.
  - apply emits_link. intros n Hn. split; (eapply (by_peeks sc c (bs "ttp")); [eassumption | discriminate | subst c; lst']).
  - apply emits_bump. eapply (by_peek sc c "`"); [eassumption | reflexivity | discriminate | subst c; lst'].
Qed.

(** ** Of the tokens yielded *)
Lemma next_starts sc t sc' :
  next sc = Ok (Some t, sc') -> started (ttype t) (skipn (sc_cur sc) (sc_src sc)).
Proof.
  unfold next, is_at_end. intros H.
  destruct (List.length (sc_src sc) <=? sc_cur sc) eqn:He; cbn [negb] in H.
  - destruct (sc_scanning sc); [|discriminate]. injection H as <- _. exact I.
  - apply Nat.leb_gt in He. fold (restart sc) in H.
    apply bind_ok in H as ((sc2, t2) & H & E). injection E as -> ->.
    destruct (nth_error (sc_src sc) (sc_cur sc)) as [c|] eqn:Ec; [|apply nth_error_None in Ec; lia].
    destruct (scan_token_starts (restart sc) c eq_refl Ec _ _ H) as [T | (n & ty & lit & adv & N1 & N2 & N3)].
    + destruct T as (T & _). destruct T as [-> | ->]; exact I.
    + apply add_token_ok in N3. destruct N3 as (_ & _ & _ & -> & _). cbn [restart sc_cur sc_src] in N2.
      match goal with |- started (ttype (validate ?tok)) _ => destruct (validate_type tok) as [-> | [-> _]] end;
      [exact N2 | exact I].
Qed.
Lemma token_starts src files ts sc pre t post :
  yields src files ts sc -> ts = pre ++ t :: post -> no_tags pre ->
  exists after, src = text_of pre ++ after /\ started (ttype t) after.
Proof.
  intros Hy -> Hn. destruct (yields_split _ _ _ _ Hy _ _ _ eq_refl) as (sc1 & sc2 & Y1 & N & Y2).
  destruct (yields_text _ _ _ _ Y1 Hn) as [T _]. pose proof (yields_inv _ _ _ _ Y1) as (I1 & _ & I3 & _).
  exists (skipn (sc_cur sc1) src). split; [rewrite T; symmetry; apply firstn_skipn|].
  apply next_starts in N. now rewrite I1 in N.
Qed.
Lemma no_opener_no_token src files ts sc t l :
  yields src files ts sc -> In t ts -> openers (ttype t) = Some l -> exists p, In p l /\ occurs p src.
Proof.
  intros Hy Hin El. apply in_split in Hin as (pre & post & ->).
  destruct (yields_split _ _ _ _ Hy _ _ _ eq_refl) as (sc1 & sc2 & Y1 & N & Y2).
  pose proof (yields_inv _ _ _ _ Y1) as (I1 & _). apply next_starts in N. rewrite I1 in N.
  unfold started in N. rewrite El in N. destruct N as (p & r & Hp & E). exists p. split; [exact Hp|].
  exists (firstn (sc_cur sc1) src), r. rewrite <- E. symmetry. apply firstn_skipn.
Qed.

(** ** Streams *)
Lemma stream_yields' src files f : forall pre sc ts e,
  yields src files pre sc -> stream_from f sc = (ts, e) ->
  exists sc', yields src files (pre ++ ts) sc' /\ (e = Ok tt -> next sc' = Ok (None, sc')).
Proof.
  induction f as [|f IH]; intros pre sc ts e Hy H; cbn [stream_from] in H.
  - injection H as <- <-. exists sc. rewrite app_nil_r. split; [exact Hy | discriminate].
  - destruct (next sc) as [[[t|] sc1]| | | |] eqn:En;
      try (injection H as <- <-; exists sc; rewrite app_nil_r; split; [exact Hy | try discriminate]).
    + destruct (stream_from f sc1) as [ts1 e1] eqn:E1. injection H as <- <-.
      destruct (IH (pre ++ [t]) sc1 ts1 e1) as (sc' & Y & N); [econstructor; eassumption | exact E1|].
      exists sc'. rewrite <- app_assoc in Y. auto.
    + intros _. pose proof (next_none _ _ En) as [-> _]. exact En.
Qed.
Lemma stream_yields src files : exists sc, yields src files (fst (scan_stream src files)) sc.
Proof.
  destruct (scan_stream src files) as [ts e] eqn:E.
  destruct (stream_yields' src files _ [] _ ts e (yields_nil _ _) E) as (sc & Y & _). exists sc. exact Y.
Qed.
(** how the stream of a document relates to its scan *)
Lemma stream_collect f sc : forall ts e, stream_from f sc = (ts, e) -> collect f sc = (let* _ := e in Ok ts).
Proof.
  revert sc. induction f as [|f IH]; intros sc ts e H; cbn [stream_from collect] in *; [now injection H as <- <-|].
  destruct (next sc) as [[[t|] sc1]| | | |] eqn:En; cbn [bind]; try (injection H as <- <-; reflexivity).
  destruct (stream_from f sc1) as [ts1 e1] eqn:E1. injection H as <- <-. rewrite (IH _ _ _ E1). now destruct e1.
Qed.
Lemma stream_tokens src files t : In t (fst (scan_stream src files)) ->
  tfiles t = files /\ (ttype t = TEof \/ endcol t = startcol t + List.length (lexeme t) - 1 /\ lexeme t <> []).
Proof.
  intros Hin. destruct (stream_yields src files) as [sc Hy]. apply in_split in Hin as (pre & post & E).
  rewrite E in Hy. destruct (yields_split _ _ _ _ Hy _ _ _ eq_refl) as (sc1 & sc2 & Y1 & N & Y2).
  pose proof (next_nonempty _ _ _ _ _ _ Y1 N) as Hne.
  pose proof (yields_inv _ _ _ _ Y1) as (I1 & I2 & _).
  apply next_some in N as [[Hlt [P | T]] | Ee].
  - destruct P as (adv & lit & P1 & P2 & P3 & P4 & P5 & P6 & P7 & P8 & P9 & P10 & P11 & P12 & _).
    split; [congruence|]. destruct Hne; [now left | right]. split; [|assumption]. now rewrite P10.
  - unfold tag_out in T. cbn [bump set_cur restart sc_src sc_files sc_startcol] in T.
    decompose [and ex] T. split; [congruence|]. destruct Hne; [now left | right]. split; [|assumption].
    try congruence; try lia.
  - destruct Ee as (_ & _ & -> & _). cbn. auto.
Qed.
Lemma stream_no_eof_cols src files t : In t (fst (scan_stream src files)) -> startcol t <= endcol t.
Proof.
  intros Hin. destruct (stream_tokens _ _ _ Hin) as [_ [E | [-> Hl]]]; [|destruct (lexeme t); [now elim Hl | cbn; lia]].
  destruct (stream_yields src files) as [sc Hy]. apply in_split in Hin as (pre & post & Ets). rewrite Ets in Hy.
  destruct (yields_split _ _ _ _ Hy _ _ _ eq_refl) as (sc1 & sc2 & Y1 & N & Y2).
  apply next_some in N as [[Hlt [P | T]] | Ee].
  - destruct P as (adv & lit & _ & _ & _ & _ & P5 & _ & _ & _ & _ & _ & P11 & _ & _ & _ & P15 & _).
    destruct P15 as [_ Q]. destruct Q as (_ & _ & _ & _ & Q & _); [lia | now elim Q].
  - destruct T as ([T|T] & _); rewrite E in T; discriminate.
  - destruct Ee as (_ & _ & -> & _). cbn. lia.
Qed.
Lemma stream_lexeme src files t : In t (fst (scan_stream src files)) -> occurs (lexeme t) src.
Proof.
  intros Hin. destruct (stream_yields src files) as [sc Hy]. apply in_split in Hin as (pre & post & Ets). rewrite Ets in Hy.
  destruct (yields_split _ _ _ _ Hy _ _ _ eq_refl) as (sc1 & sc2 & Y1 & N & Y2).
  pose proof (yields_inv _ _ _ _ Y1) as (I1 & _).
  assert (forall i j, occurs (firstn j (skipn i src)) src) as K.
  { intros i j. exists (firstn i src), (skipn j (skipn i src)). now rewrite firstn_skipn, firstn_skipn. }
  apply next_some in N as [[Hlt [P | T]] | Ee].
  - destruct P as (adv & lit & _ & _ & _ & _ & _ & _ & _ & -> & _). unfold lex. rewrite I1. apply K.
  - destruct T as (_ & _ & _ & _ & _ & _ & _ & _ & _ & s & e & _ & _ & _ & _ & -> & _).
    cbn [bump set_cur restart sc_src]. rewrite I1. apply K.
  - destruct Ee as (_ & _ & -> & _). exists [], src. reflexivity.
Qed.
Lemma stream_text src files t : In t (fst (scan_stream src files)) ->
  ttype t <> TCharRef -> ~ In (ttype t) (map fst quotes) -> token_text t = lexeme t.
Proof.
  intros Hin. destruct (stream_yields src files) as [sc Hy].
  destruct (replacements_only _ _ _ _ _ Hy Hin) as (_ & _ & H). exact H.
Qed.
Lemma stream_openers src files t l : In t (fst (scan_stream src files)) -> openers (ttype t) = Some l ->
  exists p, In p l /\ occurs p src.
Proof. intros Hin. destruct (stream_yields src files) as [sc Hy]. now apply (no_opener_no_token _ _ _ _ _ _ Hy). Qed.
Lemma occurs_trans a b c : occurs a b -> occurs b c -> occurs a c.
Proof. intros (x & y & ->) (x' & y' & ->). exists (x' ++ x), (y ++ y'). now rewrite <- !app_assoc. Qed.
Lemma slice_occurs s i j r : slice s i j = (Ok r : result bytes) -> occurs r s.
Proof.
  intros H. apply slice_ok in H as (_ & _ & _ & _ & ->).
  exists (firstn i s), (skipn (j - i) (skipn i s)). now rewrite firstn_skipn, firstn_skipn.
Qed.
