(** * Every token yielded is one of the lexical grammar *)
From Verif Require Import Base Location Token Scanner SpecScan SpecLex ScanLemmas ScanFacts ScanMain ScanMain2
  ScanLine ScanFail ScanView ScanLex.
Local Open Scope char_scope.
Local Open Scope nat_scope.

(** ** Tags *)
(** [r] is a tag only if the branch is [add_tag] *)
Definition tag_only (sc : scanner) (r : result (scanner * token)) : Prop :=
  forall sc' t, r = Ok (sc', t) -> is_tag t -> add_tag sc = Ok (sc', t).
Lemma to_tag sc : tag_only sc (add_tag sc).
Proof. intros sc' t H _. exact H. Qed.
Lemma to_if sc (b : bool) x y : tag_only sc x -> tag_only sc y -> tag_only sc (if b then x else y).
Proof. destruct b; auto. Qed.
Lemma to_bind {A} sc (m : result A) f : (forall a, m = Ok a -> tag_only sc (f a)) -> tag_only sc (bind m f).
Proof. intros H sc' t E. apply bind_ok in E as (a & Ha & E). exact (H a Ha sc' t E). Qed.
Lemma to_fail sc r : (forall x, r <> Ok x) -> tag_only sc r.
Proof. intros H sc' t E. now apply H in E. Qed.
Lemma to_token sc sc1 ty lit adv : ty <> TStartTag -> ty <> TEndTag -> tag_only sc (add_token sc1 ty lit adv).
Proof.
  intros H1 H2 sc' t E Ht. exfalso. apply add_token_ok in E as (_ & _ & _ & -> & _).
  destruct Ht as [Ht|Ht];
  match type of Ht with ttype (validate ?tok) = _ => destruct (validate_type tok) as [K | [K _]]; rewrite K in Ht; cbn in Ht; congruence end.
Qed.
Lemma to_text sc sc1 : tag_only sc (add_text_until_next_markup sc1).
Proof. apply to_token; discriminate. Qed.
Lemma to_bracket sc sc1 ty : ty <> TStartTag -> ty <> TEndTag -> tag_only sc (add_until_bracket sc1 ty).
Proof. intros H1 H2. apply to_bind. intros. now apply to_token. Qed.
Lemma to_stop sc sc1 stop ty : ty <> TStartTag -> ty <> TEndTag -> tag_only sc (add_until_stop sc1 stop ty).
Proof. intros H1 H2. apply to_bind. intros. now apply to_token. Qed.
Lemma to_inline sc sc1 c ty1 ty2 : ty1 <> TStartTag -> ty1 <> TEndTag -> ty2 <> TStartTag -> ty2 <> TEndTag ->
  tag_only sc (handle_inline_formatting sc1 c ty1 ty2).
Proof. intros. unfold handle_inline_formatting. repeat apply to_if; first [apply to_text | apply to_token]; assumption. Qed.
Lemma to_cell sc : forall fuel sc1, tag_only sc (add_table_cell_fuel fuel sc1).
Proof.
  induction fuel as [|f IH]; intros sc1; cbn [add_table_cell_fuel]; apply to_if;
    first [apply IH | apply to_token; discriminate | apply to_fail; discriminate].
Qed.
Lemma to_link sc : forall fuel sc1, tag_only sc (add_link_fuel fuel sc1).
Proof.
  induction fuel as [|f IH]; intros sc1; cbn [add_link_fuel]; repeat apply to_if;
    first [apply IH | apply to_token; discriminate | apply to_fail; discriminate].
Qed.
Lemma to_block sc sc1 c : tag_only sc (let* ty := block_from_char c in add_token sc1 ty false 0).
Proof.
  apply to_bind. intros ty H. assert (ty <> TStartTag /\ ty <> TEndTag) as [? ?]; [|now apply to_token].
  unfold block_from_char in H. repeat match type of H with (if ?b then _ else _) = _ => destruct b end;
    try discriminate; injection H as <-; split; discriminate.
Qed.
Ltac to_step :=
  first [ apply to_tag | apply to_text | apply to_bracket; discriminate | apply to_stop; discriminate
        | apply to_inline; discriminate | apply to_cell | apply to_link | apply to_token; discriminate
        | apply to_fail; discriminate | apply to_block | apply to_if | apply to_bind; intros ].
Lemma to_heading sc : tag_only sc (add_heading sc).
Proof.
  unfold add_heading. destruct (sc_cur _ - 1 - sc_start sc) as [|[|[|[|[|[|n]]]]]]; to_step.
Qed.
Lemma scan_tag sc0 sc' t : scan_token sc0 = Ok (sc', t) -> is_tag t -> add_tag (bump sc0 1) = Ok (sc', t).
Proof.
  assert (tag_only (bump sc0 1) (scan_token sc0)) as K; [|exact (K sc' t)].
  unfold scan_token. apply to_bind. intros c _. cbn zeta. set (sc := bump sc0 1).
  repeat (apply to_if; [repeat to_step|]); repeat to_step.
  - destruct (if starts_new_line sc then _ else _) as [b sc1]. apply to_if; [to_step|].
    destruct (starts_code_callout sc1) as [b2 sc2]. repeat to_step.
  - apply to_heading.
  - destruct (starts_attribution_line sc) as [b sc1]. apply to_if; [|repeat to_step].
    destruct (nth_error _ _) as [y|]; [|apply to_fail; discriminate].
    unfold attribution_type. repeat (match goal with |- context [if ?b then _ else _] => destruct b end); apply to_token; discriminate.
Qed.
Lemma occurs_contains a s : contains a s = true <-> occurs a s.
Proof.
  split.
  - induction s as [|x s IH]; cbn [contains]; intros H.
    + rewrite orb_false_r in H. apply starts_with_begins in H as (r & H). exists [], r. exact H.
    + apply orb_true_iff in H as [H|H]; [apply starts_with_begins in H as (r & H); exists [], r; exact H|].
      destruct (IH H) as (u & v & ->). now exists (x :: u), v.
  - intros (u & v & ->). induction u as [|x u IH]; cbn [app].
    + assert (starts_with a (a ++ v) = true) as K by (apply starts_with_begins; now exists v).
      destruct (a ++ v); cbn [contains]; rewrite K; reflexivity.
    + cbn [contains]. rewrite IH. apply orb_true_r.
Qed.
(** what a tag covers *)
Lemma tag_lexed sc sc' t : add_tag sc = Ok (sc', t) -> sc_start sc <= sc_cur sc <= List.length (sc_src sc) ->
  exists before after, sc_src sc = before ++ lexeme t ++ after
    /\ (sc_tagend sc = false -> before = firstn (sc_start sc) (sc_src sc)) /\ lexed (ttype t) before (lexeme t) after.
Proof.
  intros H HL. unfold add_tag in H. apply bind_ok in H as (scx & Hx & H).
  assert (sc_src scx = sc_src sc /\ sc_start scx <= sc_cur scx <= List.length (sc_src sc)
    /\ (sc_tagend sc = false -> sc_start scx = sc_start sc)) as (Es & Ec & Et).
  { destruct (sc_tagend sc).
    - apply bind_ok in Hx as (s & Hs & Hx). injection Hx as <-. cbn [sc_src sc_start sc_cur].
      unfold advance_or_hang in Hs. destruct (is_at_end _); [discriminate|]. injection Hs as <-.
      pose proof (advance_cur_le sc (fun c => negb (c == "e")) (proj2 HL)) as L. cbn in *.
      repeat split; try lia; discriminate.
    - injection Hx as <-. repeat split; lia. }
  clear Hx. set (sc1 := bump (advance scx _) 1) in H.
  apply bind_ok in H as (text & Hsl & H). apply slice_ok in Hsl as (S1 & S2 & S3 & S4 & Etext).
  apply bind_ok in H as ((ty, exp) & Hty & H). apply bind_ok in H as ((sc3, tok) & Hadd & H).
  apply add_token_ok in Hadd. cbn [sc_src sc_start sc_cur sc_line sc_startcol sc_files] in Hadd.
  destruct Hadd as (_ & _ & _ & A4 & _). rewrite <- Etext in A4. injection H as <- <-.
  change (sc_src sc1) with (sc_src scx) in *. change (sc_start sc1) with (sc_start scx) in *. rewrite Es in *.
  assert (lexeme tok = text) as El by (rewrite A4; apply validate_fields).
  assert (ttype tok = ty) as Ety.
  { rewrite A4. destruct (contains (bs "tag") text); [|destruct (contains (bs "end") text)];
    [injection Hty as <- _ | injection Hty as <- _ | discriminate]; reflexivity. }
  rewrite El, Ety. exists (firstn (sc_start scx) (sc_src sc)), (skipn (sc_cur sc1) (sc_src sc)). split; [|split].
  - rewrite <- (firstn_skipn (sc_start scx) (sc_src sc)) at 1. f_equal. rewrite Etext.
    rewrite <- (firstn_skipn (sc_cur sc1 - sc_start scx) (skipn (sc_start scx) (sc_src sc))) at 1. f_equal.
    rewrite skipn_skipn'. f_equal. lia.
  - intros K. now rewrite (Et K).
  - assert (ends ["]"] text) as He.
    { unfold sc1 in *. unfold advance in *. cbn [bump set_cur sc_cur sc_src] in *. rewrite Es in *.
      set (w := skipn (sc_cur scx) (sc_src sc)) in *.
      assert (exists v r, w = v ++ r /\ span_len (fun x => negb (x == "]")) w = List.length v /\ (r = [] \/ exists r', r = "]" :: r')) as (v & r & Ew & El' & Hr).
      { clear. induction w as [|x w (v & r & -> & E & Hr)]; [exists [], []; auto|]. cbn [span_len].
        destruct (negb (peek_byte x == "]")) eqn:K.
        - exists (x :: v), r. cbn. rewrite E. auto.
        - exists [], (x :: v ++ r). repeat split; auto. right. apply negb_false_iff, Ascii.eqb_eq in K.
          apply (proj1 (peek_byte_ascii x "]" eq_refl ltac:(discriminate))) in K. subst x. eauto. }
      rewrite El' in *. assert (List.length w = List.length (sc_src sc) - sc_cur scx) as Lw by apply skipn_length.
      destruct Hr as [->|(r' & ->)]; [rewrite app_nil_r in Ew; rewrite Ew in Lw; lia|].
      exists (firstn (sc_cur scx - sc_start scx) (skipn (sc_start scx) (sc_src sc)) ++ v). rewrite Etext.
      replace (sc_cur scx + List.length v + 1 - sc_start scx) with (sc_cur scx - sc_start scx + List.length (v ++ ["]"]))
        by (rewrite app_length; cbn; lia).
      rewrite firstn_add, skipn_skipn'. replace (sc_start scx + (sc_cur scx - sc_start scx)) with (sc_cur scx) by lia.
      fold w. rewrite Ew. change (v ++ "]" :: r') with (v ++ ["]"] ++ r'). rewrite (app_assoc v), firstn_app, Nat.sub_diag, firstn_all.
      cbn [firstn]. rewrite app_nil_r. now rewrite app_assoc. }
    destruct (contains (bs "tag") text) eqn:C1; [injection Hty as <- _; split; [exact He | now apply occurs_contains]|].
    destruct (contains (bs "end") text) eqn:C2; [injection Hty as <- _ | discriminate].
    split; [exact He|]. split; [now apply occurs_contains|]. intros K. apply occurs_contains in K. congruence.
Qed.

(** ** Ordinary tokens *)
Lemma scan_token_lexed sc0 before c rest : sc_start sc0 = sc_cur sc0 -> sc_cur sc0 = List.length before ->
  sc_src sc0 = before ++ c :: rest -> utf8 (sc_src sc0) -> ascii7 c ->
  emits (bump sc0 1) (scan_token sc0) (Sd (bump sc0 1) before c rest).
Proof.
  intros Est Ecur Esrc Hu H7. unfold scan_token, byte_at.
  assert (nth_error (sc_src sc0) (sc_cur sc0) = Some c) as -> by (rewrite Esrc, Ecur, nth_error_app2, Nat.sub_diag by lia; reflexivity).
  cbn [bind]. remember (bump sc0 1) as sc eqn:Esc.
  assert (sc_src sc = before ++ c :: rest) as Hsrc by (subst sc; exact Esrc).
  assert (sc_start sc = List.length before) as Hst by (subst sc; cbn; lia).
  assert (sc_cur sc = S (List.length before)) as Hcur by (subst sc; cbn; lia).
  assert (utf8 (sc_src sc)) as Hu' by (subst sc; exact Hu).
  cbn zeta. clear sc0 Esc Est Ecur Esrc Hu.
  pose proof (sd_text0 sc before c rest Hsrc Hst Hcur Hu' H7) as T0.
  pose proof (sd_tag sc before c rest Hsrc Hst Hcur Hu' H7) as T1.
  pose proof (sd_same sc before c rest Hsrc Hst Hcur Hu' H7) as T2.
  pose proof (sd_keyword sc before c rest Hsrc Hst Hcur Hu' H7) as T3.
  Ltac on := apply emits_if; intros ?E; [match goal with H : Ascii.eqb _ _ = true |- _ => apply Ascii.eqb_eq in H; pose proof H as ?Hc end|].
  on; [apply T2; rewrite Hc; reflexivity|].
  on; [now apply sd_apostrophe|].
  on; [now apply sd_lt|].
  apply emits_if; intros ?E; [now apply sd_delim|].
  on; [now apply sd_lbracket|].
  on; [now apply sd_backquote|].
  on; [apply T2; rewrite Hc; reflexivity|].
  on; [apply T2; rewrite Hc; reflexivity|].
  on.
  { apply emits_if; intros _; [exact T1|]. apply sd_inline; try assumption; rewrite Hc; [discriminate | |].
    - intros F. split; [reflexivity | exact F].
    - intros r Er. reflexivity. }
  on; [now apply sd_colon|].
  on; [now apply sd_parens|].
  on; [apply T3; try discriminate; [now repeat constructor | intros r; rewrite Hc; reflexivity]|].
  on; [apply T3; try discriminate; [now repeat constructor | intros r; rewrite Hc; reflexivity]|].
  on; [now apply sd_h|].
  on; [now apply sd_i|].
  on; [apply emits_if; intros _; assumption|].
  on; [apply emits_if; intros _; assumption|].
  on; [apply T3; try discriminate; [now repeat constructor | intros r; rewrite Hc; left; reflexivity]|].
  on; [apply T3; try discriminate; [now repeat constructor | intros r; rewrite Hc; left; reflexivity]|].
  on; [apply T3; try discriminate; [now repeat constructor | intros r; rewrite Hc; left; reflexivity]|].
  on; [apply T3; try discriminate; [now repeat constructor | intros r; rewrite Hc; left; reflexivity]|].
  on; [apply T3; try discriminate; [now repeat constructor | intros r; rewrite Hc; left; reflexivity]|].
  on; [apply T2; rewrite Hc; reflexivity|].
  on; [now apply sd_amp|].
  on; [now apply sd_lbrace|].
  on; [now apply sd_bar|].
  on; [now apply sd_dq|].
  apply emits_if; intros _; [|exact T0]. apply emits_if; intros _; assumption.
Qed.
Lemma validate_lexed ty before lex after lit line sc0 ec files :
  prelexed ty before lex after ->
  lexed (ttype (validate (mkTok ty lex lit line sc0 ec files))) before lex after.
Proof.
  intros H. destruct ty; try exact H.
  - (* TText *) left. exact H.
  - (* TCharRef *) cbn. destruct (charref_replacement lex); exact H.
  - (* TBlockAnchor *)
    cbn [validate ttype lexeme]. destruct (memc SP lex || memc NL lex) eqn:E; cbn [ttype].
    + right. split; [|right; exact H]. intros [K1 K2]. apply orb_true_iff in E as [E|E]; apply memc_In in E; auto.
    + split; [exact H|]. apply orb_false_iff in E as [E1 E2].
      split; intros K; apply memc_In in K; [change " " with SP in K | change "010" with NL in K]; congruence.
  - (* TCrossReference *)
    cbn [validate ttype lexeme]. destruct (memc SP lex || memc NL lex) eqn:E; cbn [ttype].
    + right. split; [|left; exact H]. intros [K1 K2]. apply orb_true_iff in E as [E|E]; apply memc_In in E; auto.
    + split; [exact (proj1 H)|]. apply orb_false_iff in E as [E1 E2].
      split; intros K; apply memc_In in K; [change " " with SP in K | change "010" with NL in K]; congruence.
Qed.
Lemma high_text sc0 c : nth_error (sc_src sc0) (sc_cur sc0) = Some c -> ~ ascii7 c ->
  scan_token sc0 = add_text_until_next_markup (bump sc0 1).
Proof.
  intros E H. unfold scan_token, byte_at. rewrite E. cbn [bind memc existsb].
  assert (forall x, ascii7 x -> c == x = false) as K by (intros x Hx; apply Ascii.eqb_neq; intros ->; contradiction).
  rewrite !K by reflexivity. reflexivity.
Qed.
Lemma span_cut p l : exists v r, l = v ++ r /\ span_len p l = List.length v
  /\ Forall (fun b => p (peek_byte b) = true) v /\ (r = [] \/ exists y r', r = y :: r' /\ p (peek_byte y) = false).
Proof.
  induction l as [|b l IH]; cbn.
  - exists [], []. repeat split; auto.
  - destruct (p (peek_byte b)) eqn:E.
    + destruct IH as (v & r & -> & -> & Hv & Hr). exists (b :: v), r. repeat split; auto.
    + exists [], (b :: l). repeat split; eauto.
Qed.
Lemma stop_in b : memc (peek_byte b) markup_chars = true <-> In b ends_text.
Proof.
  rewrite memc_In. unfold peek_byte. destruct (is_cont b) eqn:E; [|reflexivity]. split.
  - intros H. cbn in H. intuition discriminate.
  - intros H. exfalso. cbn in H. repeat (destruct H as [<-|H]; [discriminate|]). exact H.
Qed.
Lemma next_lexed sc t sc' : next sc = Ok (Some t, sc') -> utf8 (sc_src sc) -> sc_cur sc <= List.length (sc_src sc) ->
  exists before after, sc_src sc = before ++ lexeme t ++ after
    /\ (sc_tagend sc = false \/ ~ is_tag t -> before = firstn (sc_cur sc) (sc_src sc)) /\ lexed (ttype t) before (lexeme t) after.
Proof.
  unfold next, is_at_end. intros H Hu HL.
  destruct (Nat.leb_spec (List.length (sc_src sc)) (sc_cur sc)) as [He|He]; cbn [negb] in H.
  - destruct (sc_scanning sc); [|discriminate]. injection H as <- _. exists (sc_src sc), [].
    cbn. rewrite app_nil_r. split; [reflexivity|]. split; [|auto]. intros _. symmetry. apply firstn_all2. lia.
  - fold (restart sc) in H. apply bind_ok in H as ((sc2, t2) & H & E). injection E as -> ->.
    assert (is_tag t \/ ~ is_tag t) as [Ht|Ht] by (unfold is_tag; destruct (ttype t); auto; right; intros [K|K]; discriminate).
    + apply scan_tag in H; [|exact Ht]. apply tag_lexed in H; [|cbn; lia].
      destruct H as (before & after & E & Eb & Hl). exists before, after. split; [exact E|]. split; [|exact Hl].
      intros [K|K]; [exact (Eb K) | contradiction].
    + exists (firstn (sc_cur sc) (sc_src sc)), (skipn (List.length (lexeme t)) (skipn (sc_cur sc) (sc_src sc))).
      destruct (nth_error (sc_src sc) (sc_cur sc)) as [c|] eqn:Ec; [|apply nth_error_None in Ec; lia].
      set (before := firstn (sc_cur sc) (sc_src sc)). set (rest := skipn (S (sc_cur sc)) (sc_src sc)).
      assert (List.length before = sc_cur sc) as Lb by (unfold before; rewrite firstn_length; lia).
      assert (skipn (sc_cur sc) (sc_src sc) = c :: rest) as Es by (unfold rest; now apply skipn_nth).
      assert (sc_src sc = before ++ c :: rest) as Esrc by (rewrite <- Es; unfold before; symmetry; apply firstn_skipn).
      assert (List.length (sc_src sc) = S (sc_cur sc + List.length rest)) as Lr by (rewrite Esrc, app_length; cbn; lia).
      enough (exists k, lexeme t = c :: firstn k rest /\ k <= List.length rest
        /\ lexed (ttype t) before (c :: firstn k rest) (skipn k rest)) as (k & El & Lk & Hl).
      { rewrite Es, El. cbn [List.length]. rewrite firstn_length, Nat.min_l by exact Lk. cbn [skipn].
        split; [|split; [reflexivity | exact Hl]]. rewrite Esrc. f_equal. cbn. f_equal. symmetry. apply firstn_skipn. }
      destruct (ascii7_dec c) as [H7|H7].
      * pose proof (scan_token_lexed (restart sc) before c rest eq_refl ltac:(cbn; lia) Esrc Hu H7 _ _ H) as [T | (n & ty & lit & adv & N1 & (k & N2 & N3) & N4)].
        { destruct T as (T & _). contradiction. }
        replace (set_cur (bump (restart sc) 1) n) with (bump (bump (restart sc) 1) k) in N4 by (unfold bump at 1; now rewrite <- N2).
        apply (v_token (bump (restart sc) 1) before c rest Esrc ltac:(cbn; lia) ltac:(cbn; lia) Hu H7) in N4 as (K1 & K2 & K3 & K4).
        exists k. split; [exact K2|]. split; [exact K1|]. rewrite K3. apply validate_lexed.
        apply N3; [symmetry; apply firstn_skipn | rewrite firstn_length; lia | exact K4].
      * rewrite (high_text (restart sc) c Ec H7) in H. unfold add_text_until_next_markup, advance in H.
        cbn [bump restart set_cur sc_cur sc_src] in H.
        assert (skipn (sc_cur sc + 1) (sc_src sc) = rest) as Hs by (unfold rest; f_equal; lia). rewrite Hs in H.
        destruct (span_cut (fun c0 => negb (memc c0 markup_chars)) rest) as (v & r & E & Hlen & Hv & Hr). rewrite Hlen in H.
        apply add_token_ok in H. destruct H as (_ & _ & _ & H & _).
        cbn [bump restart set_cur sc_cur sc_src sc_start] in H. rewrite Es in H.
        replace (sc_cur sc + 1 + List.length v - sc_cur sc) with (S (List.length v)) in H by lia. cbn [firstn] in H.
        exists (List.length v). rewrite E, app_length. split; [rewrite H, E; reflexivity|]. split; [lia|].
        rewrite H, firstn_app, Nat.sub_diag, firstn_all, skipn_length_app. cbn [firstn]. rewrite app_nil_r.
        cbn [validate ttype lexed]. left. exists c, v. split; [reflexivity|]. split.
        -- intros x Hx K. rewrite Forall_forall in Hv. apply Hv in Hx. apply stop_in in K. rewrite K in Hx. discriminate.
        -- destruct Hr as [->|(y & r' & -> & Hy)]; [now left | right]. exists y, r'. split; [reflexivity|].
           apply stop_in. now apply negb_false_iff in Hy.
Qed.
Lemma tokens_lexed src files ts sc pre t post : utf8 src -> yields src files ts sc -> ts = pre ++ t :: post ->
  exists before after, src = before ++ lexeme t ++ after
    /\ (no_tags pre -> before = text_of pre) /\ lexed (ttype t) before (lexeme t) after.
Proof.
  intros Hu Hy ->. destruct (yields_split _ _ _ _ Hy _ _ _ eq_refl) as (sc1 & sc2 & Y1 & N & Y2).
  pose proof (yields_inv _ _ _ _ Y1) as (I1 & _ & I3 & _). rewrite <- I1 in Hu, I3.
  destruct (next_lexed _ _ _ N Hu I3) as (before & after & E & Eb & Hl). exists before, after. rewrite <- I1 at 1.
  split; [exact E|]. split; [|exact Hl]. intros Hn. destruct (yields_text _ _ _ _ Y1 Hn) as [T Tt].
  rewrite T, <- I1. apply Eb. now left.
Qed.
