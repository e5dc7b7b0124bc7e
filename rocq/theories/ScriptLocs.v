(** * Scripts: every inline that is read has a location *)
From Verif Require PanicProofs.
From Verif Require Import Base World Location Token Meta Inline Block Asg Parser SpecScan SpecLex SpecDoc SpecArticle
  GraphLemmas DocGraph ScriptWords ScriptText SpecScript.
Local Open Scope char_scope.
Local Open Scope nat_scope.
Local Arguments reconcile : simpl never.
Local Arguments token_locations : simpl never.
Local Arguments token_text : simpl never.
Local Arguments last_opt : simpl never.

Definition some {A} (l : list A) : Prop := l <> [].
Inductive located : inline -> Prop :=
| located_span v f l m loc o : some loc -> Forall located l -> located (ISpan v f l m loc o)
| located_ref v t l m loc : some loc -> Forall located l -> located (IRef v t l m loc)
| located_lit n k s loc : some loc -> located (ILit n k s loc)
| located_break loc : some loc -> located (IBreak loc).
Lemma located_locs i : located i -> inline_locs i <> [].
Proof. destruct 1; assumption. Qed.
Lemma rec_some a b : some a -> some (reconcile a b).
Proof. apply PanicProofs.reconcile_ne. Qed.
Lemma tok_some t : some (token_locations t).
Proof. apply PanicProofs.locations_ne. Qed.
#[local] Hint Resolve rec_some tok_some : loc.
#[local] Hint Constructors located : loc.

Lemma append_located i v l : located i -> located (lit_append i v l).
Proof. destruct 1; cbn; auto with loc. Qed.
Lemma upd_located g k x : Forall located (k ++ [x]) -> located (g x) -> Forall located (upd_last' g (k ++ [x])).
Proof. intros H G. rewrite upd_last'_snoc. apply Forall_app in H as [H _]. apply Forall_app. auto. Qed.
Lemma snoc_located l x : Forall located l -> located x -> Forall located (l ++ [x]).
Proof. intros H X. apply Forall_app. auto. Qed.
#[local] Hint Resolve snoc_located append_located : loc.
Lemma add_located s : forall i, located s -> located i -> located (span_add s i).
Proof.
  induction s as [v f l m loc o IH | | | ] using inline_ind2; intros i Hs Hi; cbn [span_add]; auto.
  inversion Hs as [? ? ? ? ? ? H1 H2| | |]. subst.
  destruct (last_opt l) as [x|] eqn:El; [|auto with loc].
  apply last_opt_inv in El as [k ->]. apply Forall_app in IH as [_ IH]. apply Forall_inv in IH.
  assert (located x) as Hx by (apply Forall_app in H2 as [_ H2]; now inversion H2).
  destruct x as [v' f' l' m' loc' o' | | n' k' v' loc' |]; try (auto with loc; fail).
  - destruct o'; [|auto with loc]. apply located_span; [auto with loc|]. apply upd_located; auto.
  - destruct i; try (auto with loc; fail). apply located_span; [auto with loc|]. apply upd_located; auto with loc.
Qed.
Lemma prepend_located i v o : located i -> post (prepend_literal i v o) located.
Proof. destruct 1; cbn; try apply post_panic. apply post_ok. auto with loc. Qed.
Lemma children_located i : located i -> post (extract_children i) (Forall located).
Proof.
  induction i as [v f l m loc o IH | v t l m loc IH | | ] using inline_ind2; intros Hi; try apply post_panic.
  inversion Hi as [? ? ? ? ? ? H1 H2| | |]. subst. clear Hi.
  cbn [extract_children]. induction H2 as [|x r Hx Hr IHr]; [apply post_ok; constructor|].
  inversion IH as [|? ? IHx IHl]. subst.
  apply (post_bind _ _ _ (Forall located)).
  - destruct (is_open x); [|apply post_ok; auto].
    apply post_any. intros lit _. eapply post_bind; [now apply IHx|]. intros [|k ks] Hk; [apply post_panic|].
    inversion Hk. subst. eapply post_bind; [now apply prepend_located|].
    intros k' Hk'. apply post_ok. constructor; auto.
  - intros hd Hhd. eapply post_bind; [now apply IHr|]. intros tl Htl. apply post_ok. apply Forall_app; auto.
Qed.
Lemma ref_text_located i t b : located i -> post (ref_text_from_token i t b) located.
Proof.
  intros H. unfold ref_text_from_token. destruct i as [| v tg l m loc | |]; try apply post_panic.
  inversion H as [| ? ? ? ? ? H1 H2 | |]. subst.
  destruct (last_opt l) as [x|] eqn:El.
  - apply last_opt_inv in El as [k ->]. assert (located x) as Hx by (apply Forall_app in H2 as [_ K]; now inversion K).
    destruct x; try apply post_panic; apply post_ok, located_ref; auto; apply upd_located; auto.
    + apply add_located; [assumption|]. unfold lit_pass. auto with loc.
    + now apply append_located.
  - apply post_ok. unfold lit_pass. auto with loc.
Qed.
Lemma merge_located l : forall acc, Forall located acc -> Forall located l -> Forall located (merge_literals acc l).
Proof.
  induction l as [|i l IH]; intros acc A L; cbn [merge_literals]; [now apply Forall_rev|]. inversion L as [|? ? L1 L2]. subst.
  destruct acc as [|x acc]; [apply IH; auto|]. inversion A as [|? ? A1 A2]. subst.
  destruct x, i; apply IH; auto; constructor; auto; apply append_located; auto.
Qed.
Lemma split_located f l : Forall located l -> match split_at_first f l with
  Some (a, x, b) => Forall located a /\ located x /\ Forall located b | None => True end.
Proof.
  induction 1 as [|x l H F IH]; [exact I|]. cbn. destruct (f x); [auto|]. destruct (split_at_first f l) as [[[a y] b]|]; [|exact I].
  destruct IH as (H1 & H2 & H3). auto.
Qed.

Section Reads.
(** whether the line is known not to be that of a heading *)
Variable plain_line : Prop.
(** the state in a text; [o]: what is open *)
Definition reads (o : option token_type) (p : pstate) : Prop :=
  Forall located (p_istack p) /\ p_header p = None /\ p_title p = None /\ p_open_type p = o /\ (plain_line -> p_in_line p = false).
Lemma reads_last o ty p : reads o p -> reads o (set_last ty p).
Proof. exact (fun H => H). Qed.
Lemma reads_stack o l p : reads o p -> Forall located l -> reads o (set_istack l p).
Proof. intros (_ & H) L. exact (conj L H). Qed.
Lemma reads_push o i p : reads o p -> located i -> reads o (push_inline_back i p).
Proof. intros H L. apply reads_stack; [exact H|]. constructor; [exact L|apply H]. Qed.
Lemma add_text_reads o b t p : reads o p -> post (add_to_last_inline b t p) (reads o).
Proof.
  intros H. pose proof (proj1 H) as L. unfold add_to_last_inline.
  assert (located (if b then lit_pass t else lit_text t)) as Li by (destruct b; unfold lit_pass, lit_text; auto with loc).
  set (il := if b then lit_pass t else lit_text t) in *. clearbody il.
  assert (reads o (set_istack (il :: p_istack p) p)) as P by (apply reads_stack; auto).
  destruct (p_istack p) as [|i r] eqn:E; [now apply post_ok|]. inversion L as [|? ? L1 L2]. subst.
  destruct i as [v f k m loc op|v tg k m loc|[] k s loc|]; try (apply post_ok; exact P).
  - destruct (p_in_span p); apply post_ok; [|exact P]. apply reads_stack; auto. constructor; auto. now apply add_located.
  - destruct (negb (p_close_parent p)); [|apply post_ok; exact P]. eapply post_bind; [now apply ref_text_located|].
    intros x X. apply post_ok. apply reads_stack; auto.
  - apply post_ok. apply reads_stack; auto. constructor; auto. now apply (append_located (ILit LText k s loc)).
Qed.
Lemma add_reads o t p : reads o p -> post (add_text_to_last_inline t p) (reads o).
Proof. exact (add_text_reads o false t p). Qed.
Lemma dangling_reads o p : reads o p -> post (handle_dangling_spans p) (reads o).
Proof.
  intros H. unfold handle_dangling_spans. pose proof (split_located is_open _ (proj1 H)) as S.
  destruct (split_at_first is_open (p_istack p)) as [[[a s] b]|]; [|now apply post_ok]. destruct S as (Sa & Ss & Sb).
  apply post_any. intros lit _. eapply post_bind; [now apply children_located|]. intros [|c cs] C.
  - destruct (destructure_inline_locations _) as [[? ?] ?]. apply add_reads, reads_stack; [exact H|]. apply Forall_app; auto.
  - inversion C as [|? ? C1 C2]. subst. eapply post_bind; [now apply prepend_located|]. intros c' C'. apply post_ok, reads_stack; [exact H|].
    apply Forall_rev, merge_located; [constructor|]. apply Forall_app. split; [now apply Forall_rev|]. apply Forall_app. split; [auto|now apply Forall_rev].
Qed.
Lemma flush_reads o i p : reads o p -> located i -> post (flush_dangling i p) (fun x => reads o (fst x)).
Proof.
  intros H L. unfold flush_dangling. destruct (p_dangling p); [|now apply post_ok]. destruct (p_preserve_nl p).
  - apply post_ok. cbn [fst]. apply reads_push; [|exact L]. apply (reads_push o (lit_text t) p H). unfold lit_text. auto with loc.
  - eapply post_bind; [eapply add_reads; eassumption|]. intros q Q. now apply post_ok.
Qed.
Lemma text_reads o t p : reads o p -> post (parse_text t p) (reads o).
Proof.
  intros H. unfold parse_text. eapply post_bind; [apply flush_reads; [exact H|unfold lit_text; auto with loc]|].
  intros [q []] Q; [now apply post_ok|]. first [now apply add_text_reads | now apply add_reads].
Qed.
Lemma pass_reads o t p : reads o p -> post (pass_text_through t p) (reads o).
Proof.
  intros H. unfold pass_text_through. eapply post_bind; [apply flush_reads; [exact H|unfold lit_pass; auto with loc]|].
  intros [q []] Q; [now apply post_ok|]. first [now apply add_text_reads | now apply add_reads].
Qed.
Lemma charref_reads o t p : reads o p -> post (parse_charref t p) (reads o).
Proof.
  intros H. unfold parse_charref. assert (located (lit_charref t)) as L by (unfold lit_charref; auto with loc).
  eapply post_bind; [eapply flush_reads; eassumption|].
  intros [q []] Q; [now apply post_ok|]. cbn [fst] in Q. pose proof (proj1 Q) as F.
  assert (reads o (push_inline_back (lit_charref t) q)) as P by now apply reads_push.
  destruct (p_istack q) as [|i r]; [now apply post_ok|]. inversion F as [|? ? F1 F2]. subst.
  destruct i; try (now apply post_ok).
  - destruct (p_in_span q); apply post_ok; [|exact P]. apply reads_stack; auto. constructor; auto. now apply add_located.
  - destruct (negb (p_close_parent q)); apply post_ok; [|exact P]. apply reads_stack; auto. constructor; auto.
    inversion F1. subst. auto with loc.
Qed.
Lemma span_located t : post (span_from_token t) located.
Proof.
  unfold span_from_token, new_span. destruct (ttype t); try apply post_panic; try (apply post_ok; auto with loc; fail).
  apply post_any. intros b _. apply post_ok. auto with loc.
Qed.
Lemma rec_close_located i l : located i -> post (inline_close (inline_reconcile i l)) located.
Proof. destruct 1; cbn; try apply post_panic. apply post_ok. auto with loc. Qed.
Lemma span_new_reads o i p : reads o p -> located i -> post (parse_inline_span_new i p) (reads o).
Proof.
  intros H L. unfold parse_inline_span_new. apply (post_bind _ _ _ (reads o)).
  - destruct (p_dangling p); [|now apply post_ok]. eapply post_bind; [eapply add_reads; eassumption|]. intros q Q. now apply post_ok.
  - intros q Q. eapply post_bind; [eapply dangling_reads; eassumption|]. intros q' Q'.
    apply (post_bind _ _ _ (fun x => located (fst x) /\ reads o (snd x))).
    + destruct (p_meta q'); [|now apply post_ok]. apply (post_bind _ _ _ located).
      * destruct L; cbn; try apply post_panic. apply post_ok. auto with loc.
      * intros x X. now apply post_ok.
    + intros [x q''] [X Q'']. apply post_ok. cbn in *. apply (reads_stack o (x :: p_istack q'') q'' Q''). constructor; [assumption|apply Q''].
Qed.
Lemma span_reads o i p : reads o p -> located i -> post (parse_inline_span i p) (reads o).
Proof.
  intros H L. unfold parse_inline_span. pose proof (proj1 H) as F. destruct (p_istack p) as [|x r]; [eapply span_new_reads; eassumption|].
  inversion F as [|? ? F1 F2]. subst. destruct (inline_eqb i x).
  - eapply post_bind; [now apply rec_close_located|]. intros y Y. apply post_ok. apply (reads_stack o (y :: r) p H). auto.
  - destruct F1 as [v f k m loc op S1 S2| | |]; try (now apply span_new_reads).
    assert (reads o (set_istack (span_add (ISpan v f k m loc op) i :: r) p)) as P.
    { apply reads_stack; auto. constructor; auto. apply add_located; auto with loc. }
    destruct (last_opt k) as [y|] eqn:E; [|now apply post_ok]. destruct (inline_eqb i y); [|now apply post_ok].
    apply last_opt_inv in E as (k0 & ->). rewrite upd_last_snoc. apply Forall_app in S2 as [S2 S3]. inversion S3 as [|? ? S4 _]. subst.
    eapply post_bind; [|intros z Z; apply post_ok; apply (reads_stack o _ p H); constructor; [apply located_span; [exact S1|exact Z]|exact F2]].
    eapply post_bind; [now apply rec_close_located|]. intros z Z. apply post_ok. apply Forall_app. auto.
Qed.
Lemma push_all_located l : forall i, located i -> Forall located l -> post (inline_push_all i l) located.
Proof.
  induction l as [|c l IH]; intros i Hi Hl; cbn [inline_push_all]; [now apply post_ok|]. inversion Hl as [|? ? H1 H2]. subst.
  apply (post_bind _ _ _ located); [|intros x X; now apply IH].
  destruct Hi; cbn; try apply post_panic; apply post_ok; auto with loc.
Qed.
Lemma close_reads t p : reads None p -> post (parse_inline_macro_close t p) (reads None).
Proof.
  intros H. unfold parse_inline_macro_close. pose proof H as (F & _ & _ & -> & _).
  pose proof (split_located is_macro _ F) as S. destruct (split_at_first is_macro (p_istack p)) as [[[a s] b]|]; [|first [now apply add_text_reads | now apply add_reads]].
  destruct S as (S1 & S2 & S3). eapply post_bind; [apply push_all_located; [exact S2|now apply Forall_rev]|]. intros m M.
  apply (post_bind _ _ _ located).
  - destruct M; cbn; try apply post_panic; apply post_ok; auto with loc.
  - intros y Y. apply post_ok. apply (reads_stack None (y :: b) p H). auto.
Qed.

(** the types of the tokens of a text *)
Definition text_type (ty : token_type) : bool :=
  match ty with
  | TStrong | TEmphasis | TMonospace | TLiteral | TMark | TUnconstrainedStrong | TUnconstrainedEmphasis | TUnconstrainedMonospace
  | TUnconstrainedLiteral | TUnconstrainedMark | TSuperscript | TSubscript
  | TOpenDoubleQuote | TCloseDoubleQuote | TOpenSingleQuote | TCloseSingleQuote
  | TText | TAttributeReference | TCharRef | TInlineMacroClose | TNewLineChar | TInlineStyle | TLineContinuation | TLinkMacro
  | TCrossReference | TInlineImageMacro | TFootnoteMacro | TComment | THyperlink => true
  | _ => false
  end.
Lemma token_reads w fuel t p : reads None p -> text_type (ttype t) = true ->
  (ttype t = TNewLineChar -> tt_eqb (p_last p) TNewLineChar || tt_eqb (p_last p) TEof = false) ->
  post (token_into w fuel t p) (reads None).
Proof.
  intros H T N. assert (token_into w fuel t p = dispatch w t p) as ->.
  { destruct H as (_ & H1 & _ & H2 & _). destruct fuel; cbn [token_into]; rewrite H1; cbn [bind]; unfold pre_dispatch; rewrite H2; destruct (ttype t); try discriminate T; reflexivity. }
  unfold dispatch. destruct (ttype t) eqn:Et; try discriminate T; try (now apply text_reads);
    try (eapply post_bind; [apply span_located|]; intros s S; now apply span_reads).
  - (* newline *) unfold parse_new_line_char. pose proof H as (_ & H1 & H2 & _). cbn [set_in_line p_title]. rewrite H2. cbn [set_in_line p_last].
    destruct (tt_eqb (p_last p) TNewLineChar || tt_eqb (p_last p) TEof) eqn:E; [discriminate (N eq_refl)|]. clear N E.
    destruct H as (H3 & H4 & H5 & H6 & _). destruct (p_in_cont _ || _); apply post_ok; repeat split; auto.
  - apply post_ok. apply reads_push; auto with loc.
  - now apply post_ok.
  - unfold parse_inline_image_macro. apply post_any. intros [tg m] _. apply post_ok.
    apply (reads_push None (new_inline_image tg m (token_locations t)) p H). unfold new_inline_image. auto with loc.
  - apply post_ok. apply reads_push; auto. unfold new_link_macro. auto with loc.
  - unfold parse_footnote_macro. eapply post_bind; [apply span_located|]. intros s S. apply post_ok. exact (reads_push None s p H S).
  - now apply close_reads.
  - apply post_ok. apply reads_push; auto. unfold new_link. auto with loc.
  - now apply charref_reads.
  - unfold parse_inline_element_attributes. apply post_any. intros m _. apply post_ok. exact H.
  - unfold parse_cross_reference, new_xref. apply post_any. intros x X. destruct (Meta.inner _ 2 2) as [s| | | |]; try discriminate X. injection X as <-. apply post_ok.
    apply (reads_push None (IRef RXref s [] None (token_locations t)) p H). auto with loc.
  - unfold parse_attribute_reference. apply post_any. intros key _. now apply text_reads.
Qed.

(** ** A whole text: [o] is set inside [pass:[]] *)
Fixpoint modes (o : bool) (ws : list word) : option bool :=
  match ws with
  | [] => Some o
  | x :: r =>
      if o then match fst x with TInlineMacroClose => modes false r | TPassthroughInlineMacro => None | _ => modes true r end
      else match fst x with TPassthroughInlineMacro => modes true r | _ => if text_type (fst x) then modes false r else None end
  end.
Definition opened (o : bool) : option token_type := if o then Some TPassthroughInlineMacro else None.
Lemma loop_reads w fuel ws : forall ts o o' b p, are_words ws ts -> modes o ws = Some o' -> calm b ws = true ->
  (o = false -> b = false -> tt_eqb (p_last p) TNewLineChar || tt_eqb (p_last p) TEof = false) ->
  reads (opened o) p -> post (parse_loop w fuel ts p) (reads (opened o')).
Proof.
  induction ws as [|x ws IH]; intros ts o o' b p W M C L H; inversion W as [|? t ? r W1 W2]; subst.
  - injection M as <-. now apply post_ok.
  - cbn [parse_loop]. pose proof (proj1 W1) as T.
    assert (forall o1 b1, modes o1 ws = Some o' -> calm b1 ws = true -> (o1 = false -> b1 = false -> text_type (fst x) = true /\ fst x <> TNewLineChar) ->
      post (token_into w fuel t p) (reads (opened o1)) ->
      post (let* p0 := token_into w fuel t p in parse_loop w fuel r (set_last (ttype t) p0)) (reads (opened o'))) as K.
    { intros o1 b1 M1 C1 L1 P. eapply post_bind; [exact P|]. intros q Q. apply (IH r o1 o' b1); auto.
      intros X Y. destruct (L1 X Y) as [L2 L3]. cbn [set_last p_last]. rewrite T. destruct (fst x); try discriminate L2; try reflexivity. congruence. }
    cbn [modes calm] in M, C. destruct o.
    + destruct (tt_eqb (fst x) TInlineMacroClose) eqn:E1.
      * apply PanicProofs.tt_eqb_eq in E1. rewrite E1 in *. apply (K false false M C); [split; [reflexivity|discriminate]|].
        destruct H as (H1 & H2 & H3 & H4 & H5). cbn [opened] in H4.
        assert (token_into w fuel t p = Ok (set_open_type None p)) as ->.
        { destruct fuel; cbn [token_into]; rewrite H2; cbn [bind]; unfold pre_dispatch; rewrite H4, T; cbn [tt_eqb orb]; unfold dispatch; rewrite T;
            unfold parse_inline_macro_close; now rewrite H4. }
        apply post_ok. exact (conj H1 (conj H2 (conj H3 (conj eq_refl H5)))).
      * assert (tt_eqb (fst x) TPassthroughInlineMacro = false) as E2 by (destruct (fst x); try reflexivity; discriminate M).
        assert (modes true ws = Some o') as M' by (destruct (fst x); try exact M; discriminate).
        apply (K true (match fst x with TNewLineChar => true | _ => false end) M').
        -- destruct (fst x); try exact C. now apply andb_prop in C.
        -- discriminate.
        -- pose proof H as (H1 & H2 & H3 & H4 & _). cbn [opened] in H4.
           assert (token_into w fuel t p = pass_text_through t p) as ->.
           { destruct fuel; cbn [token_into]; rewrite H2; cbn [bind]; unfold pre_dispatch; rewrite H4, T, E1, E2; reflexivity. }
           now apply pass_reads.
    + destruct (tt_eqb (fst x) TPassthroughInlineMacro) eqn:E1.
      * apply PanicProofs.tt_eqb_eq in E1. rewrite E1 in *. apply (K true false M C); [discriminate|].
        destruct H as (H1 & H2 & H3 & H4 & H5). cbn [opened] in H4.
        assert (token_into w fuel t p = Ok (set_open_type (Some TPassthroughInlineMacro) p)) as ->.
        { destruct fuel; cbn [token_into]; rewrite H2; cbn [bind]; unfold pre_dispatch; rewrite H4, T; unfold dispatch; now rewrite T. }
        apply post_ok. exact (conj H1 (conj H2 (conj H3 (conj eq_refl H5)))).
      * assert (text_type (fst x) = true /\ modes false ws = Some o') as [Tt M'].
        { destruct (text_type (fst x)) eqn:E2; [split; [reflexivity|]|]; destruct (fst x); try discriminate; exact M. }
        apply (K false (match fst x with TNewLineChar => true | _ => false end) M').
        -- destruct (fst x); try exact C. now apply andb_prop in C.
        -- intros _ X. split; [exact Tt|]. intros Y. now rewrite Y in X.
        -- apply token_reads; [exact H|now rewrite T|]. intros X. rewrite T in X. rewrite X in C. apply andb_prop in C as [C _].
           apply L; [reflexivity|]. now destruct b.
Qed.
End Reads.
Lemma modes_app a b : forall o, modes o (a ++ b) = match modes o a with Some o' => modes o' b | None => None end.
Proof.
  induction a as [|x a IH]; intros o; [reflexivity|]. cbn [app modes]. destruct o; [|destruct (text_type (fst x))]; destruct (fst x); auto.
Qed.
Lemma modes_plain ws : forallb (fun x : word => text_type (fst x)) ws = true -> modes false ws = Some false.
Proof.
  induction ws as [|x ws IH]; intros H; [reflexivity|]. cbn in *. apply andb_prop in H as [H1 H2]. rewrite H1, (IH H2). destruct (fst x); try reflexivity; discriminate.
Qed.
Lemma bit_type b : text_type (fst (bit_word b)) = true.
Proof. destruct b as [|[]| | | |]; reflexivity. Qed.
Lemma tick_type t : text_type (fst (tick_word t)) = true.
Proof. destruct t as [[]|[]| |]; reflexivity. Qed.
Lemma bits_type l : forallb (fun x : word => text_type (fst x)) (map bit_word l) = true.
Proof. induction l as [|b l IH]; [reflexivity|]. cbn. now rewrite bit_type, IH. Qed.
Lemma inner_type l : forallb (fun x : word => text_type (fst x)) (List.concat (map inner_words l)) = true.
Proof.
  induction l as [|i l IH]; [reflexivity|]. cbn [map List.concat]. rewrite forallb_app, IH, andb_true_r.
  destruct i as [b|t k]; cbn [inner_words forallb]; [now rewrite bit_type|]. rewrite forallb_app, bits_type. cbn [forallb]. now rewrite tick_type.
Qed.
Lemma modes_passed (l : list word) r : forallb (fun w => match fst w with TPassthroughInlineMacro | TInlineMacroClose => false | _ => true end) l = true ->
  modes true (l ++ r) = modes true r.
Proof.
  induction l as [|x l IH]; intros H; [reflexivity|]. cbn [forallb] in H. apply andb_prop in H as [H1 H2]. cbn [app modes]. rewrite (IH H2).
  destruct (fst x); try reflexivity; discriminate.
Qed.
Lemma modes_text keep l : forall a b c d, fits keep a b c d l = true -> modes false (text_words l) = Some false.
Proof.
  induction l as [|x l IH]; intros a b c d F; [reflexivity|]. unfold text_words in *. cbn [map List.concat]. rewrite modes_app.
  assert (exists a b c d, fits keep a b c d l = true) as (a' & b' & c' & d' & F').
  { destruct x as [bt| | | | | | |ws| |]; cbn [fits] in F.
    - destruct bt; apply andb_prop in F as [_ F] || idtac; eauto.
    - apply andb_prop in F as [_ F]. eauto.
    - eauto.
    - apply andb_prop in F as [_ F]. eauto.
    - apply andb_prop in F as [_ F]. eauto.
    - apply andb_prop in F as [_ F]. eauto.
    - apply andb_prop in F as [_ F]. eauto.
    - apply andb_prop in F as [_ F]. destruct ws; eauto.
    - eauto.
    - destruct l; [|discriminate]. exists a, b, c, d. reflexivity. }
  enough (modes false (element_words x) = Some false) as -> by exact (IH _ _ _ _ F').
  clear IH F'. destruct x as [bt|roles t k| |tg k| |tg alt|k|ws| |]; cbn [element_words]; try reflexivity.
  - apply modes_plain. cbn. now rewrite bit_type.
  - apply modes_plain. rewrite forallb_app. cbn [forallb]. rewrite forallb_app, inner_type, tick_type. cbn [forallb]. rewrite tick_type. destruct roles; reflexivity.
  - apply modes_plain. cbn [forallb]. rewrite forallb_app, bits_type. reflexivity.
  - apply modes_plain. cbn [forallb]. rewrite forallb_app, inner_type. reflexivity.
  - cbn [fits] in F. apply andb_prop in F as [F _]. cbn [modes fst]. rewrite (modes_passed _ _ F). reflexivity.
Qed.
Theorem text_located w fuel keep wait l ts p p' : are_words (text_words l) ts -> text_fits keep wait l = true -> p_istack p = [] -> p_header p = None -> p_title p = None ->
  p_open_type p = None -> parse_loop w fuel ts p = Ok p' -> Forall located (p_istack p') /\ (p_in_line p = false -> p_in_line p' = false).
Proof.
  intros W F H1 H2 H3 H4 E. unfold text_fits in F. apply andb_prop in F as [F _]. apply andb_prop in F as [F C].
  assert (reads (p_in_line p = false) None p') as (R1 & _ & _ & _ & R2); [|auto].
  apply (loop_reads (p_in_line p = false) w fuel (text_words l) ts false false true p W); auto; [now apply (modes_text keep l wait false false false)|discriminate|].
  split; [rewrite H1; constructor|auto].
Qed.
