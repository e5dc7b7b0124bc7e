(** * Headings and delimiter lines are recognised *)
From Verif Require Import Base Location Token Scanner SpecScan ScanLemmas ScanFacts ScanMain ScanMain2.
Local Open Scope char_scope.
Local Open Scope nat_scope.

Lemma utf8_after a c b :
  utf8 (a ++ c :: b) -> (N_of_ascii c < 128)%N -> utf8 b.
Proof.
  intros H Hc. remember (a ++ c :: b) as s eqn:E. revert a E.
  induction H as [|x s Hx Hs IH | x y s Hx Hy Hs IH | x y z s Hx Hy Hz Hs IH | x y z w s Hx Hy Hz Hw Hs IH];
    intros a E; unfold byte_in in *.
  - now destruct a.
  - destruct a as [|? a]; inversion E; subst; [assumption | eauto].
  - destruct a as [|? [|? a]]; inversion E; subst; try lia. eauto.
  - destruct a as [|? [|? [|? a]]]; inversion E; subst; try lia. eauto.
  - destruct a as [|? [|? [|? [|? a]]]]; inversion E; subst; try lia. eauto.
Qed.

Lemma utf8_head s : utf8 s -> s = [] \/ exists x r, s = x :: r /\ is_cont x = false.
Proof.
  assert (forall x, ~ byte_in 128 191 x -> is_cont x = false) as K.
  { intros x. destruct (is_cont x) eqn:E; [|reflexivity]. intros Hx. elim Hx. unfold byte_in.
    clear Hx. destruct x as [b0 b1 b2 b3 b4 b5 b6 b7]. cbn in E.
    destruct b7; [|discriminate]. destruct b6; [discriminate|].
    destruct b0, b1, b2, b3, b4, b5; vm_compute; split; discriminate. }
  destruct 1; [auto | right..]; eexists _, _; (split; [reflexivity|]); apply K; unfold byte_in in *; lia.
Qed.

Lemma span_len_repeat c n l :
  is_cont c = false -> (forall x r, l = x :: r -> peek_byte x <> c) ->
  span_len (fun x => Ascii.eqb x c) (repeat c n ++ l) = n.
Proof.
  intros Hc Hl. induction n as [|n IH]; cbn.
  - destruct l as [|x r]; [reflexivity|]. cbn. destruct (Ascii.eqb (peek_byte x) c) eqn:E; [|reflexivity].
    apply Ascii.eqb_eq in E. now elim (Hl x r).
  - unfold peek_byte. rewrite Hc. cbn. rewrite Ascii.eqb_refl. f_equal. exact IH.
Qed.

Lemma add_token_at sc ty lit adv s r :
  skipn (sc_start sc) (sc_src sc) = s ++ r -> sc_cur sc = sc_start sc + List.length s ->
  s <> [] -> (exists x s', s = x :: s' /\ is_cont x = false) ->
  (r = [] \/ exists x r', r = x :: r' /\ is_cont x = false) ->
  exists sc' t, add_token sc ty lit adv = Ok (sc', t)
    /\ t = validate (mkTok ty s (if lit then Some s else None) (sc_line sc) (sc_startcol sc)
                           (sc_startcol sc + List.length s - 1) (sc_files sc))
    /\ sc_cur sc' = sc_start sc + List.length s.
Proof.
  intros H Hc Hne (x & s' & Es & Hx) Hr. unfold add_token, slice.
  assert (List.length (skipn (sc_start sc) (sc_src sc)) = List.length s + List.length r) as L
    by (rewrite H, app_length; lia).
  rewrite skipn_length in L.
  assert (0 < List.length s) by (destruct s; [congruence|cbn; lia]).
  rewrite Hc.
  destruct (Nat.leb_spec (sc_start sc) (sc_start sc + List.length s)); [|lia].
  destruct (Nat.leb_spec (sc_start sc + List.length s) (List.length (sc_src sc))); [|lia].
  assert (is_boundary (sc_src sc) (sc_start sc) = true) as ->.
  { eapply is_boundary_ascii_at; [|exact Hx]. now rewrite H, Es. }
  assert (is_boundary (sc_src sc) (sc_start sc + List.length s) = true) as ->.
  { destruct Hr as [-> | (y & r' & -> & Hy)].
    - cbn in L. replace (sc_start sc + List.length s) with (List.length (sc_src sc)) by lia. apply boundary_end.
    - eapply is_boundary_ascii_at; [|exact Hy]. rewrite <- skipn_skipn', H. apply skipn_length_app. }
  cbn [andb bind]. rewrite H.
  replace (sc_start sc + List.length s - sc_start sc) with (List.length s) by lia.
  rewrite firstn_app, Nat.sub_diag, firstn_all. cbn [firstn]. rewrite app_nil_r.
  destruct (adv =? 0); eexists _, _; (split; [reflexivity|]); split; auto.
Qed.

Section AtLine.
  Variables (src : bytes) (files : list bytes) (pre : list token) (sc : scanner).
  Hypothesis Hy : yields src files pre sc.
  Hypothesis Hnt : no_tags pre.
  Hypothesis Hu : utf8 src.
  Hypothesis Hl : at_line_start (text_of pre).

  Let sc1 := mkSc src (List.length (text_of pre)) (sc_startcol sc) (List.length (text_of pre))
                  (sc_line sc) (sc_scanning sc) false files.

  Lemma heading_recognised n rest :
    src = text_of pre ++ repeat "=" (S n) ++ " " :: rest ->
    match heading_type (S n) with
    | Some ty => exists t sc', next sc = Ok (Some t, sc') /\ ttype t = ty
                               /\ lexeme t = repeat "=" (S n) ++ " " :: []
    | None => next sc = Err (EHeadingLevel (sc_line sc))
    end.
  Proof.
    intros Es.
    assert (skipn (List.length (text_of pre)) src = "=" :: repeat "=" n ++ " " :: rest) as Hs.
    { rewrite Es, skipn_length_app. reflexivity. }
    rewrite (next_at _ _ _ _ _ _ Hy Hnt Hs). fold sc1.
    assert (starts_new_line (bump sc1 1) = true) as Hn.
    { eapply at_line_start_sc; [|reflexivity|exact Hl]. exact Es. }
    assert (skipn (sc_cur (bump sc1 1)) (sc_src (bump sc1 1)) = repeat "=" n ++ " " :: rest) as Hs1.
    { cbn. rewrite <- skipn_skipn', Hs. reflexivity. }
    assert (scan_token sc1 = scan_delim (bump sc1 1) "=") as ->.
    { unfold scan_token, byte_at. cbn [sc_src sc_cur sc1].
      rewrite <- (Nat.add_0_r (List.length _)), <- nth_error_skipn', Hs. reflexivity. }
    unfold scan_delim. cbn [starts_end_tag_line]. unfold starts_end_tag_line at 1. cbn [sc_tagend bump set_cur sc1 andb].
    rewrite Hn.
    assert (starts_repeated_char_line (bump sc1 1) "=" 4 = false) as ->.
    { destruct (starts_repeated_char_line (bump sc1 1) "=" 4) eqn:E; [|reflexivity].
      apply repeated_line in E; [|discriminate..]. rewrite Hs1 in E.
      destruct n as [|[|[|[|n]]]]; discriminate. }
    cbn [andb]. unfold scan_delim_inner. cbn [Ascii.eqb Bool.eqb].
    assert (peek (bump sc1 1) == ">" = false) as Hp.
    { destruct n as [|n]; erewrite peek_at_head; [|exact Hs1|reflexivity| |exact Hs1|reflexivity]; reflexivity. }
    rewrite Hp, Hn. cbn [Ascii.eqb Bool.eqb].
    unfold add_heading, advance. rewrite Hs1.
    rewrite span_len_repeat;
      [|reflexivity | intros x r E; injection E as <- _; discriminate].
    cbn [bump set_cur sc_cur sc_start sc1].
    replace (List.length (text_of pre) + 1 + n + 1 - 1 - List.length (text_of pre)) with (S n) by lia.
    assert (forall ty, heading_type (S n) = Some ty ->
      exists (t : token) (sc' : scanner),
        (let* (sc2, t0) := add_token (bump (bump (bump sc1 1) n) 1) ty false 0 in Ok (Some t0, sc2))
        = Ok (E := error) (Some t, sc')
        /\ ttype t = ty /\ lexeme t = repeat "=" (S n) ++ [" "]) as K.
    { intros ty Ht.
      destruct (add_token_at (bump (bump (bump sc1 1) n) 1) ty false 0
                  (repeat "=" (S n) ++ [" "]) rest) as (sc' & t & E & Et & _).
      - cbn [bump set_cur sc_start sc_src sc1]. rewrite Hs. cbn [repeat]. cbn [app]. now rewrite <- app_assoc.
      - cbn [bump set_cur sc_start sc_cur sc1]. rewrite app_length, repeat_length. cbn. lia.
      - discriminate.
      - cbn. eauto.
      - apply utf8_head. rewrite Es, app_assoc in Hu. eapply utf8_after; [exact Hu|reflexivity].
      - rewrite E. cbn [bind]. exists t, sc'. split; [reflexivity|]. rewrite Et.
        destruct n as [|[|[|[|[|n]]]]]; cbn in Ht; try discriminate; injection Ht as <-; split; reflexivity. }
    destruct n as [|[|[|[|[|n]]]]]; cbn [heading_type] in *; try (apply K; reflexivity).
    reflexivity.
  Qed.

  Lemma delimiter_recognised c ty rest :
    delimiter_of ty = Some c ->
    src = text_of pre ++ repeat c 4 ++ NL :: rest ->
    exists t sc', next sc = Ok (Some t, sc') /\ ttype t = ty /\ lexeme t = repeat c 4.
  Proof.
    intros Hd Es.
    assert (In c ["+"; "*"; "-"; "_"; "/"; "="; "."] /\ block_from_char c = Ok ty
            /\ is_cont c = false /\ (forall lx, lexeme (validate (mkTok ty lx None (sc_line sc)
                 (sc_startcol sc) (sc_startcol sc + List.length (repeat c 4) - 1) files)) = lx
            /\ ttype (validate (mkTok ty lx None (sc_line sc)
                 (sc_startcol sc) (sc_startcol sc + List.length (repeat c 4) - 1) files)) = ty)) as (Hin & Hb & Hcc & Hv).
    { destruct ty; cbn in Hd; try discriminate; injection Hd as <-; cbn; repeat split; auto 10. }
    assert (skipn (List.length (text_of pre)) src = c :: repeat c 3 ++ NL :: rest) as Hs.
    { rewrite Es, skipn_length_app. reflexivity. }
    rewrite (next_at _ _ _ _ _ _ Hy Hnt Hs). fold sc1.
    assert (starts_new_line (bump sc1 1) = true) as Hn.
    { eapply at_line_start_sc; [|reflexivity|exact Hl]. exact Es. }
    assert (skipn (sc_cur (bump sc1 1)) (sc_src (bump sc1 1)) = repeat c 3 ++ NL :: rest) as Hs1.
    { cbn [bump set_cur sc_cur sc_src sc1]. rewrite <- skipn_skipn', Hs. reflexivity. }
    assert (scan_token sc1 = scan_delim (bump sc1 1) c) as ->.
    { unfold scan_token, byte_at. cbn [sc_src sc_cur sc1].
      rewrite <- (Nat.add_0_r (List.length _)), <- nth_error_skipn', Hs. cbn [nth_error bind].
      destruct Hin as [<-|[<-|[<-|[<-|[<-|[<-|[<-|[]]]]]]]]; reflexivity. }
    unfold scan_delim. unfold starts_end_tag_line at 1. cbn [sc_tagend bump set_cur sc1 andb].
    rewrite Hn.
    assert (rest = [] \/ exists x r, rest = x :: r /\ is_cont x = false) as Hr.
    { apply utf8_head. rewrite Es, app_assoc in Hu. eapply utf8_after; [exact Hu|reflexivity]. }
    assert (starts_repeated_char_line (bump sc1 1) c 4 = true) as ->.
    { unfold starts_repeated_char_line.
      rewrite (peeks_ahead_at (bump sc1 1) 4 (repeat c 3 ++ [NL]) rest);
        [|rewrite Hs1; reflexivity|reflexivity|discriminate|exact Hr].
      cbn [Nat.sub]. rewrite beqb_refl, andb_true_r. apply Nat.leb_le.
      assert (List.length (skipn (sc_cur (bump sc1 1)) (sc_src (bump sc1 1))) = 4 + List.length rest) as L
        by (rewrite Hs1; reflexivity).
      rewrite skipn_length in L. lia. }
    cbn [andb]. rewrite Hb. cbn [bind].
    destruct (add_token_at (bump (bump sc1 1) 3) ty false 0 (repeat c 4) (NL :: rest)) as (sc' & t & E & Et & _).
    - cbn [bump set_cur sc_start sc_src sc1]. rewrite Hs. reflexivity.
    - cbn [bump set_cur sc_start sc_cur sc1]. rewrite repeat_length. lia.
    - discriminate.
    - cbn. eauto.
    - right. eauto.
    - rewrite E. cbn [bind]. exists t, sc'. split; [reflexivity|]. rewrite Et. cbn [bump set_cur sc_line sc_startcol sc_files sc1].
      destruct (Hv (repeat c 4)) as [V1 V2]. auto.
  Qed.
End AtLine.
