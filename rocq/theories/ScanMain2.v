(** * Positions, headings and delimiters of the yielded tokens *)
From Verif Require Import Base Location Token Scanner SpecScan ScanLemmas ScanFacts ScanMain.
Local Open Scope char_scope.
Local Open Scope nat_scope.

Lemma yields_split src files ts sc :
  yields src files ts sc -> forall pre t post, ts = pre ++ t :: post ->
  exists sc1 sc2, yields src files pre sc1 /\ next sc1 = Ok (Some t, sc2)
                  /\ yields src files (pre ++ [t]) sc2.
Proof.
  induction 1 as [|ts sc t0 sc' Hy IH Hn]; intros pre t post E.
  - now destruct pre.
  - destruct post as [|p post] using rev_ind.
    + apply app_inj_tail in E as [-> ->]. exists sc, sc'. repeat split; auto. econstructor; eauto.
    + clear IHpost. assert (ts ++ [t0] = (pre ++ t :: post) ++ [p]) as E'
        by (rewrite E, <- app_assoc; reflexivity).
      apply app_inj_tail in E' as [-> ->]. eapply IH. reflexivity.
Qed.

(** the token [t] of a scan stands between what comes before and the rest *)
Lemma token_place src files ts sc pre t post :
  yields src files ts sc -> ts = pre ++ t :: post -> no_tags (pre ++ [t]) -> ttype t <> TEof ->
  exists sc1 sc2,
    yields src files pre sc1 /\ next sc1 = Ok (Some t, sc2) /\ plain_step sc1 sc2 t
    /\ sc_cur sc1 = List.length (text_of pre)
    /\ src = text_of pre ++ lexeme t ++ skipn (sc_cur sc2) src
    /\ sc_tagend sc1 = false /\ sc_src sc1 = src.
Proof.
  intros Hy -> Hnt Hne.
  destruct (yields_split _ _ _ _ Hy _ _ _ eq_refl) as (sc1 & sc2 & Y1 & N & Y2).
  exists sc1, sc2. apply Forall_app in Hnt as [Hn1 Hn2]. apply Forall_inv in Hn2.
  pose proof (yields_text _ _ _ _ Y1 Hn1) as [T1 T2].
  pose proof (yields_inv _ _ _ _ Y1) as (I1 & I2 & I3 & _).
  pose proof N as N'. apply next_some in N' as [[Hlt [P | T]] | E].
  - pose proof P as P'.
    destruct P as (adv & lit & P1 & P2 & P3 & P4 & P5 & P6 & P7 & P8 & _).
    rewrite I1 in P8. repeat split; auto.
    + rewrite T1, firstn_length. lia.
    + rewrite T1, P8. unfold lex.
      rewrite app_assoc, <- firstn_add.
      replace (sc_cur sc1 + (sc_cur sc2 - sc_cur sc1)) with (sc_cur sc2) by lia.
      now rewrite firstn_skipn.
  - destruct T as (T & _). now elim Hn2.
  - destruct E as (_ & _ & -> & _). now elim Hne.
Qed.

(** ** Positions *)
Lemma walk_app l c a b : walk l c (a ++ b) = let (l', c') := walk l c a in walk l' c' b.
Proof.
  revert l c. induction a as [|x a IH]; intros l c; cbn; [reflexivity|].
  destruct (Ascii.eqb x "010"); apply IH.
Qed.

Lemma walk_line l c s : ~ In "010" s -> walk l c s = (l, c + List.length s).
Proof.
  revert c. induction s as [|x s IH]; intros c H; cbn.
  - f_equal. lia.
  - destruct (Ascii.eqb x "010") eqn:E.
    + apply Ascii.eqb_eq in E. elim H. left. congruence.
    + rewrite IH by (intros Hin; apply H; now right). f_equal. lia.
Qed.

Lemma yields_position src files ts sc :
  yields src files ts sc -> no_tags ts -> Forall one_line ts ->
  (sc_line sc, sc_startcol sc) = walk 1 1 (text_of ts).
Proof.
  induction 1 as [|ts sc t sc' Hy IH Hn]; intros Hnt Ho; [reflexivity|].
  apply Forall_app in Hnt as [Hnt Ht]. apply Forall_inv in Ht.
  apply Forall_app in Ho as [Ho Hot]. apply Forall_inv in Hot.
  specialize (IH Hnt Ho). rewrite text_of_app. unfold text_of at 2. cbn [map List.concat].
  rewrite app_nil_r, walk_app, <- IH.
  apply next_some in Hn as [[Hlt [P | T]] | E].
  - destruct P as (adv & lit & P1 & P2 & P3 & P4 & P5 & P6 & P7 & P8 & P9 & P10 & P11 & P12 & P13 & P14 & P15 & _).
    rewrite P13, P14. destruct P15 as [Q1 Q2]. destruct (Q2 ltac:(lia)) as (Q3 & Q4 & _). clear Q2.
    assert (ttype t = TNewLineChar \/ ttype t <> TNewLineChar) as [En' | En']
      by (destruct (ttype t); auto; right; discriminate).
    + destruct (Q3 En') as [-> Q5]. rewrite P8, Q5. cbn. f_equal; lia.
    + rewrite (Q4 En'). cbn [Nat.eqb].
      destruct Hot as [Hot | Hot]; [now elim En'|]. rewrite walk_line by exact Hot. f_equal; lia.
  - destruct T as (T & _). now elim Ht.
  - destruct E as (E1 & E2 & -> & ->). reflexivity.
Qed.

Lemma token_position src files ts sc pre t post :
  yields src files ts sc -> ts = pre ++ t :: post -> no_tags (pre ++ [t]) -> ttype t <> TEof ->
  Forall one_line pre ->
  (tline t, startcol t) = walk 1 1 (text_of pre)
  /\ endcol t = startcol t + List.length (lexeme t) - 1
  /\ exists after, src = text_of pre ++ lexeme t ++ after.
Proof.
  intros Hy He Hnt Hne Ho.
  destruct (token_place _ _ _ _ _ _ _ Hy He Hnt Hne) as (sc1 & sc2 & Y1 & N & P & C & S & _).
  apply Forall_app in Hnt as [Hn1 _].
  pose proof (yields_position _ _ _ _ Y1 Hn1 Ho) as W.
  destruct P as (adv & lit & P1 & P2 & P3 & P4 & P5 & P6 & P7 & P8 & P9 & P10 & P11 & _).
  rewrite P9, P10, P11. repeat split; auto. eauto.
Qed.

(** ** At the start of a line *)
Lemma nlstart_before src i before rest :
  nlstart src i -> src = before ++ rest -> i = List.length before -> at_line_start before.
Proof.
  intros H E Hi. destruct H as [-> | (j & -> & H)].
  - left. now destruct before.
  - right. destruct before as [|b before] using rev_ind; [discriminate|]. clear IHbefore.
    rewrite app_length in Hi. cbn in Hi. assert (j = List.length before) as -> by lia.
    rewrite E, <- app_assoc, nth_error_app2, Nat.sub_diag in H by lia. cbn in H.
    injection H as ->. now exists before.
Qed.

Lemma at_line_start_sc before rest sc :
  sc_src sc = before ++ rest -> sc_start sc = List.length before -> at_line_start before ->
  starts_new_line sc = true.
Proof.
  intros Hs Hi [-> | (b & ->)]; unfold starts_new_line; rewrite Hi; [reflexivity|].
  rewrite app_length. cbn. rewrite Nat.add_1_r, Hs, <- app_assoc, nth_error_app2, Nat.sub_diag by lia.
  reflexivity.
Qed.

Lemma skipn_length_app {A} (a b : list A) : skipn (List.length a) (a ++ b) = b.
Proof. induction a; cbn; auto. Qed.

Lemma is_boundary_ascii_at src k c r :
  skipn k src = c :: r -> is_cont c = false -> is_boundary src k = true.
Proof.
  intros H Hc. assert (nth_error src k = Some c) as E.
  { rewrite <- (Nat.add_0_r k), <- nth_error_skipn', H. reflexivity. }
  now apply boundary_ascii with c.
Qed.

(** what a starting scanner at a given place computes *)
Lemma next_at src files pre sc c r :
  yields src files pre sc -> no_tags pre -> skipn (List.length (text_of pre)) src = c :: r ->
  let sc1 := mkSc src (List.length (text_of pre)) (sc_startcol sc) (List.length (text_of pre))
                  (sc_line sc) (sc_scanning sc) false files in
  next sc = (let* (sc2, t) := scan_token sc1 in Ok (Some t, sc2)).
Proof.
  intros Hy Hn Hs. pose proof (yields_text _ _ _ _ Hy Hn) as [T1 T2].
  pose proof (yields_inv _ _ _ _ Hy) as (I1 & I2 & I3 & _).
  assert (sc_cur sc = List.length (text_of pre)) as C by (rewrite T1, firstn_length; lia).
  unfold next, is_at_end. rewrite C, I1.
  assert (List.length (text_of pre) < List.length src) as L.
  { assert (List.length (skipn (List.length (text_of pre)) src) = S (List.length r)) as L by now rewrite Hs.
    rewrite skipn_length in L. lia. }
  apply Nat.leb_gt in L. rewrite L. cbn [negb]. rewrite T2, I2. reflexivity.
Qed.

Lemma peeks_ahead_at sc k s r :
  skipn (sc_cur sc) (sc_src sc) = s ++ r -> List.length s = k -> s <> [] ->
  (r = [] \/ exists x r', r = x :: r' /\ is_cont x = false) -> peeks_ahead sc k = s.
Proof.
  intros H Hk Hne Hr. unfold peeks_ahead, is_at_end.
  assert (List.length (skipn (sc_cur sc) (sc_src sc)) = k + List.length r) as L
    by (rewrite H, app_length; lia).
  rewrite skipn_length in L.
  assert (0 < k) by (destruct s; [congruence|cbn in Hk; lia]).
  destruct (Nat.leb_spec (List.length (sc_src sc)) (sc_cur sc)); [lia|].
  destruct (Nat.ltb_spec (List.length (sc_src sc)) (sc_cur sc + k)); [lia|].
  assert (is_boundary (sc_src sc) (sc_cur sc + k) = true) as ->.
  { destruct Hr as [-> | (x & r' & -> & Hx)].
    - cbn in L. replace (sc_cur sc + k) with (List.length (sc_src sc)) by lia. apply boundary_end.
    - eapply is_boundary_ascii_at; [|exact Hx]. rewrite <- skipn_skipn', H, <- Hk.
      apply skipn_length_app. }
  cbn. rewrite H, <- Hk. rewrite firstn_app, Nat.sub_diag, firstn_all. cbn. now rewrite app_nil_r.
Qed.

Lemma peek_at_head sc c r :
  skipn (sc_cur sc) (sc_src sc) = c :: r -> is_cont c = false -> peek sc = c.
Proof.
  intros H Hc. unfold peek, peek_at.
  assert (nth_error (sc_src sc) (sc_cur sc) = Some c) as ->.
  { rewrite <- (Nat.add_0_r (sc_cur sc)), <- nth_error_skipn', H. reflexivity. }
  unfold peek_byte. now rewrite Hc.
Qed.
