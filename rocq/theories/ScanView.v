(** * What the tests of the scanner see, in terms of the text before and after *)
From Verif Require Import Base Location Token Scanner SpecScan SpecLex ScanLemmas ScanFacts ScanMain ScanMain2
  ScanLine ScanFail.
Local Open Scope char_scope.
Local Open Scope nat_scope.

Definition prevc (before : bytes) : ascii := match rev before with [] => NUL | x :: _ => peek_byte x end.
Definition lineb (before : bytes) : bool := match rev before with [] => true | x :: _ => Ascii.eqb x NL end.

Lemma lineb_spec before : lineb before = true <-> at_line_start before.
Proof.
  unfold lineb. destruct (destruct_last before) as [-> | (a & x & ->)].
  - cbn. split; [now left | reflexivity].
  - rewrite rev_app_distr. cbn. rewrite Ascii.eqb_eq. split.
    + intros ->. right. now exists a.
    + intros [E | (b & E)]; [destruct a; discriminate|]. apply app_inj_tail in E. now destruct E as [_ ->].
Qed.
Lemma lineb_false before : lineb before = false <-> ~ at_line_start before.
Proof. rewrite <- lineb_spec. destruct (lineb before); intuition congruence. Qed.
Lemma starts_with_begins p s : starts_with p s = true <-> begins p s.
Proof.
  unfold begins. revert s. induction p as [|x p IH]; intros s; cbn.
  - split; [intros _; now exists s | reflexivity].
  - destruct s as [|y s].
    + split; [discriminate | intros (r & E); discriminate].
    + rewrite andb_true_iff, Ascii.eqb_eq, IH. split.
      * intros (-> & r & ->). now exists r.
      * intros (r & E). injection E as -> ->. eauto.
Qed.
Lemma starts_with_not p s : starts_with p s = false <-> ~ begins p s.
Proof. rewrite <- starts_with_begins. destruct (starts_with p s); intuition congruence. Qed.
Lemma begins_app p r : begins p (p ++ r). Proof. now exists r. Qed.
Lemma begins_head x s : begins [x] s <-> exists r, s = x :: r.
Proof. reflexivity. Qed.
Lemma hd_begins x s : x <> NUL -> hd NUL s = x <-> begins [x] s.
Proof.
  intros Hx. unfold begins. destruct s as [|y s]; cbn.
  - split; [congruence | intros (r & E); discriminate].
  - split; [intros ->; now exists s | intros (r & E); congruence].
Qed.

Section View.
  #[local] Set Default Proof Using "All".
  Variable sc : scanner.
  Variable before : bytes.
  Variable c : ascii.
  Variable rest : bytes.
  Hypothesis Hsrc : sc_src sc = before ++ c :: rest.
  Hypothesis Hst : sc_start sc = List.length before.
  Hypothesis Hcur : sc_cur sc = S (List.length before).
  Hypothesis Hu : utf8 (sc_src sc).
  Hypothesis H7 : ascii7 c.

  Lemma v_at1 : at1 sc c.
  Proof. split; [|congruence]. rewrite Hsrc, Hst, nth_error_app2, Nat.sub_diag by lia. reflexivity. Qed.
  Lemma v_rest : skipn (sc_cur sc) (sc_src sc) = rest.
  Proof. rewrite Hsrc, Hcur. change (c :: rest) with ([c] ++ rest). rewrite app_assoc. replace (S (List.length before)) with (List.length (before ++ [c])) by (rewrite app_length; cbn; lia). apply skipn_length_app. Qed.
  Lemma v_start : skipn (sc_start sc) (sc_src sc) = c :: rest.
  Proof. rewrite Hsrc, Hst. apply skipn_length_app. Qed.
  Lemma v_before : firstn (sc_start sc) (sc_src sc) = before.
  Proof. rewrite Hsrc, Hst, firstn_app, Nat.sub_diag, firstn_all. cbn. apply app_nil_r. Qed.
  Lemma v_len : List.length (sc_src sc) = S (List.length before + List.length rest).
  Proof. rewrite Hsrc, app_length. cbn. lia. Qed.
  Lemma v_utf8 : utf8 rest.
  Proof. rewrite Hsrc in Hu. eapply utf8_after; [exact Hu | exact H7]. Qed.
  (** after an ASCII stretch the rest is UTF-8 again *)
  Lemma v_utf8_after s r : rest = s ++ r -> Forall ascii7 s -> utf8 r.
  Proof.
    intros E Hs. destruct (destruct_last s) as [-> | (a & x & ->)].
    - cbn in E. subst r. apply v_utf8.
    - apply Forall_app in Hs as [_ Hx]. apply Forall_inv in Hx.
      pose proof v_utf8 as U. rewrite E, <- app_assoc in U. cbn in U. eapply utf8_after; [exact U | exact Hx].
  Qed.
  Lemma v_peek : peek sc = hd NUL rest.
  Proof.
    destruct (utf8_head _ v_utf8) as [E | (x & r & E & Hx)].
    - unfold peek, peek_at. assert (nth_error (sc_src sc) (sc_cur sc) = None) as -> by (apply nth_error_None; rewrite v_len, Hcur, E; cbn; lia).
      now rewrite E.
    - rewrite E. cbn. eapply peek_at_head; [rewrite v_rest; exact E | exact Hx].
  Qed.
  Lemma v_peeks s : s <> [] -> s <> [NUL] -> Forall ascii7 s ->
    beqb (peeks_ahead sc (List.length s)) s = starts_with s rest.
  Proof.
    intros Hne Hnul Hs. destruct (starts_with s rest) eqn:E.
    - apply starts_with_begins in E as (r & E). apply beqb_eq. eapply peeks_ahead_at; [rewrite v_rest; exact E | reflexivity | exact Hne |].
      apply utf8_head. eapply v_utf8_after; eassumption.
    - apply beqb_neq. intros K. apply starts_with_not in E. apply E. apply peeks_ahead_prefix in K as (r & K); [|exact Hnul].
      rewrite v_rest in K. now exists r.
  Qed.
  Lemma v_back : peek_back sc = prevc before.
  Proof.
    unfold peek_back, prevc. destruct (destruct_last before) as [E | (a & x & E)]; rewrite Hst, E.
    - reflexivity.
    - rewrite app_length. cbn [List.length]. rewrite Nat.add_1_r, rev_app_distr. cbn [rev app].
      unfold peek_at. rewrite Hsrc, E, <- app_assoc, nth_error_app2, Nat.sub_diag by lia. reflexivity.
  Qed.
  Lemma v_line : starts_new_line sc = lineb before.
  Proof.
    unfold starts_new_line, lineb. destruct (destruct_last before) as [E | (a & x & E)]; rewrite Hst, E.
    - reflexivity.
    - rewrite app_length. cbn [List.length]. rewrite Nat.add_1_r, rev_app_distr. cbn [rev app].
      rewrite Hsrc, E, <- app_assoc, nth_error_app2, Nat.sub_diag by lia. reflexivity.
  Qed.
  Lemma v_repeat n : c <> NUL -> starts_repeated_char_line sc c (S n) = starts_with (repeat c n ++ [NL]) rest.
  Proof.
    intros Hc. unfold starts_repeated_char_line. cbn [Nat.sub]. rewrite Nat.sub_0_r.
    replace (S n) with (List.length (repeat c n ++ [NL])) at 2 by (rewrite app_length, repeat_length; cbn; lia).
    rewrite v_peeks.
    - destruct (starts_with (repeat c n ++ [NL]) rest) eqn:E; [|apply andb_false_r].
      rewrite andb_true_r. apply Nat.leb_le. apply starts_with_begins in E as (r & E).
      rewrite v_len, Hcur, E, !app_length, repeat_length. cbn. lia.
    - destruct n; discriminate.
    - destruct n; cbn; [discriminate|]. intros K. injection K as K _. congruence.
    - apply Forall_app. split; [|now repeat constructor]. apply Forall_forall. intros x Hx. apply repeat_spec in Hx. now subst.
  Qed.
  Lemma v_advance p : advance sc p = bump sc (span_len p rest).
  Proof. unfold advance. now rewrite v_rest. Qed.

  (** the byte before, when it is not ASCII *)
  Lemma v_prev_cont a x : before = a ++ [x] -> is_cont x = true <-> ~ ascii7 x.
  Proof.
    intros E. split.
    - intros H K. apply ascii7_cont in K. congruence.
    - intros H. destruct (is_cont x) eqn:Ex; [reflexivity|]. exfalso.
      rewrite Hsrc, E, <- app_assoc in Hu. cbn in Hu.
      destruct (lead_followed _ _ _ Hu H Ex) as (d & r & K & Kd). injection K as <- _.
      apply ascii7_cont in H7. congruence.
  Qed.
  Lemma v_prev_in l : In NUL l -> (forall x, In x l -> ascii7 x) ->
    memc (prevc before) l = true <-> prev_in l before.
  Proof.
    intros Hl Ha. rewrite memc_In. unfold prevc, prev_in. destruct (destruct_last before) as [-> | (a & x & E)].
    - cbn. split; [now left | intros _; exact Hl].
    - rewrite E at 1. rewrite rev_app_distr. cbn [rev app]. unfold peek_byte. split.
      + intros H. right. exists a, x. split; [exact E|].
        destruct (is_cont x) eqn:Ex; [right; now apply (v_prev_cont a) | now left].
      + intros [H | (a' & x' & E' & H)]; [rewrite E in H; destruct a; discriminate|].
        rewrite E in E'. apply app_inj_tail in E' as [_ <-].
        destruct (is_cont x) eqn:Ex; [exact Hl|]. destruct H as [H|H]; [exact H|].
        apply (v_prev_cont a x E) in H. congruence.
  Qed.
  Lemma v_prev_is y : ascii7 y -> y <> NUL -> Ascii.eqb (prevc before) y = true <-> ends [y] before.
  Proof.
    intros Hy Hn. rewrite Ascii.eqb_eq. unfold prevc, ends. destruct (destruct_last before) as [-> | (a & x & E)].
    - cbn. split; [congruence | intros (b & E); destruct b; discriminate].
    - rewrite E at 1. rewrite rev_app_distr. cbn [rev app]. rewrite peek_byte_ascii by (auto using ascii7_cont). split.
      + intros ->. now exists a.
      + intros (b & K). rewrite E in K. now apply app_inj_tail in K.
  Qed.
  Lemma v_next_in l : In NUL l -> memc (hd NUL rest) l = true <-> next_in l rest.
  Proof.
    intros Hl. rewrite memc_In. unfold next_in. destruct rest as [|x r]; cbn.
    - split; [now left | intros _; exact Hl].
    - split; [intros H; right; eauto | intros [H|(y & r' & E & H)]; [discriminate | injection E as -> _; exact H]].
  Qed.

  (** cutting a token *)
  Lemma v_token k ty lit adv sc' t : add_token (bump sc k) ty lit adv = Ok (sc', t) ->
    k <= List.length rest /\ lexeme t = c :: firstn k rest
    /\ t = validate (mkTok ty (c :: firstn k rest) (if lit then Some (c :: firstn k rest) else None)
             (sc_line sc) (sc_startcol sc) (sc_startcol sc + S k - 1) (sc_files sc))
    /\ (skipn k rest = [] \/ exists x r, skipn k rest = x :: r /\ is_cont x = false).
  Proof.
    intros H. apply add_token_ok in H. cbn [bump set_cur sc_src sc_start sc_cur sc_line sc_startcol sc_files] in H.
    destruct H as (L & _ & B & H). cbn zeta in H. destruct H as (Et & _).
    rewrite v_len, Hcur in L. rewrite v_start, Hst, Hcur in Et.
    replace (S (List.length before) + k - List.length before) with (S k) in Et by lia. cbn [firstn] in Et.
    assert (List.length (c :: firstn k rest) = S k) as El by (cbn; rewrite firstn_length; lia). rewrite El in Et.
    split; [lia|]. split; [rewrite Et; apply validate_fields|]. split; [exact Et|].
    assert (nth_error (sc_src sc) (sc_cur sc + k) = nth_error rest k) as En by (rewrite <- nth_error_skipn', v_rest; reflexivity).
    destruct (skipn k rest) as [|x r] eqn:Es; [now left | right]. exists x, r. split; [reflexivity|].
    assert (nth_error rest k = Some x) as Ex by (rewrite <- (Nat.add_0_r k), <- nth_error_skipn', Es; reflexivity).
    unfold is_boundary in B. rewrite En, Ex in B. rewrite Hcur in B. cbn in B. now apply negb_true_iff in B.
  Qed.
  Lemma v_token_ok s r ty lit adv : rest = s ++ r -> (r = [] \/ exists x r', r = x :: r' /\ is_cont x = false) ->
    exists sc', add_token (bump sc (List.length s)) ty lit adv =
      Ok (sc', validate (mkTok ty (c :: s) (if lit then Some (c :: s) else None)
             (sc_line sc) (sc_startcol sc) (sc_startcol sc + S (List.length s) - 1) (sc_files sc))).
  Proof.
    intros E Hr. destruct (add_token_at (bump sc (List.length s)) ty lit adv (c :: s) r) as (sc' & t & K & Et & _).
    - cbn [bump set_cur sc_start sc_src]. rewrite v_start, E. reflexivity.
    - cbn [bump set_cur sc_start sc_cur List.length]. lia.
    - discriminate.
    - exists c, s. split; [reflexivity | now apply ascii7_cont].
    - exact Hr.
    - exists sc'. rewrite K. now rewrite Et.
  Qed.
End View.
