(** * When the scanner panics or hangs *)
From Verif Require Import Base Location Token Scanner SpecScan ScanLemmas ScanFacts ScanMain ScanMain2
  ScanLine.
Local Open Scope char_scope.
Local Open Scope nat_scope.

Lemma ascii7_cont c : ascii7 c -> is_cont c = false.
Proof.
  unfold ascii7. destruct c as [b0 b1 b2 b3 b4 b5 b6 b7]. cbn.
  destruct b7; [|reflexivity].
  destruct b0, b1, b2, b3, b4, b5, b6; vm_compute; discriminate.
Qed.

Lemma ascii7_dec c : ascii7 c \/ ~ ascii7 c.
Proof. unfold ascii7. lia. Qed.

(** after an ASCII character comes a character boundary *)
Lemma utf8_boundary src k c :
  utf8 src -> nth_error src k = Some c -> ascii7 c -> is_boundary src (S k) = true.
Proof.
  intros Hu Hk Hc. destruct (nth_error_split _ _ Hk) as (a & b & E & L).
  rewrite E in Hu. pose proof (utf8_after _ _ _ Hu Hc) as Hb.
  apply utf8_head in Hb as [-> | (x & r & -> & Hx)].
  - replace (S k) with (List.length src) by (rewrite E, app_length; cbn; lia). apply boundary_end.
  - apply boundary_ascii with x; [|exact Hx].
    rewrite E, nth_error_app2, L by lia. replace (S k - k) with 1 by lia. reflexivity.
Qed.

Lemma advance_boundary sc p :
  p NUL = true -> sc_cur sc <= List.length (sc_src sc) ->
  is_boundary (sc_src sc) (sc_cur (advance sc p)) = true.
Proof.
  intros Hp Hle. unfold advance. cbn.
  set (l := skipn (sc_cur sc) (sc_src sc)).
  destruct (nth_error l (span_len p l)) as [b|] eqn:E.
  - pose proof (span_len_stop _ _ _ E) as Hs. unfold l in E at 1. rewrite nth_error_skipn' in E.
    apply boundary_ascii with b; [exact E|]. unfold peek_byte in Hs.
    destruct (is_cont b); [congruence | reflexivity].
  - apply nth_error_None in E. pose proof (span_len_le p l) as Hl.
    assert (List.length l = List.length (sc_src sc) - sc_cur sc) as L by apply skipn_length.
    replace (sc_cur sc + span_len p l) with (List.length (sc_src sc)) by lia. apply boundary_end.
Qed.

Lemma lead_followed a x r : utf8 (a ++ x :: r) -> ~ ascii7 x -> is_cont x = false ->
  exists d r', r = d :: r' /\ is_cont d = true.
Proof.
  assert (forall d, byte_in 128 191 d -> is_cont d = true) as K.
  { intros d [H1 H2]. destruct d as [b0 b1 b2 b3 b4 b5 b6 b7]. cbn.
    destruct b7; [destruct b6; [|reflexivity]|]; exfalso; destruct b0, b1, b2, b3, b4, b5; try destruct b6; vm_compute in H1, H2; congruence. }
  intros H. remember (a ++ x :: r) as s eqn:E. revert a E. unfold ascii7.
  induction H as [|c1 s H1 Hs IH | c1 c2 s H1 H2 Hs IH | c1 c2 c3 s H1 H2 H3 Hs IH | c1 c2 c3 c4 s H1 H2 H3 H4 Hs IH];
    intros a E Hx Hc.
  - now destruct a.
  - destruct a as [|? a]; inversion E; subst; [unfold byte_in in H1; lia | eauto].
  - destruct a as [|? [|? a]]; inversion E; subst; [eauto | rewrite K in Hc by assumption; discriminate | eauto].
  - destruct a as [|? [|? [|? a]]]; inversion E; subst; [eauto | rewrite K in Hc by assumption; discriminate.. | eauto].
  - destruct a as [|? [|? [|? [|? a]]]]; inversion E; subst; [eauto | rewrite K in Hc by assumption; discriminate.. | eauto].
Qed.
Lemma punct_spec c : is_punct c = true <-> punctuation c.
Proof.
  assert (is_punct c = ((33 <=? N_of_ascii c)%N && (N_of_ascii c <=? 126)%N && negb (is_ascii_alnum c))) as ->
    by (destruct c as [[] [] [] [] [] [] [] []]; reflexivity).
  unfold punctuation. rewrite !andb_true_iff, !N.leb_le, negb_true_iff. tauto.
Qed.
Lemma latin1_ascii c : ascii7 c -> is_alnum_latin1 c = is_ascii_alnum c.
Proof.
  intros H. unfold is_alnum_latin1. unfold ascii7 in H. match goal with |- _ || ?b = _ => assert (b = false) as ->; [|apply orb_false_r] end. apply Bool.not_true_is_false. intros E.
  repeat (apply orb_prop in E as [E|E]); rewrite ?andb_true_iff, ?N.eqb_eq, ?N.leb_le in E; lia.
Qed.
Lemma high_not_punct x : ~ ascii7 x -> is_punct x = false.
Proof. intros H. apply Bool.not_true_is_false. rewrite punct_spec. unfold punctuation, ascii7 in *. lia. Qed.

Lemma add_token_safe sc ty lit adv :
  sc_start sc <= sc_cur sc -> sc_cur sc <= List.length (sc_src sc) ->
  is_boundary (sc_src sc) (sc_start sc) = true -> is_boundary (sc_src sc) (sc_cur sc) = true ->
  exists o, add_token sc ty lit adv = Ok o.
Proof.
  intros H1 H2 H3 H4. unfold add_token, slice. rewrite H3, H4.
  apply Nat.leb_le in H1, H2. rewrite H1, H2. cbn. eauto.
Qed.

Definition outcome (before rest : bytes) (r : result (scanner * token)) : Prop :=
  (r = Panic -> breaks before rest) /\ (r = Hang -> unclosed before rest).

Lemma outcome_ok b r x : outcome b r (Ok x).
Proof. split; discriminate. Qed.
Lemma outcome_err b r e : outcome b r (Err e).
Proof. split; discriminate. Qed.
Lemma outcome_if b r (t : bool) x y :
  (t = true -> outcome b r x) -> (t = false -> outcome b r y) -> outcome b r (if t then x else y).
Proof. destruct t; auto. Qed.

Lemma in_skipn {A} (x : A) n l : In x (skipn n l) -> In x l.
Proof. intros H. rewrite <- (firstn_skipn n l). apply in_or_app. now right. Qed.

Lemma destruct_last {A} (l : list A) : l = [] \/ exists a x, l = a ++ [x].
Proof. destruct l as [|x a] using rev_ind; eauto. Qed.

Section Fail.
  Variable sc : scanner.
  Variable c : ascii.
  Hypothesis A1 : at1 sc c.
  Hypothesis Hu : utf8 (sc_src sc).
  Hypothesis Hb : is_boundary (sc_src sc) (sc_start sc) = true.
  Hypothesis Ht : sc_tagend sc = false.

  Let src := sc_src sc.
  Let i := sc_start sc.
  Let before := firstn i src.
  Let rest := skipn i src.
  Notation O r := (outcome (firstn (sc_start sc) (sc_src sc)) (skipn (sc_start sc) (sc_src sc)) r).

  Lemma cur_eq : sc_cur sc = S (sc_start sc).
  Proof. exact (proj2 A1). Qed.
  Lemma cur_le : sc_cur sc <= List.length (sc_src sc).
  Proof. exact (at1_len sc c A1). Qed.
  Lemma rest_eq : skipn (sc_start sc) (sc_src sc) = c :: skipn (sc_cur sc) (sc_src sc).
  Proof. exact (at1_skipn sc c A1). Qed.

  Lemma cur_boundary : ascii7 c -> is_boundary (sc_src sc) (sc_cur sc) = true.
  Proof. intros Hc. rewrite cur_eq. eapply utf8_boundary; [exact Hu | exact (proj1 A1) | exact Hc]. Qed.

  (** a token ending at a boundary in range is no trouble *)
  Lemma o_at sc2 ty lit adv :
    set_cur sc (sc_cur sc2) = sc2 -> sc_start sc <= sc_cur sc2 <= List.length (sc_src sc) ->
    is_boundary (sc_src sc) (sc_cur sc2) = true -> O (add_token sc2 ty lit adv).
  Proof.
    intros E L B. destruct (add_token_safe sc2 ty lit adv) as [o ->]; try (rewrite <- E; cbn; assumption || lia).
    apply outcome_ok.
  Qed.

  Lemma o_same ty lit adv : ascii7 c -> O (add_token sc ty lit adv).
  Proof.
    intros Hc. apply o_at; [apply set_cur_id | pose proof cur_le; pose proof cur_eq; lia | now apply cur_boundary].
  Qed.

  (** after [k] further ASCII characters *)
  Lemma o_bump k s ty lit adv :
    ascii7 c -> firstn k (skipn (sc_cur sc) (sc_src sc)) = s -> List.length s = k -> Forall ascii7 s ->
    O (add_token (bump sc k) ty lit adv).
  Proof.
    intros Hc H L Ha.
    assert (k <= List.length (skipn (sc_cur sc) (sc_src sc))) as L'.
    { rewrite <- H, firstn_length in L. lia. }
    rewrite skipn_length in L'. pose proof cur_le. pose proof cur_eq.
    apply o_at; [reflexivity | cbn; lia |]. cbn.
    destruct k as [|k]; [rewrite Nat.add_0_r; now apply cur_boundary|].
    rewrite Nat.add_succ_r.
    destruct (nth_error (sc_src sc) (sc_cur sc + k)) as [x|] eqn:E.
    - eapply utf8_boundary; [exact Hu | exact E|].
      rewrite Forall_forall in Ha. apply Ha. rewrite <- H.
      rewrite <- nth_error_skipn' in E. apply nth_error_In with (n := k).
      rewrite <- (firstn_skipn (S k) (skipn (sc_cur sc) (sc_src sc))) in E.
      rewrite nth_error_app1 in E; [exact E|]. rewrite H, L. lia.
    - apply nth_error_None in E. lia.
  Qed.

  Lemma o_peek x ty lit adv : ascii7 c -> ascii7 x -> x <> NUL -> peek sc = x ->
    O (add_token (bump sc 1) ty lit adv).
  Proof.
    intros Hc Hx Hn H. apply (o_bump 1 [x]); [exact Hc | | reflexivity | now repeat constructor].
    apply peek_firstn; auto. now apply ascii7_cont.
  Qed.

  Lemma o_text2 sc2 : set_cur sc (sc_cur sc2) = sc2 -> sc_start sc <= sc_cur sc2 <= List.length (sc_src sc) ->
    O (add_text_until_next_markup sc2).
  Proof.
    intros E L. unfold add_text_until_next_markup.
    pose proof (advance_cur_le sc2 (fun c0 => negb (memc c0 markup_chars))) as La.
    pose proof (advance_boundary sc2 (fun c0 => negb (memc c0 markup_chars)) eq_refl) as Lb.
    assert (sc_src sc2 = sc_src sc) as Es by (rewrite <- E; reflexivity).
    rewrite Es in La, Lb.
    apply o_at.
    - rewrite <- E. reflexivity.
    - lia.
    - apply Lb. lia.
  Qed.
  Lemma o_text : O (add_text_until_next_markup sc).
  Proof. apply o_text2; [apply set_cur_id | pose proof cur_le; pose proof cur_eq; lia]. Qed.

  Lemma o_end_tag_line : starts_end_tag_line sc = false.
  Proof. unfold starts_end_tag_line. now rewrite Ht. Qed.

  Lemma in_boundary n x : nth_error (sc_src sc) n = Some x -> ascii7 x ->
    S n <= List.length (sc_src sc) /\ is_boundary (sc_src sc) (S n) = true.
  Proof.
    intros H Hx. split; [|eapply utf8_boundary; eassumption].
    assert (nth_error (sc_src sc) n <> None) as K by congruence. apply nth_error_Some in K. lia.
  Qed.

  Lemma o_until_bracket ty :
    (~ In "]" (skipn (sc_cur sc) (sc_src sc)) ->
     unclosed (firstn (sc_start sc) (sc_src sc)) (skipn (sc_start sc) (sc_src sc))) ->
    O (add_until_bracket sc ty).
  Proof.
    intros H. unfold add_until_bracket, advance_or_hang.
    pose proof cur_le as L. pose proof cur_eq as L'.
    destruct (advance_until sc "]" eq_refl ltac:(discriminate) L) as [[E1 E2] | (E1 & E2 & E3)].
    - unfold is_at_end. rewrite E1. cbn [sc_src advance bump set_cur]. rewrite Nat.leb_refl. cbn.
      split; [discriminate | auto].
    - unfold is_at_end. cbn [sc_src advance bump set_cur] in *.
      apply Nat.leb_gt in E2. rewrite E2. cbn [bind].
      destruct (in_boundary _ _ E1 eq_refl) as [B1 B2].
      apply o_at; [reflexivity | cbn in *; lia |].
      cbn [bump set_cur sc_cur sc_src]. rewrite Nat.add_1_r. exact B2.
  Qed.

  Lemma o_tag :
    (~ In "]" (skipn (sc_cur sc) (sc_src sc)) ->
     breaks (firstn (sc_start sc) (sc_src sc)) (skipn (sc_start sc) (sc_src sc))) ->
    O (add_tag sc).
  Proof.
    intros H. unfold add_tag. rewrite Ht. cbn [bind].
    pose proof cur_le as L. pose proof cur_eq as L'.
    destruct (advance_until sc "]" eq_refl ltac:(discriminate) L) as [[E1 E2] | (E1 & E2 & E3)].
    - set (sc1 := bump (advance sc _) 1).
      assert (sc_cur sc1 = S (List.length (sc_src sc))) as C by (unfold sc1; cbn in *; lia).
      unfold slice. rewrite C. change (sc_src sc1) with (sc_src sc).
      assert (S (List.length (sc_src sc)) <=? List.length (sc_src sc) = false) as -> by (apply Nat.leb_gt; lia).
      rewrite andb_false_r. cbn. split; [auto | discriminate].
    - set (sc1 := bump (advance sc _) 1).
      destruct (in_boundary _ _ E1 eq_refl) as [B1 B2].
      assert (sc_cur sc1 = S (sc_cur (advance sc (fun x => negb (x == "]"))))) as C by (unfold sc1; cbn in *; lia).
      rewrite <- C in B1, B2.
      assert (sc_start sc <= sc_cur sc1) as L2 by (unfold sc1; cbn; lia).
      assert (forall E, exists text, slice (E := E) (sc_src sc1) (sc_start sc1) (sc_cur sc1) = Ok text) as Hs.
      { intros E. unfold slice. change (sc_src sc1) with (sc_src sc). change (sc_start sc1) with (sc_start sc).
        rewrite Hb, B2. apply Nat.leb_le in B1, L2. rewrite B1, L2. cbn. eauto. }
      destruct (Hs error) as [text Hs']. rewrite Hs'. cbn [bind].
      assert (forall ty exp, O (let* (sc3, tok) := add_token
                (mkSc (sc_src sc1) (sc_start sc1) (sc_startcol sc1) (sc_cur sc1) (sc_line sc1)
                      (sc_scanning sc1) exp (sc_files sc1)) ty true 1 in
               let sc4 := advance sc3 (fun c => negb (Ascii.eqb c NL)) in
               let sc5 := if Ascii.eqb (peek sc4) NL then bump sc4 1 else sc4 in
               Ok (sc5, tok))) as K.
      { intros ty exp. unfold add_token. cbn [sc_src sc_start sc_cur]. rewrite Hs'. cbn. apply outcome_ok. }
      destruct (contains (bs "tag") text); [apply K|].
      destruct (contains (bs "end") text); [apply K|]. apply outcome_err.
  Qed.

  Lemma o_inline ty1 ty2 : ascii7 c -> c <> NUL -> O (handle_inline_formatting sc c ty1 ty2).
  Proof.
    intros Hc Hn. unfold handle_inline_formatting.
    apply outcome_if; intros _; [apply o_text|].
    apply outcome_if; intros H.
    - apply Ascii.eqb_eq in H. now apply (o_peek c).
    - apply outcome_if; intros _; [now apply o_same | apply o_text].
  Qed.

  Lemma repeated_firstn n : starts_repeated_char_line sc c (S n) = true -> c <> NUL ->
    firstn n (skipn (sc_cur sc) (sc_src sc)) = repeat c n.
  Proof.
    intros H Hc. apply repeated_line in H; [|discriminate|exact Hc]. cbn [Nat.sub] in H.
    rewrite Nat.sub_0_r in H.
    apply (firstn_app_nth _ n (repeat c n) NL) in H as [H1 H2]; [exact H1|]. apply repeat_length.
  Qed.

  Lemma o_repeated n ty lit : ascii7 c -> starts_repeated_char_line sc c (S n) = true -> c <> NUL ->
    O (add_token (bump sc n) ty lit 0).
  Proof.
    intros Hc H Hn. apply (o_bump n (repeat c n)); [exact Hc | now apply repeated_firstn | apply repeat_length |].
    apply Forall_forall. intros x Hx. apply repeat_spec in Hx. now subst x.
  Qed.

  Lemma o_apostrophe : c = "'" -> O (scan_apostrophe sc c).
  Proof.
    intros Hc. assert (ascii7 c) as H7 by (subst c; reflexivity).
    unfold scan_apostrophe. rewrite o_end_tag_line.
    cbn [andb].
    apply outcome_if; intros H.
    { apply o_repeated; auto. subst c. discriminate. }
    apply outcome_if; intros H'.
    { eqb_subst. now apply (o_peek "`"). }
    apply outcome_if; intros _; [now apply o_same | apply o_text].
  Qed.

  (** *** cross references and anchors *)
  Lemma boundary_loop_ok stop s s' : stop <> [] -> Forall ascii7 stop -> forall fuel cur,
    Forall ascii7 s -> is_boundary (sc_src sc) cur = true ->
    skipn cur (sc_src sc) = s ++ stop ++ s' -> List.length s <= fuel ->
    exists n, boundary_loop (sc_src sc) stop fuel cur = Ok n
              /\ cur <= n /\ firstn (List.length stop) (skipn n (sc_src sc)) = stop.
  Proof.
    intros Hne Hst. induction s as [|x s IH]; intros fuel cur Hs Hbd E Hf.
    - assert (List.length (skipn cur (sc_src sc)) = List.length stop + List.length s') as L
        by (rewrite E; cbn; now rewrite app_length).
      rewrite skipn_length in L.
      assert (0 < List.length stop) by (destruct stop; [congruence | cbn; lia]).
      exists cur.
      assert (firstn (List.length stop) (skipn cur (sc_src sc)) = stop) as Ef.
      { rewrite E. cbn [app]. rewrite firstn_app, Nat.sub_diag, firstn_all. cbn. now rewrite app_nil_r. }
      split; [|split; [lia | exact Ef]].
      assert (is_boundary (sc_src sc) (cur + List.length stop) = true) as Hb2.
      { destruct (destruct_last stop) as [K | (a & y & K)]; [congruence|].
        subst stop. rewrite app_length. cbn [List.length]. rewrite Nat.add_1_r, Nat.add_succ_r.
        apply (in_boundary _ y).
        - rewrite <- nth_error_skipn', E. cbn [app]. rewrite <- app_assoc, nth_error_app2, Nat.sub_diag by lia. reflexivity.
        - apply Forall_app in Hst as [_ Hst]. now apply Forall_inv in Hst. }
      destruct fuel; cbn [boundary_loop];
      (destruct (Nat.leb_spec (List.length (sc_src sc)) cur); [lia|];
       destruct (Nat.ltb_spec (List.length (sc_src sc)) (cur + List.length stop)); [lia|];
       rewrite Hb2, Hbd; cbn [negb]; rewrite Ef, beqb_refl; reflexivity).
    - assert (List.length (skipn cur (sc_src sc)) = S (List.length s + (List.length stop + List.length s'))) as L
        by (rewrite E; cbn; now rewrite !app_length).
      rewrite skipn_length in L.
      assert (nth_error (sc_src sc) cur = Some x) as Ex.
      { rewrite <- (Nat.add_0_r cur), <- nth_error_skipn', E. reflexivity. }
      inversion Hs as [|x0 s0 Hx Hs']; subst x0 s0.
      destruct (in_boundary _ _ Ex Hx) as [_ Hb2].
      assert (skipn (S cur) (sc_src sc) = s ++ stop ++ s') as E2.
      { rewrite <- Nat.add_1_r, <- skipn_skipn', E. reflexivity. }
      destruct fuel as [|f]; [cbn in Hf; lia|]. cbn in Hf.
      destruct (IH f (S cur) Hs' Hb2 E2 ltac:(lia)) as (n & N1 & N2 & N3).
      cbn [boundary_loop].
      destruct (Nat.leb_spec (List.length (sc_src sc)) cur); [lia|].
      destruct (Nat.ltb_spec (List.length (sc_src sc)) (cur + List.length stop));
        [exists n; repeat split; auto; lia|].
      destruct (is_boundary (sc_src sc) (cur + List.length stop)); cbn [negb];
        [|exists n; repeat split; auto; lia].
      rewrite Hbd. cbn [negb].
      destruct (beqb (firstn (List.length stop) (skipn cur (sc_src sc))) stop) eqn:Eb.
      + apply beqb_eq in Eb. exists cur. auto.
      + exists n; repeat split; auto; lia.
  Qed.

  Lemma boundary_loop_no_hang stop fuel cur :
    List.length (sc_src sc) - cur <= fuel -> boundary_loop (sc_src sc) stop fuel cur <> Hang.
  Proof.
    revert cur. induction fuel as [|f IH]; intros cur Hf; cbn [boundary_loop];
    (destruct (Nat.leb_spec (List.length (sc_src sc)) cur); [discriminate|]); [lia|].
    specialize (IH (S cur) ltac:(lia)).
    repeat match goal with |- (if ?b then _ else _) <> _ => destruct b end; auto; discriminate.
  Qed.

  Lemma o_until_stop stop ty x :
    ascii7 c -> 2 <= List.length stop -> Forall ascii7 stop ->
    peek sc = x -> ascii7 x -> x <> NUL ->
    (~ (exists s s', skipn (S (sc_cur sc)) (sc_src sc) = s ++ stop ++ s' /\ Forall ascii7 s) ->
     breaks (firstn (sc_start sc) (sc_src sc)) (skipn (sc_start sc) (sc_src sc))) ->
    O (add_until_stop sc stop ty).
  Proof.
    intros Hc H2 Hst Hp Hx Hxn H. unfold add_until_stop.
    pose proof (boundary_loop_no_hang stop (List.length (sc_src sc)) (sc_cur sc) ltac:(lia)) as Hnh.
    pose proof cur_le as L. pose proof cur_eq as L'.
    split; intros E.
    - apply H. intros (s & s' & Es & Hs).
      assert (skipn (sc_cur sc) (sc_src sc) = (x :: s) ++ stop ++ s') as Ex.
      { rewrite (peek_skipn sc x) by (auto using ascii7_cont). now rewrite Es. }
      destruct (boundary_loop_ok stop (x :: s) s' ltac:(intros K; subst stop; cbn in H2; lia) Hst
                  (List.length (sc_src sc)) (sc_cur sc)) as (n & N1 & N2 & N3).
      + now constructor.
      + now apply cur_boundary.
      + exact Ex.
      + assert (List.length (skipn (sc_cur sc) (sc_src sc)) = List.length ((x :: s) ++ stop ++ s')) as K
          by now rewrite Ex.
        rewrite skipn_length, !app_length in K. lia.
      + rewrite N1 in E. cbn [bind] in E.
        destruct stop as [|y1 [|y2 stop]]; [cbn in H2; lia..|].
        assert (nth_error (sc_src sc) (n + 1) = Some y2) as Ey.
        { rewrite <- nth_error_skipn'. destruct (skipn n (sc_src sc)) as [|z1 [|z2 z]]; cbn in N3; try discriminate.
          injection N3 as _ -> _. reflexivity. }
        assert (ascii7 y2) as Hy by (apply Forall_inv_tail in Hst; now apply Forall_inv in Hst).
        destruct (in_boundary _ _ Ey Hy) as [B1 B2].
        destruct (add_token_safe (set_cur sc (n + 2)) ty true 0) as [o Eo]; cbn; try lia.
        * exact Hb.
        * replace (n + 2) with (S (n + 1)) by lia. exact B2.
        * rewrite Eo in E. discriminate.
    - destruct (boundary_loop _ _ _ _) as [n| | | |]; try discriminate; [|now elim Hnh].
      cbn in E. unfold add_token, slice in E.
      destruct (_ && _); discriminate.
  Qed.

  Lemma line_before : starts_new_line sc = true -> at_line_start (firstn (sc_start sc) (sc_src sc)).
  Proof.
    intros H. apply starts_new_line_spec in H.
    eapply nlstart_before; [exact H | symmetry; apply firstn_skipn |].
    rewrite firstn_length. pose proof cur_le. pose proof cur_eq. lia.
  Qed.

  Lemma callout_spec sc1 b sc2 : set_cur sc (sc_cur sc1) = sc1 ->
    sc_cur sc <= sc_cur sc1 <= List.length (sc_src sc) ->
    is_boundary (sc_src sc) (sc_cur sc1) = true ->
    callout_loop sc1 = (b, sc2) ->
    set_cur sc (sc_cur sc2) = sc2 /\ sc_cur sc <= sc_cur sc2 <= List.length (sc_src sc)
    /\ (b = true -> is_boundary (sc_src sc) (sc_cur sc2) = true).
  Proof.
    intros E L B. unfold callout_loop. set (sc' := advance sc1 _).
    assert (sc_src sc1 = sc_src sc) as Es by (rewrite <- E; reflexivity).
    pose proof (advance_cur_le sc1 (fun c0 => negb (c0 == ">") && is_digit c0)) as La. fold sc' in La.
    rewrite Es in La. specialize (La ltac:(lia)).
    assert (set_cur sc (sc_cur sc') = sc') as E' by (unfold sc'; rewrite <- E; reflexivity).
    destruct (peek sc' == ">") eqn:P; intros H; injection H as <- <-.
    - apply Ascii.eqb_eq in P. apply peek_at_some in P; [|reflexivity|discriminate].
      assert (sc_src sc' = sc_src sc) as Es' by (rewrite <- E'; reflexivity). rewrite Es' in P.
      destruct (in_boundary _ _ P eq_refl) as [B1 B2].
      unfold bump. cbn [sc_cur set_cur]. rewrite Nat.add_1_r. repeat split; try lia; auto.
      rewrite <- E'. reflexivity.
    - repeat split; try lia; auto.
  Qed.

  Lemma o_lt : c = "<" -> O (scan_lt sc c).
  Proof.
    intros Hc. assert (ascii7 c) as H7 by (subst c; reflexivity).
    unfold scan_lt. rewrite o_end_tag_line.
    cbn [andb].
    apply outcome_if; intros H.
    { apply o_repeated; auto. subst c. discriminate. }
    apply outcome_if; intros H'.
    { apply memc_In in H' as [H'|[H'|[]]]; symmetry in H'; [apply (o_peek "-") | apply (o_peek "=")]; auto; reflexivity || discriminate. }
    apply outcome_if; intros H''.
    { eqb_subst. eapply (o_until_stop (bs ">>") _ "<"); auto; try reflexivity; try discriminate.
      - repeat constructor.
      - intros K. rewrite rest_eq, (peek_skipn sc "<") by (auto; discriminate). subst c.
        change ("<" :: "<" :: ?r) with (bs "<<" ++ r). apply br_xref; [|exact K]. intros (t & Et).
        assert (skipn (sc_cur sc) (sc_src sc) = bs "<<" ++ NL :: t) as Es by (rewrite (peek_skipn sc "<") by (auto; discriminate); rewrite Et; reflexivity).
        assert (starts_repeated_char_line sc "<" 3 = true) as X; [|congruence].
        unfold starts_repeated_char_line. apply andb_true_iff. split.
        + apply Nat.leb_le. pose proof (f_equal (@List.length ascii) Es) as El. rewrite skipn_length in El. cbn in El. lia.
        + apply beqb_eq. change (repeat "<" (3 - 1) ++ [NL]) with (bs "<<" ++ [NL]).
          eapply peeks_ahead_at; [rewrite Es; change (bs "<<" ++ NL :: t) with ((bs "<<" ++ [NL]) ++ t); reflexivity|reflexivity|discriminate|].
          apply utf8_head. apply (utf8_after (firstn (sc_cur sc) (sc_src sc) ++ bs "<<") NL); [|reflexivity].
          rewrite <- app_assoc. change (bs "<<" ++ NL :: t) with (bs "<<" ++ NL :: t). rewrite <- Es, firstn_skipn. exact Hu. }
    destruct (if starts_new_line sc then starts_code_callout_list_item sc else (false, sc))
      as [is_item sc1] eqn:E1.
    assert (set_cur sc (sc_cur sc1) = sc1 /\ sc_cur sc <= sc_cur sc1 <= List.length (sc_src sc)
            /\ (is_item = true -> is_boundary (sc_src sc) (sc_cur sc1) = true /\ peek sc1 = SP)) as (B1 & B2 & B3).
    { destruct (starts_new_line sc).
      - unfold starts_code_callout_list_item in E1. destruct (callout_loop sc) as [b sc'] eqn:E2.
        injection E1 as <- <-.
        destruct (callout_spec sc b sc' (set_cur_id _) ltac:(pose proof cur_le; lia) (cur_boundary H7) E2)
          as (K1 & K2 & K3).
        split; [exact K1|]. split; [lia|]. intros Hz. apply andb_true_iff in Hz as [-> Hp].
        split; [auto | now apply Ascii.eqb_eq].
      - injection E1 as <- <-. pose proof cur_le. split; [apply set_cur_id|]. split; [lia|discriminate]. }
    apply outcome_if; intros Hi.
    { destruct (B3 Hi) as [B4 B5]. apply peek_at_some in B5; [|reflexivity|discriminate].
      assert (sc_src sc1 = sc_src sc) as Es by (rewrite <- B1; reflexivity). rewrite Es in B5.
      destruct (in_boundary _ _ B5 eq_refl) as [K1 K2]. pose proof cur_eq.
      apply o_at; [rewrite <- B1; reflexivity | cbn; lia |].
      cbn [bump set_cur sc_cur]. rewrite Nat.add_1_r. exact K2. }
    destruct (starts_code_callout sc1) as [is_callout sc2] eqn:E2.
    unfold starts_code_callout, callout_loop in E2.
    assert (set_cur sc (sc_cur sc2) = sc2 /\ sc_cur sc <= sc_cur sc2 <= List.length (sc_src sc)
            /\ (is_callout = true -> is_boundary (sc_src sc) (sc_cur sc2) = true)) as (C1 & C2 & C3).
    { assert (sc_src sc1 = sc_src sc) as Es by (rewrite <- B1; reflexivity).
      set (sc' := advance sc1 _) in E2.
      pose proof (advance_cur_le sc1 (fun c0 => negb (c0 == ">") && is_digit c0)) as La. fold sc' in La.
      rewrite Es in La. specialize (La ltac:(lia)).
      assert (set_cur sc (sc_cur sc') = sc') as E' by (unfold sc'; rewrite <- B1; reflexivity).
      assert (sc_src sc' = sc_src sc) as Es' by (rewrite <- E'; reflexivity).
      destruct (peek sc' == ">") eqn:P; cbn [andb] in E2; injection E2 as <- <-.
      - apply Ascii.eqb_eq in P. apply peek_at_some in P; [|reflexivity|discriminate].
        rewrite Es' in P. destruct (in_boundary _ _ P eq_refl) as [K1 K2].
        unfold bump. cbn [sc_cur set_cur]. rewrite Nat.add_1_r. repeat split; try lia; auto.
        rewrite <- E'. reflexivity.
      - repeat split; try lia; auto. }
    pose proof cur_eq.
    apply outcome_if; intros Hk.
    - apply o_at; auto. lia.
    - apply o_text2; auto. lia.
  Qed.

  (** *** headings and delimiters *)
  Lemma o_heading : c = "=" -> starts_new_line sc = true -> O (add_heading sc).
  Proof.
    intros Hc Hnl. apply line_before in Hnl. unfold add_heading.
    set (k := span_len (fun x => x == "=") (skipn (sc_cur sc) (sc_src sc))).
    set (sc2 := bump (advance sc (fun c0 => c0 == "=")) 1).
    pose proof cur_le as L. pose proof cur_eq as L'.
    assert (H2 : sc_cur sc2 = S (sc_cur sc + k)) by (cbn; fold k; lia).
    assert (Hk : sc_cur sc2 - 1 - sc_start sc = S k) by lia.
    rewrite Hk.
    pose proof (span_len_eq_repeat "=" (skipn (sc_cur sc) (sc_src sc)) eq_refl ltac:(discriminate)) as Hr.
    cbn zeta in Hr. fold k in Hr.
    assert (Hrest : skipn (sc_start sc) (sc_src sc) = repeat "=" (S k) ++ skipn (sc_cur sc + k) (sc_src sc)).
    { rewrite rest_eq, Hc. cbn [repeat app]. f_equal.
      rewrite <- (firstn_skipn k (skipn (sc_cur sc) (sc_src sc))) at 1.
      rewrite Hr, skipn_skipn'. reflexivity. }
    assert (forall ty, heading_type (S k) <> None -> O (add_token sc2 ty false 0)) as K.
    { intros ty Hty. destruct (nth_error (sc_src sc) (sc_cur sc + k)) as [x|] eqn:Ex.
      - destruct (ascii7_dec x) as [Hx | Hx].
        + destruct (in_boundary _ _ Ex Hx) as [B1 B2].
          apply o_at; [reflexivity | lia |]. rewrite H2. exact B2.
        + split; intros E.
          * rewrite Hrest, (skipn_nth _ _ _ Ex). now apply br_heading.
          * unfold add_token, slice in E. destruct (_ && _); discriminate.
      - split; intros E.
        + rewrite Hrest. apply nth_error_None in Ex. rewrite skipn_all2 by exact Ex.
          rewrite app_nil_r. now apply br_heading_end.
        + unfold add_token, slice in E. destruct (_ && _); discriminate. }
    clearbody k. destruct k as [|[|[|[|[|k]]]]]; try (apply K; discriminate).
    apply outcome_err.
  Qed.

  Lemma o_nl_line ty lit : O (add_token (advance sc (fun c => negb (c == NL))) ty lit 0).
  Proof.
    pose proof cur_le as L. pose proof cur_eq as L'.
    pose proof (advance_cur_le sc (fun c => negb (c == NL)) L).
    apply o_at; [reflexivity | lia | apply advance_boundary; auto].
  Qed.

  Lemma o_delim_inner : memc c ["+"; "*"; "-"; "_"; "/"; "="; "."] = true -> O (scan_delim_inner sc c).
  Proof.
    intros Hc.
    assert (ascii7 c /\ c <> NUL) as [H7 Hn].
    { apply memc_In in Hc. destruct Hc as [<-|[<-|[<-|[<-|[<-|[<-|[<-|[]]]]]]]]; split; reflexivity || discriminate. }
    unfold scan_delim_inner. rewrite ?o_end_tag_line.
    Local Ltac pk := eqb_subst; match goal with H : peek _ = ?x |- _ => apply (o_peek x); auto; reflexivity || discriminate end.
    repeat match goal with
    | |- outcome _ _ (if ?b then _ else _) => apply outcome_if; intros ?
    | |- outcome _ _ (add_text_until_next_markup sc) => apply o_text
    | |- outcome _ _ (handle_inline_formatting _ _ _ _) => apply o_inline; auto
    | |- outcome _ _ (add_token sc _ _ _) => apply o_same; auto
    | |- outcome _ _ (add_token (advance _ _) _ _ _) => apply o_nl_line
    end; unfold add_list_item; try (pk; fail); try discriminate.
    - eqb_subst. now apply o_heading.
    - match goal with H : starts_text_symbol_replace_emdash _ = true |- _ =>
        unfold starts_text_symbol_replace_emdash in H end. pk.
    - apply andb_true_iff in H3 as [_ H3]. apply o_repeated; auto.
    - match goal with H : memb _ _ = true |- _ => apply memb_In in H end.
      assert (firstn 2 (skipn (sc_cur sc) (sc_src sc)) = bs "/ ") as E.
      { assert (exists s, peeks_ahead sc 7 = bs "/ " ++ s) as [s E].
        { match goal with H : In _ _ |- _ => destruct H as [E|[E|[]]] end; rewrite <- E; cbn; eauto. }
        apply peeks_firstn in E; [|discriminate].
        change 2 with (min 2 7). rewrite <- firstn_firstn, E. reflexivity. }
      apply (o_bump 2 (bs "/ ")); auto. repeat constructor.
    - eqb_subst. match goal with H : peeks_ahead _ _ = _ |- _ => apply peeks_firstn in H; [|discriminate] end.
      apply (o_bump 2 (bs "..")); auto. repeat constructor.
  Qed.

  Lemma o_delim : memc c ["+"; "*"; "-"; "_"; "/"; "="; "."] = true -> O (scan_delim sc c).
  Proof.
    intros Hc. pose proof Hc as Hc'.
    assert (ascii7 c /\ c <> NUL /\ exists ty, block_from_char c = Ok ty) as (H7 & Hn & ty & Hty).
    { apply memc_In in Hc. destruct Hc as [<-|[<-|[<-|[<-|[<-|[<-|[<-|[]]]]]]]];
      repeat split; try reflexivity; try discriminate; eexists; reflexivity. }
    unfold scan_delim. rewrite o_end_tag_line. apply outcome_if; intros H.
    - apply andb_true_iff in H as [_ H]. rewrite Hty. cbn [bind]. now apply o_repeated.
    - now apply o_delim_inner.
  Qed.

  Lemma o_lbracket : c = "[" -> O (scan_lbracket sc).
  Proof.
    intros Hc. assert (ascii7 c) as H7 by (subst c; reflexivity). unfold scan_lbracket.
    apply outcome_if; intros H.
    - apply andb_true_iff in H as [H1 H2]. apply Ascii.eqb_eq in H2. apply line_before in H1.
      eapply (o_until_stop (bs "]]" ++ [NL]) _ "["); auto; try reflexivity; try discriminate.
      + cbn. lia.
      + repeat constructor.
      + intros K. rewrite rest_eq, (peek_skipn sc "[") by (auto; discriminate). subst c.
        change ("[" :: "[" :: ?r) with (bs "[[" ++ r). constructor; [exact H1|].
        intros (s & s' & Es & Hs). apply K. exists s, s'. split; [|exact Hs]. rewrite Es. now rewrite <- app_assoc.
    - unfold starts_attribution_line. set (sc1 := advance sc _).
      pose proof cur_le as L. pose proof cur_eq as L'.
      pose proof (advance_cur_le sc (fun c => negb (c == NL)) L) as L1. fold sc1 in L1.
      clear H.
      destruct (starts_new_line sc && match nth_error (sc_src sc) (sc_cur sc1 - 1) with
                                      | Some b => b == "]" | None => false end) eqn:Ha.
      + apply andb_true_iff in Ha as [_ Ha].
        destruct (nth_error (sc_src sc) (sc_start sc + 1)) as [b|] eqn:Eb.
        * apply o_at; [reflexivity | lia | apply advance_boundary; auto].
        * exfalso. apply nth_error_None in Eb. assert (sc_cur sc1 - 1 = sc_start sc) as E by lia.
          rewrite E in Ha. destruct A1 as [A1' _]. rewrite A1' in Ha. subst c. discriminate.
      + apply outcome_if; intros Hp.
        * apply Ascii.eqb_eq in Hp. apply o_until_bracket. intros K.
          rewrite rest_eq. rewrite (peek_skipn sc ".") in * by (auto; discriminate). subst c.
          change ("[" :: "." :: ?r) with (bs "[." ++ r). constructor. intros K'. apply K. now right.
        * apply o_text.
  Qed.

  Lemma o_backquote : c = "`" -> O (scan_backquote sc c).
  Proof.
    intros Hc. assert (ascii7 c) as H7 by (subst c; reflexivity). unfold scan_backquote.
    apply outcome_if; intros H.
    { apply closes_word_peek in H; [|reflexivity|discriminate].
      apply (o_bump 1 ["'"]); auto. repeat constructor. }
    apply outcome_if; intros H'.
    { apply closes_word_peek in H'; [|reflexivity|discriminate].
      apply (o_bump 1 [DQ]); auto. repeat constructor. }
    apply o_inline; auto. subst c. discriminate.
  Qed.

  (** *** attributes and references *)
  Lemma span_split p :
    let k := span_len p (skipn (sc_cur sc) (sc_src sc)) in
    skipn (sc_cur sc) (sc_src sc) = firstn k (skipn (sc_cur sc) (sc_src sc)) ++ skipn (sc_cur sc + k) (sc_src sc).
  Proof. cbn. rewrite <- skipn_skipn'. symmetry. apply firstn_skipn. Qed.

  Lemma byte_at_panic p : byte_at (advance sc p) = Panic ->
    Forall (fun b => p (peek_byte b) = true) (skipn (sc_cur sc) (sc_src sc)).
  Proof.
    unfold byte_at, advance. cbn. destruct (nth_error _ _) eqn:E; [discriminate|]. intros _.
    apply nth_error_None in E.
    pose proof (span_len_all p (skipn (sc_cur sc) (sc_src sc))) as Ha.
    rewrite firstn_all2 in Ha; [exact Ha|]. rewrite skipn_length. lia.
  Qed.

  (** an advance that stops inside characters and yet reaches the end passes over ASCII only *)
  Lemma passed_ascii p : p NUL = false ->
    Forall (fun b => p (peek_byte b) = true) (skipn (sc_cur sc) (sc_src sc)) ->
    Forall (fun b => ascii7 b /\ p b = true) (skipn (sc_cur sc) (sc_src sc)).
  Proof.
    intros Hp H. apply Forall_forall. intros b Hin. rewrite Forall_forall in H. pose proof (H b Hin) as Hbp.
    unfold peek_byte in Hbp. destruct (is_cont b) eqn:Ec; [congruence|]. split; [|exact Hbp].
    destruct (ascii7_dec b) as [K|K]; [exact K|]. exfalso.
    apply in_split in Hin as (l1 & l2 & E).
    destruct (lead_followed (firstn (sc_cur sc) (sc_src sc) ++ l1) b l2) as (d & r' & -> & Hd); auto.
    - rewrite <- app_assoc, <- E, firstn_skipn. exact Hu.
    - assert (p (peek_byte d) = true) as X by (apply H; rewrite E; apply in_or_app; right; right; now left).
      unfold peek_byte in X. rewrite Hd in X. congruence.
  Qed.

  Lemma not_in_list l b : memc NUL l = false -> Forall ascii7 l ->
    negb (memc (peek_byte b) l) = true -> ~ In b l.
  Proof.
    intros Hn Hl H Hin. apply negb_true_iff in H.
    assert (peek_byte b = b) as E.
    { unfold peek_byte. rewrite Forall_forall in Hl. now rewrite (ascii7_cont _ (Hl b Hin)). }
    rewrite E in H. assert (memc b l = true) as K by now apply memc_In. congruence.
  Qed.

  Lemma o_colon : c = ":" -> O (scan_colon sc).
  Proof.
    intros Hc. assert (ascii7 c) as H7 by (subst c; reflexivity). unfold scan_colon.
    set (p := fun c0 => negb (memc c0 [SP; NL; ":"])).
    assert (forall l, Forall (fun b => p (peek_byte b) = true) l ->
                      Forall (fun x => ~ In x [" "; "010"; ":"]) l) as Hname.
    { intros l. apply Forall_impl. intros b Hbb. apply not_in_list in Hbb; [exact Hbb | reflexivity |].
      repeat constructor. }
    assert (forall b : bool,
      (b = true -> starts_new_line sc = true /\ starts_attr sc = Ok true) ->
      O (if b then
           let* sc1 := advance_or_hang sc (fun c0 => negb (c0 == NL)) in add_token sc1 TAttribute false 0
         else if negb (peek_back sc == SP) && memb (peeks_ahead sc 2) [[":"; SP]; [":"; NL]]
              then add_token (bump sc 2) TDescriptionListMarker false 0
              else add_text_until_next_markup sc)) as K.
    { intros b Hbt. apply outcome_if; intros Hbb.
      - destruct (Hbt Hbb) as [Hnl Ha]. apply line_before in Hnl. unfold advance_or_hang.
        destruct (is_at_end _) eqn:Hend.
        + cbn. split; [discriminate|]. intros _.
          assert (~ In "010" (skipn (sc_cur sc) (sc_src sc))) as Hno.
          { destruct (advance_until sc NL eq_refl ltac:(discriminate) cur_le) as [[_ K] | (_ & K & _)]; [exact K|].
            unfold is_at_end in Hend. apply Nat.leb_le in Hend.
            cbn [advance bump set_cur sc_src sc_cur] in *. lia. }
          unfold starts_attr in Ha. fold p in Ha. unfold byte_at, advance in Ha. cbn [bump set_cur sc_src sc_cur] in Ha.
          set (k := span_len p (skipn (sc_cur sc) (sc_src sc))) in Ha.
          destruct (nth_error (sc_src sc) (sc_cur sc + k)) as [x|] eqn:Ex; [|discriminate].
          cbn in Ha. injection Ha as Ha. apply Ascii.eqb_eq in Ha. subst x.
          rewrite rest_eq, (span_split p). fold k. rewrite (skipn_nth _ _ _ Ex). subst c.
          apply un_attribute; [exact Hnl | |].
          * apply Hname. apply span_len_all.
          * intros Hin. apply Hno. rewrite (span_split p). fold k. rewrite (skipn_nth _ _ _ Ex).
            apply in_or_app. right. now right.
        + cbn. apply o_nl_line.
      - apply outcome_if; intros H.
        + apply andb_true_iff in H as [_ H]. apply memb_In in H.
          assert (exists s, peeks_ahead sc 2 = s /\ s <> [NUL] /\ List.length s = 2 /\ Forall ascii7 s) as (s & E & S1 & S2 & S3).
          { destruct H as [H|[H|[]]]; rewrite <- H; eexists; (split; [reflexivity|]); repeat split; try discriminate; repeat constructor. }
          apply peeks_firstn in E; [|exact S1]. now apply (o_bump 2 s).
        + apply o_text. }
    destruct (starts_new_line sc) eqn:Hnl.
    - destruct (starts_attr sc) as [b| | | |] eqn:Ha; cbn [bind].
      + apply K. intros ->. auto.
      + apply outcome_err.
      + split; [|discriminate]. intros _. rewrite rest_eq, Hc. apply br_attribute; [now apply line_before|].
        apply Hname. unfold starts_attr in Ha. fold p in Ha.
        destruct (byte_at (advance sc p)) eqn:E; try discriminate. now apply byte_at_panic.
      + exfalso. unfold starts_attr, byte_at in Ha. destruct (nth_error _ _); discriminate.
      + split; discriminate.
    - cbn [bind]. apply (K false). discriminate.
  Qed.

  Lemma o_found p x ty lit :
    ascii7 x -> byte_at (advance sc p) = Ok x -> O (add_token (bump (advance sc p) 1) ty lit 0).
  Proof.
    intros Hx E. unfold byte_at in E. destruct (nth_error _ _) as [y|] eqn:Ey; [|discriminate].
    injection E as ->. destruct (in_boundary _ _ Ey Hx) as [B1 B2].
    pose proof (advance_cur_le sc p cur_le). pose proof cur_eq.
    apply o_at; [reflexivity | cbn in *; lia |]. cbn [bump set_cur sc_cur]. rewrite Nat.add_1_r. exact B2.
  Qed.

  Lemma o_amp : c = "&" -> O (scan_amp sc).
  Proof.
    intros Hc. unfold scan_amp, starts_charref.
    destruct (byte_at (advance sc is_alnum_latin1)) as [x| | | |] eqn:E; cbn [bind].
    - apply outcome_if; intros H; [|apply o_text]. apply Ascii.eqb_eq in H. subst x.
      apply (o_found _ ";"); [reflexivity | exact E].
    - apply outcome_err.
    - split; [|discriminate]. intros _. rewrite rest_eq. subst c. apply br_charref.
      apply byte_at_panic in E. apply passed_ascii in E; [|reflexivity]. eapply Forall_impl; [|exact E]. intros b [Hb7 Hbb].
      now rewrite latin1_ascii in Hbb by exact Hb7.
    - unfold byte_at in E. destruct (nth_error _ _); discriminate.
    - split; discriminate.
  Qed.

  Lemma o_lbrace : c = "{" -> O (scan_lbrace sc).
  Proof.
    intros Hc. unfold scan_lbrace, starts_attribute_reference.
    destruct (byte_at (advance sc is_attr_ref_char)) as [x| | | |] eqn:E; cbn [bind].
    - apply outcome_if; intros H; [|apply o_text]. apply Ascii.eqb_eq in H. subst x.
      apply (o_found _ "}"); [reflexivity | exact E].
    - apply outcome_err.
    - split; [|discriminate]. intros _. rewrite rest_eq. subst c. apply br_attribute_reference.
      apply byte_at_panic in E. apply passed_ascii in E; [|reflexivity]. eapply Forall_impl; [|exact E]. intros b [Hb7 Hbb].
      unfold is_attr_ref_char in Hbb. rewrite latin1_ascii in Hbb by exact Hb7. apply orb_true_iff in Hbb as [Hbb|Hbb]; [auto|].
      right. now apply Ascii.eqb_eq.
    - unfold byte_at in E. destruct (nth_error _ _); discriminate.
    - split; discriminate.
  Qed.

  (** *** table cells and links *)
  Lemma at_suffix n t : skipn n (sc_src sc) = t -> n <= List.length (sc_src sc) -> List.length (sc_src sc) = n + List.length t.
  Proof. intros <- L. rewrite skipn_length. lia. Qed.
  Lemma suffix_next n x t : skipn n (sc_src sc) = x :: t -> skipn (S n) (sc_src sc) = t /\ nth_error (sc_src sc) n = Some x.
  Proof.
    intros H. replace (S n) with (n + 1) by lia. rewrite <- skipn_skipn', H. split; [reflexivity|].
    rewrite <- (Nat.add_0_r n), <- nth_error_skipn', H. reflexivity.
  Qed.
  Lemma advance_on n p x t : skipn n (sc_src sc) = x :: t -> p (peek_byte x) = true ->
    advance (set_cur sc n) p = advance (set_cur sc (S n)) p.
  Proof.
    intros H Hp. destruct (suffix_next n x t H) as [H1 _]. unfold advance. cbn [sc_cur sc_src set_cur]. rewrite H, H1. cbn [span_len]. rewrite Hp.
    unfold bump, set_cur. cbn. f_equal. lia.
  Qed.
  Lemma advance_stops n p : match skipn n (sc_src sc) with x :: _ => p (peek_byte x) = false | [] => True end -> advance (set_cur sc n) p = set_cur sc n.
  Proof.
    intros H. unfold advance. cbn [sc_cur sc_src set_cur]. destruct (skipn n (sc_src sc)) as [|x t]; cbn [span_len]; [|rewrite H];
      unfold bump, set_cur; cbn; f_equal; lia.
  Qed.
  (** a token that would end inside a character *)
  Lemma high_panics n x t ty lit adv : skipn n (sc_src sc) = x :: t -> sc_start sc <= n -> is_boundary (sc_src sc) n = true -> ~ ascii7 x ->
    add_token (set_cur sc (S n)) ty lit adv = Panic /\ exists d t', t = d :: t' /\ is_cont d = true.
  Proof.
    intros H L B Hx. destruct (suffix_next n x t H) as [H1 H2].
    assert (is_cont x = false) as Hc.
    { unfold is_boundary in B. rewrite H2 in B. apply orb_prop in B as [B|B]; [|now apply negb_true_iff]. apply Nat.eqb_eq in B. subst n.
      destruct (sc_src sc) as [|y s] eqn:Es; [discriminate|]. cbn in H2. injection H2 as ->.
      destruct (utf8_head _ Hu) as [K|(y & r & K & Y)]; [congruence|]. now injection K as -> ->. }
    destruct (lead_followed (firstn n (sc_src sc)) x t) as (d & t' & -> & Hd); auto; [rewrite <- H, firstn_skipn; exact Hu|].
    split; [|eauto]. unfold add_token, slice. cbn [set_cur sc_src sc_start sc_cur].
    destruct (suffix_next (S n) d t' H1) as [_ H3]. assert (is_boundary (sc_src sc) (S n) = false) as ->.
    { unfold is_boundary. rewrite H3, Hd. reflexivity. }
    now rewrite !andb_false_r.
  Qed.
  Lemma calm_token n ty lit adv : sc_start sc <= n <= List.length (sc_src sc) -> is_boundary (sc_src sc) n = true -> exists o, add_token (set_cur sc n) ty lit adv = Ok o.
  Proof. intros L B. apply add_token_safe; cbn; try lia; auto. Qed.
  Lemma bound_next n x t : skipn n (sc_src sc) = x :: t -> ascii7 x -> is_boundary (sc_src sc) (S n) = true.
  Proof. intros H Hx. destruct (suffix_next n x t H) as [_ H2]. now apply utf8_boundary with x. Qed.

  (** [cell l s e]: behind the byte [l], a cell runs over [s] and stops before [e] *)
  Inductive cell : ascii -> bytes -> bytes -> Prop :=
  | cell_end l : cell l [] []
  | cell_line l y e : y = NL \/ y = NUL -> cell l [] (y :: e)
  | cell_bar e : cell SP [] ("|" :: e)
  | cell_high l y e : ~ ascii7 y -> cell l [] (y :: e)
  | cell_char l c s e : ascii7 c -> c <> NL -> c <> NUL -> (c = "|" -> l <> SP) -> cell c s e -> cell l (c :: s) e.
  Lemma cell_exists t : forall l, exists s e, t = s ++ e /\ cell l s e.
  Proof.
    induction t as [|x t IH]; intros l; [exists [], []; split; [reflexivity|constructor]|].
    destruct (ascii7_dec x) as [Hx|Hx]; [|exists [], (x :: t); split; [reflexivity|now apply cell_high]].
    destruct (ascii_dec x NL) as [->|N1]; [exists [], (NL :: t); split; [reflexivity|constructor; now left]|].
    destruct (ascii_dec x NUL) as [->|N2]; [exists [], (NUL :: t); split; [reflexivity|constructor; now right]|].
    destruct (IH x) as (s & e & -> & C).
    destruct (ascii_dec x "|") as [->|N3]; [destruct (ascii_dec l SP) as [->|N4]|].
    - exists [], ("|" :: s ++ e). split; [reflexivity|apply cell_bar].
    - exists ("|" :: s), e. split; [reflexivity|apply cell_char; auto].
    - exists (x :: s), e. split; [reflexivity|apply cell_char; auto; congruence].
  Qed.
  Lemma cell_ends l s e : cell l s e -> forall fuel n, List.length s <= fuel -> skipn n (sc_src sc) = s ++ e -> sc_start sc < n <= List.length (sc_src sc) ->
    nth_error (sc_src sc) (n - 1) = Some l -> is_boundary (sc_src sc) n = true ->
    match e with
    | y :: _ => (~ ascii7 y -> add_table_cell_fuel fuel (set_cur sc n) = Panic) /\ (ascii7 y -> exists o, add_table_cell_fuel fuel (set_cur sc n) = Ok o)
    | [] => exists o, add_table_cell_fuel fuel (set_cur sc n) = Ok o
    end.
  Proof.
    set (p := fun c0 => negb (memc c0 [NL; NUL; "|"])).
    assert (forall fuel m, advance (set_cur sc m) p = set_cur sc m -> peek_at (sc_src sc) m <> "|" \/ nth_error (sc_src sc) (m - 1) = Some SP ->
      add_table_cell_fuel fuel (set_cur sc m) = add_token (set_cur sc m) TTableCell true 0) as stops.
    { intros fuel m Ha Hs. destruct fuel; cbn [add_table_cell_fuel]; fold p; rewrite Ha; cbn [set_cur sc_src sc_cur]; unfold peek; cbn [sc_src sc_cur set_cur];
        (destruct Hs as [Hs|Hs]; [apply Ascii.eqb_neq in Hs; rewrite Hs; reflexivity|rewrite Hs; change (SP == SP) with true; cbn [negb]; rewrite andb_false_r; reflexivity]). }
    assert (forall fuel m m', advance (set_cur sc m) p = advance (set_cur sc m') p -> add_table_cell_fuel fuel (set_cur sc m) = add_table_cell_fuel fuel (set_cur sc m')) as goes.
    { intros fuel m m' Ha. destruct fuel; cbn [add_table_cell_fuel]; fold p; rewrite Ha; reflexivity. }
    induction 1 as [l|l y e Y|e|l y e Y|l c0 s e C7 C1 C2 C3 C IH]; intros fuel n F E L P B; cbn [app] in E.
    - rewrite stops; [apply calm_token; [lia|exact B]| |left].
      + apply advance_stops. rewrite E. exact I.
      + assert (nth_error (sc_src sc) n = None) as N by (apply nth_error_None; pose proof (at_suffix n [] E); cbn in *; lia). unfold peek_at. rewrite N. discriminate.
    - assert (ascii7 y) as Y7 by (destruct Y; subst; reflexivity). split; [tauto|]. intros _. destruct (suffix_next n y e E) as [_ H2].
      rewrite stops; [apply calm_token; [lia|exact B]| |left].
      + apply advance_stops. rewrite E. destruct Y; subst; reflexivity.
      + unfold peek_at. rewrite H2. destruct Y; subst; discriminate.
    - split; [intros K; elim K; reflexivity|]. intros _. rewrite stops; [apply calm_token; [lia|exact B]| |right; exact P].
      apply advance_stops. rewrite E. reflexivity.
    - split; [|tauto]. intros _. destruct (high_panics n y e TTableCell true 0 E ltac:(lia) B Y) as (Pn & d & t & -> & D).
      destruct (suffix_next n y (d :: t) E) as [H1 H2]. destruct (suffix_next (S n) d t H1) as [_ H3].
      assert (is_cont y = false) as Yc.
      { destruct (is_cont y) eqn:K; [|reflexivity]. unfold is_boundary in B. rewrite H2, K in B. rewrite orb_false_r in B. apply Nat.eqb_eq in B. lia. }
      rewrite (goes fuel n (S n)).
      + rewrite stops; [exact Pn| |left; unfold peek_at; rewrite H3; unfold peek_byte; rewrite D; discriminate].
        apply advance_stops. rewrite H1. unfold peek_byte. rewrite D. reflexivity.
      + apply (advance_on n p y (d :: t) E). unfold peek_byte. rewrite Yc. unfold p. apply negb_true_iff. apply Bool.not_true_is_false. intros K.
        apply memc_In in K. apply Y. destruct K as [<-|[<-|[<-|[]]]]; reflexivity.
    - assert (is_boundary (sc_src sc) (S n) = true) as B' by now apply (bound_next n c0 (s ++ e)). destruct (suffix_next n c0 (s ++ e) E) as [H1 H2].
      pose proof (at_suffix n _ E ltac:(lia)) as Le. cbn in Le, F.
      destruct (ascii_dec c0 "|") as [->|N].
      + destruct fuel as [|f]; [lia|]. assert (add_table_cell_fuel (S f) (set_cur sc n) = add_table_cell_fuel f (set_cur sc (S n))) as ->.
        { cbn [add_table_cell_fuel]. fold p. rewrite (advance_stops n p) by (rewrite E; reflexivity). unfold peek, peek_at. cbn [set_cur sc_src sc_cur]. rewrite H2.
          change (peek_byte "|" == "|") with true. rewrite P. assert (l == SP = false) as -> by (apply Ascii.eqb_neq; auto). cbn [negb andb].
          unfold bump, set_cur. cbn. do 2 f_equal. lia. }
        apply IH; auto; try lia. replace (S n - 1) with n by lia. exact H2.
      + rewrite (goes fuel n (S n)); [apply IH; auto; try lia; replace (S n - 1) with n by lia; exact H2|].
        apply (advance_on n p c0 (s ++ e) E). unfold peek_byte. rewrite (ascii7_cont _ C7). unfold p. apply negb_true_iff. apply Bool.not_true_is_false. intros K.
        apply memc_In in K. destruct K as [<-|[<-|[<-|[]]]]; congruence.
  Qed.
  (** in the words of the specification *)
  Lemma cell_fine l s y r : cell l s (y :: r) -> ~ ascii7 y ->
    Forall (fun c => ascii7 c /\ c <> "010" /\ c <> "000") s /\ ~ occurs (bs " |") (l :: s).
  Proof.
    intros H Hy. remember (y :: r) as e eqn:E. induction H as [l|l z e Z|e|l z e Z|l c0 s e C7 C1 C2 C3 C IH]; try discriminate.
    - injection E as <- <-. elim Hy. destruct Z; subst; reflexivity.
    - injection E as <- <-. elim Hy. reflexivity.
    - split; [constructor|]. intros (u & v & K). destruct u as [|? [|? ?]]; discriminate.
    - destruct (IH E) as [I1 I2]. split; [constructor; auto|]. intros (u & v & K). destruct u as [|? u].
      + cbn in K. injection K as K1 K2 _. now apply (C3 K2).
      + injection K as _ K. apply I2. now exists u, v.
  Qed.
  Lemma fine_cell s y r : ~ ascii7 y -> Forall (fun c => ascii7 c /\ c <> "010" /\ c <> "000") s -> forall l, ~ occurs (bs " |") (l :: s) -> cell l s (y :: r).
  Proof.
    intros Hy H. induction H as [|c0 s (C7 & C1 & C2) H IH]; intros l N; [now apply cell_high|]. apply cell_char; auto.
    - intros -> ->. apply N. now exists [], s.
    - apply IH. intros (u & v & K). apply N. exists (l :: u), v. cbn. now rewrite K.
  Qed.
  Lemma bar_occurs s : ~ occurs (bs " |") s -> ~ occurs (bs " |") ("|" :: s).
  Proof. intros N (u & v & K). destruct u as [|? u]; [discriminate|]. injection K as _ K. apply N. now exists u, v. Qed.

  Lemma o_cell : c = "|" ->
    (at_line_start (firstn (sc_start sc) (sc_src sc)) /\ ~ (exists t, skipn (sc_cur sc) (sc_src sc) = bs "===" ++ t)) \/ (exists b, firstn (sc_start sc) (sc_src sc) = b ++ [" "]) ->
    O (add_table_cell sc).
  Proof.
    intros Hc Hbf. unfold add_table_cell. destruct (cell_exists (skipn (sc_cur sc) (sc_src sc)) c) as (s & e & E & C).
    pose proof (at_suffix _ _ E cur_le) as Le. rewrite app_length in Le. pose proof cur_eq as Ce.
    pose proof (cell_ends c s e C (List.length (sc_src sc)) (sc_cur sc) ltac:(lia) E ltac:(pose proof cur_le; lia)) as K. rewrite set_cur_id in K.
    replace (sc_cur sc - 1) with (sc_start sc) in K by lia. specialize (K (proj1 A1)). specialize (K (cur_boundary ltac:(subst c; reflexivity))).
    destruct e as [|y r]; [destruct K as [o ->]; apply outcome_ok|]. destruct K as [K1 K2].
    destruct (ascii7_dec y) as [Hy|Hy]; [destruct (K2 Hy) as [o ->]; apply outcome_ok|]. rewrite (K1 Hy). split; [|discriminate]. intros _.
    destruct (cell_fine c s y r C Hy) as [F1 F2]. rewrite rest_eq, E, Hc. apply br_cell; auto.
    - destruct Hbf as [[Hl Hn]|Hb']; [left; split; [exact Hl|]|now right]. intros (t & ->). apply Hn. exists (t ++ y :: r). rewrite E. now rewrite <- app_assoc.
    - intros (u & v & Hs). apply F2. exists (c :: u), v. cbn. now rewrite Hs.
  Qed.

  Lemma peek_back_space : peek_back sc = SP -> exists b, firstn (sc_start sc) (sc_src sc) = b ++ [" "].
  Proof.
    unfold peek_back. destruct (sc_start sc) as [|j]; [discriminate|]. intros H.
    apply peek_at_some in H; [|reflexivity|discriminate]. exists (firstn j (sc_src sc)).
    replace (S j) with (j + 1) by lia. rewrite firstn_add, (skipn_nth _ _ _ H). reflexivity.
  Qed.

  Lemma o_bar : c = "|" -> O (scan_bar sc).
  Proof.
    intros Hc. assert (ascii7 c) as H7 by (subst c; reflexivity). unfold scan_bar.
    apply outcome_if; intros H.
    - apply andb_true_iff in H as [_ H]. apply beqb_eq in H. apply peeks_firstn in H; [|discriminate].
      assert (sc_cur sc + 3 <= List.length (sc_src sc)) as L.
      { assert (List.length (firstn 3 (skipn (sc_cur sc) (sc_src sc))) = 3) as L by now rewrite H.
        rewrite firstn_length, skipn_length in L. lia. }
      pose proof cur_eq.
      apply outcome_if; intros _.
      + apply (o_bump 3 (bs "===")); auto. repeat constructor.
      + apply o_text2; [reflexivity | cbn; lia].
    - apply outcome_if; intros H'; [|apply o_text].
      apply o_cell; [exact Hc|]. apply orb_true_iff in H' as [H'|H'].
      + left. split; [now apply line_before|]. intros (t & Et). rewrite H' in H. cbn [andb] in H.
        assert (peeks_ahead sc 3 = bs "===") as X; [|rewrite X in H; discriminate].
        eapply peeks_ahead_at; [exact Et|reflexivity|discriminate|].
        apply utf8_head. apply (utf8_after (firstn (sc_cur sc) (sc_src sc) ++ bs "==") "="); [|reflexivity].
        rewrite <- app_assoc. change (bs "==" ++ "=" :: t) with (bs "===" ++ t). rewrite <- Et, firstn_skipn. exact Hu.
      + right. apply peek_back_space. now apply Ascii.eqb_eq.
  Qed.

  (** [link s e]: a link runs over [s] and stops before [e] *)
  Definition plain_link (x : ascii) : Prop := ascii7 x /\ x <> NUL /\ x <> SP /\ is_punct x = false.
  Definition allowed (x : ascii) : Prop := memc x hyperlink_allowed_punctuation = true.
  Definition goes_on (t : bytes) : Prop := match t with z :: _ => ascii7 z /\ z <> NUL /\ z <> SP | [] => False end.
  Inductive link : bytes -> bytes -> Prop :=
  | link_end : link [] []
  | link_gap y e : y = NUL \/ y = SP -> link [] (y :: e)
  | link_punct y e : is_punct y = true -> ~ allowed y -> link [] (y :: e)
  | link_last y e : allowed y -> ~ goes_on e -> link [] (y :: e)
  | link_high y e : ~ ascii7 y -> link [] (y :: e)
  | link_on x s e : plain_link x -> link s e -> link (x :: s) e
  | link_allowed y s e : allowed y -> goes_on (s ++ e) -> link s e -> link (y :: s) e.
  Lemma goes_on_dec t : goes_on t \/ ~ goes_on t.
  Proof.
    destruct t as [|z t]; cbn; [tauto|]. destruct (ascii7_dec z) as [H|H]; [|tauto]. destruct (ascii_dec z NUL); [tauto|]. destruct (ascii_dec z SP); tauto.
  Qed.
  Lemma link_exists t : exists s e, t = s ++ e /\ link s e.
  Proof.
    induction t as [|x t (s & e & -> & C)]; [exists [], []; split; [reflexivity|constructor]|].
    destruct (ascii7_dec x) as [Hx|Hx]; [|exists [], (x :: s ++ e); split; [reflexivity|now apply link_high]].
    destruct (ascii_dec x NUL) as [->|N1]; [exists [], (NUL :: s ++ e); split; [reflexivity|apply link_gap; now left]|].
    destruct (ascii_dec x SP) as [->|N2]; [exists [], (SP :: s ++ e); split; [reflexivity|apply link_gap; now right]|].
    destruct (is_punct x) eqn:P; [|exists (x :: s), e; split; [reflexivity|apply link_on; [repeat split; auto|exact C]]].
    destruct (memc x hyperlink_allowed_punctuation) eqn:M.
    - destruct (goes_on_dec (s ++ e)) as [G|G]; [exists (x :: s), e; split; [reflexivity|now apply link_allowed]|exists [], (x :: s ++ e); split; [reflexivity|now apply link_last]].
    - exists [], (x :: s ++ e). split; [reflexivity|apply link_punct; [exact P|unfold allowed; congruence]].
  Qed.
  Lemma allowed_facts y : allowed y -> ascii7 y /\ y <> NUL /\ y <> SP /\ is_punct y = true /\ y <> "[".
  Proof.
    unfold allowed. intros H. apply memc_In in H. cbn in H. destruct H as [<-|[<-|[<-|[<-|[<-|[<-|[<-|[]]]]]]]]; repeat split; try discriminate; reflexivity.
  Qed.
  Lemma link_ends s e : link s e -> forall fuel n, List.length s <= fuel -> skipn n (sc_src sc) = s ++ e -> sc_start sc < n <= List.length (sc_src sc) ->
    is_boundary (sc_src sc) n = true ->
    match e with
    | y :: _ => (~ ascii7 y -> add_link_fuel fuel (set_cur sc n) = Panic) /\ (ascii7 y -> exists o, add_link_fuel fuel (set_cur sc n) = Ok o)
    | [] => exists o, add_link_fuel fuel (set_cur sc n) = Ok o
    end.
  Proof.
    set (p := fun c0 => negb (memc c0 [NUL; SP]) && negb (is_punct c0)).
    assert (forall fuel m m', advance (set_cur sc m) p = advance (set_cur sc m') p -> add_link_fuel fuel (set_cur sc m) = add_link_fuel fuel (set_cur sc m')) as goes.
    { intros fuel m m' Ha. destruct fuel; cbn [add_link_fuel]; fold p; rewrite Ha; reflexivity. }
    assert (forall fuel m, advance (set_cur sc m) p = set_cur sc m -> memc (peek_at (sc_src sc) m) [NUL; SP] = true ->
      add_link_fuel fuel (set_cur sc m) = add_token (set_cur sc m) THyperlink true 0) as stops.
    { intros fuel m Ha Hs. assert (peek_at (sc_src sc) m == "[" = false) as Hq by (apply memc_In in Hs; destruct Hs as [<-|[<-|[]]]; reflexivity).
      destruct fuel; cbn [add_link_fuel]; fold p; rewrite Ha; unfold peek; cbn [sc_src sc_cur set_cur]; rewrite Hq, Hs; reflexivity. }
    induction 1 as [|y e Y|y e Y1 Y2|y e Y1 Y2|y e Y|x s e X C IH|y s e Y1 Y2 C IH]; intros fuel n F E L B; cbn [app] in E.
    - rewrite stops; [apply calm_token; [lia|exact B]|apply advance_stops; rewrite E; exact I|].
      assert (nth_error (sc_src sc) n = None) as N by (apply nth_error_None; pose proof (at_suffix n [] E); cbn in *; lia). unfold peek_at. rewrite N. reflexivity.
    - split; [destruct Y; subst; intros K; elim K; reflexivity|]. intros _. destruct (suffix_next n y e E) as [_ H2].
      rewrite stops; [apply calm_token; [lia|exact B]|apply advance_stops; rewrite E; destruct Y; subst; reflexivity|].
      unfold peek_at. rewrite H2. destruct Y; subst; reflexivity.
    - assert (ascii7 y) as Y7 by (destruct (ascii7_dec y) as [K|K]; [exact K|rewrite (high_not_punct _ K) in Y1; discriminate]). split; [tauto|]. intros _.
      destruct (suffix_next n y e E) as [_ H2]. assert (peek_byte y = y) as Py by (unfold peek_byte; now rewrite (ascii7_cont _ Y7)).
      assert (advance (set_cur sc n) p = set_cur sc n) as Ha by (apply advance_stops; rewrite E, Py; unfold p; rewrite Y1; apply andb_false_r).
      assert (memc y [NUL; SP] = false) as M by (apply Bool.not_true_is_false; intros K; apply memc_In in K; destruct K as [<-|[<-|[]]]; discriminate).
      assert (memc y hyperlink_allowed_punctuation = false) as M2 by (apply Bool.not_true_is_false; exact Y2).
      pose proof (at_suffix n _ E ltac:(lia)) as Le. cbn in Le.
      destruct (calm_token n THyperlink true 0 ltac:(lia) B) as [o Ho]. destruct (calm_token (n + 1) TLinkMacro true 0) as [o' Ho']; [lia|replace (n + 1) with (S n) by lia; now apply (bound_next n y e)|].
      destruct fuel; cbn [add_link_fuel]; fold p; rewrite Ha; unfold peek, peek_at; cbn [sc_src sc_cur set_cur]; rewrite H2, Py, M, M2, bump_set_cur, Ho, Ho'; destruct (y == "["); eauto.
    - destruct (allowed_facts y Y1) as (Y7 & Z1 & Z2 & Z3 & Z4). split; [tauto|]. intros _.
      destruct (suffix_next n y e E) as [H1 H2]. assert (peek_byte y = y) as Py by (unfold peek_byte; now rewrite (ascii7_cont _ Y7)).
      assert (advance (set_cur sc n) p = set_cur sc n) as Ha by (apply advance_stops; rewrite E, Py; unfold p; rewrite Z3; apply andb_false_r).
      assert (memc y [NUL; SP] = false) as M by (apply Bool.not_true_is_false; intros K; apply memc_In in K; destruct K as [<-|[<-|[]]]; congruence).
      pose proof (at_suffix n _ E ltac:(lia)) as Le. cbn in Le.
      assert (memc (last (peeks_ahead (set_cur sc n) 2) "A") [NUL; SP] = true) as Q.
      { unfold peeks_ahead, is_at_end. cbn [sc_src sc_cur set_cur]. destruct (Nat.leb_spec (List.length (sc_src sc)) n); [lia|]. cbn [orb].
        destruct e as [|z e]; [destruct (Nat.ltb_spec (List.length (sc_src sc)) (n + 2)); [reflexivity|cbn in Le; lia]|].
        destruct (suffix_next (S n) z e H1) as [H3 H4]. cbn in Y2. destruct (Nat.ltb_spec (List.length (sc_src sc)) (n + 2)); [reflexivity|]. cbn [orb].
        destruct (ascii7_dec z) as [Hz|Hz].
        - replace (n + 2) with (S (S n)) by lia. rewrite (bound_next (S n) z e H1 Hz). cbn [negb]. rewrite E. cbn [firstn last]. apply memc_In.
          destruct (ascii_dec z NUL) as [->|]; [now left|]. destruct (ascii_dec z SP) as [->|]; [right; now left|tauto].
        - destruct (high_panics (S n) z e THyperlink true 0 H1 ltac:(lia) (bound_next n y (z :: e) E Y7) Hz) as (_ & d & t & -> & D).
          destruct (suffix_next (S (S n)) d t H3) as [_ H5]. replace (n + 2) with (S (S n)) by lia.
          assert (is_boundary (sc_src sc) (S (S n)) = false) as -> by (unfold is_boundary; rewrite H5, D; reflexivity). reflexivity. }
      destruct (calm_token n THyperlink true 0 ltac:(lia) B) as [o Ho]. assert (y == "[" = false) as Hq by now apply Ascii.eqb_neq.
      exists o. destruct fuel; cbn [add_link_fuel]; fold p; rewrite Ha; unfold peek, peek_at; cbn [sc_src sc_cur set_cur]; rewrite H2, Py, Hq, M, Q, Ho; unfold allowed in Y1; now rewrite Y1.
    - split; [|tauto]. intros _. destruct (high_panics n y e THyperlink true 0 E ltac:(lia) B Y) as (Pn & d & t & -> & D).
      destruct (suffix_next n y (d :: t) E) as [H1 H2]. destruct (suffix_next (S n) d t H1) as [_ H3].
      assert (is_cont y = false) as Yc.
      { destruct (is_cont y) eqn:K; [|reflexivity]. unfold is_boundary in B. rewrite H2, K in B. rewrite orb_false_r in B. apply Nat.eqb_eq in B. lia. }
      rewrite (goes fuel n (S n)).
      + rewrite stops; [exact Pn|apply advance_stops; rewrite H1; unfold peek_byte; rewrite D; reflexivity|unfold peek_at; rewrite H3; unfold peek_byte; rewrite D; reflexivity].
      + apply (advance_on n p y (d :: t) E). unfold peek_byte. rewrite Yc. unfold p. rewrite (high_not_punct _ Y). rewrite andb_true_r.
        apply negb_true_iff. apply Bool.not_true_is_false. intros K. apply memc_In in K. apply Y. destruct K as [<-|[<-|[]]]; reflexivity.
    - destruct X as (X7 & X1 & X2 & X3). assert (is_boundary (sc_src sc) (S n) = true) as B' by now apply (bound_next n x (s ++ e)).
      pose proof (at_suffix n _ E ltac:(lia)) as Le. cbn in Le, F. destruct (suffix_next n x (s ++ e) E) as [H1 H2].
      rewrite (goes fuel n (S n)); [apply IH; auto; lia|]. apply (advance_on n p x (s ++ e) E). unfold peek_byte. rewrite (ascii7_cont _ X7). unfold p. rewrite X3, andb_true_r.
      apply negb_true_iff. apply Bool.not_true_is_false. intros K. apply memc_In in K. destruct K as [<-|[<-|[]]]; congruence.
    - destruct (allowed_facts y Y1) as (Y7 & Z1 & Z2 & Z3 & Z4). assert (is_boundary (sc_src sc) (S n) = true) as B' by now apply (bound_next n y (s ++ e)).
      pose proof (at_suffix n _ E ltac:(lia)) as Le. cbn in Le, F. destruct (suffix_next n y (s ++ e) E) as [H1 H2]. destruct fuel as [|f]; [lia|].
      assert (peek_byte y = y) as Py by (unfold peek_byte; now rewrite (ascii7_cont _ Y7)).
      assert (advance (set_cur sc n) p = set_cur sc n) as Ha by (apply advance_stops; rewrite E, Py; unfold p; rewrite Z3; apply andb_false_r).
      assert (memc y [NUL; SP] = false) as M by (apply Bool.not_true_is_false; intros K; apply memc_In in K; destruct K as [<-|[<-|[]]]; congruence).
      assert (memc (last (peeks_ahead (set_cur sc n) 2) "A") [NUL; SP] = false) as Q.
      { destruct (s ++ e) as [|z t] eqn:Et; [elim Y2|]. destruct Y2 as (G7 & G1 & G2).
        assert (peeks_ahead (set_cur sc n) 2 = [y; z]) as ->.
        { eapply peeks_ahead_at; [cbn [set_cur sc_src sc_cur]; rewrite E; change (y :: z :: t) with ([y; z] ++ t); reflexivity|reflexivity|discriminate|].
          apply utf8_head. apply (utf8_after (firstn n (sc_src sc) ++ [y]) z); [|exact G7]. rewrite <- app_assoc. cbn [app]. rewrite <- E, firstn_skipn. exact Hu. }
        cbn [last]. apply Bool.not_true_is_false. intros K. apply memc_In in K. destruct K as [<-|[<-|[]]]; congruence. }
      assert (y == "[" = false) as Hq by now apply Ascii.eqb_neq.
      assert (add_link_fuel (S f) (set_cur sc n) = add_link_fuel f (set_cur sc (S n))) as ->; [|apply IH; auto; lia].
      cbn [add_link_fuel]. fold p. rewrite Ha. unfold peek, peek_at. cbn [sc_src sc_cur set_cur]. rewrite H2, Py, Hq, M, Q. unfold allowed in Y1. rewrite Y1, bump_set_cur.
      do 2 f_equal. lia.
  Qed.
  (** in the words of the specification *)
  Lemma link_fine s y r : link s (y :: r) -> ~ ascii7 y -> Forall link_char s /\ (forall t c, s = t ++ [c] -> ~ punctuation c).
  Proof.
    intros H Hy. remember (y :: r) as e eqn:E. induction H as [|z e Z|z e Z1 Z2|z e Z1 Z2|z e Z|x s e X C IH|z s e Z1 Z2 C IH]; try discriminate.
    - injection E as <- <-. elim Hy. destruct Z; subst; reflexivity.
    - injection E as <- <-. rewrite (high_not_punct _ Hy) in Z1. discriminate.
    - injection E as <- <-. elim Hy. apply (allowed_facts z Z1).
    - split; [constructor|]. intros [|? ?]; discriminate.
    - destruct (IH E) as [I1 I2]. destruct X as (X7 & X1 & X2 & X3). split.
      + constructor; [|exact I1]. repeat split; auto. intros P. apply punct_spec in P. congruence.
      + intros t c0 Ht'. destruct t as [|? t]; [injection Ht' as -> ->; intros P; apply punct_spec in P; congruence|]. injection Ht' as _ ->. now apply (I2 t).
    - destruct (IH E) as [I1 I2]. destruct (allowed_facts z Z1) as (Y7 & N1 & N2 & N3 & N4). split.
      + constructor; [|exact I1]. repeat split; auto. intros _. unfold allowed in Z1. now apply memc_In in Z1.
      + intros t c0 Ht'. destruct t as [|? t].
        * injection Ht' as -> ->. rewrite E in Z2. cbn in Z2. tauto.
        * injection Ht' as _ ->. now apply (I2 t).
  Qed.
  Lemma fine_link s y r : ~ ascii7 y -> Forall link_char s -> (forall t c, s = t ++ [c] -> ~ punctuation c) -> link s (y :: r).
  Proof.
    intros Hy H. induction H as [|x s (X7 & X1 & X2 & X3) H IH]; intros L; [now apply link_high|].
    assert (link s (y :: r)) as I by (apply IH; intros t c0 ->; apply (L (x :: t)); reflexivity).
    destruct (is_punct x) eqn:P; [|apply link_on; [repeat split|]; auto].
    apply link_allowed; [|  |exact I].
    - unfold allowed. apply memc_In. apply X3. now apply punct_spec.
    - destruct s as [|z s]; [elim (L [] x eq_refl); now apply punct_spec|]. inversion H as [|? ? (Q7 & Q1 & Q2 & _) _]. subst. cbn. auto.
  Qed.

  Lemma o_link : c = "h" -> peeks_ahead sc 3 = bs "ttp" -> O (add_link sc).
  Proof.
    intros Hc Ha. unfold add_link. apply (peeks_ahead_prefix sc (bs "ttp")) in Ha as [r0 Hr]; [|discriminate].
    destruct (link_exists (skipn (sc_cur sc) (sc_src sc))) as (s & e & E & C).
    pose proof (at_suffix _ _ E cur_le) as Le. rewrite app_length in Le. pose proof cur_eq as Ce.
    pose proof (link_ends s e C (List.length (sc_src sc)) (sc_cur sc) ltac:(lia) E ltac:(pose proof cur_le; lia) (cur_boundary ltac:(subst c; reflexivity))) as K. rewrite set_cur_id in K.
    destruct e as [|y r]; [destruct K as [o ->]; apply outcome_ok|]. destruct K as [K1 K2].
    destruct (ascii7_dec y) as [Hy|Hy]; [destruct (K2 Hy) as [o ->]; apply outcome_ok|]. rewrite (K1 Hy). split; [|discriminate]. intros _.
    destruct (link_fine s y r C Hy) as [F1 F2]. rewrite rest_eq, E, Hc. rewrite Hr in E.
    destruct s as [|a1 s]; [injection E as <- _; elim Hy; reflexivity|]. cbn in E. injection E as <- E. 
    destruct s as [|a2 s]; [injection E as <- _; elim Hy; reflexivity|]. cbn in E. injection E as <- E.
    destruct s as [|a3 s]; [injection E as <- _; elim Hy; reflexivity|]. cbn in E. injection E as <- E.
    change ("h" :: ("t" :: "t" :: "p" :: s) ++ y :: r) with (bs "http" ++ s ++ y :: r). apply br_link; auto.
    - inversion F1 as [|? ? _ F3]. inversion F3 as [|? ? _ F4]. now inversion F4.
    - intros t c0 ->. apply (F2 ("t" :: "t" :: "p" :: t)). reflexivity.
  Qed.

  (** *** keywords *)
  Lemma o_keyword kw ty lit : ascii7 c -> kw <> [NUL] -> Forall ascii7 kw -> O (scan_keyword sc kw ty lit).
  Proof.
    intros Hc Hn H. unfold scan_keyword. apply outcome_if; intros E; [|apply o_text].
    apply beqb_eq in E. apply peeks_firstn in E; [|exact Hn]. now apply (o_bump _ kw).
  Qed.

  Lemma ahead_rest n kw : peeks_ahead sc n = kw -> n = List.length kw -> kw <> [NUL] ->
    exists r, skipn (sc_cur sc) (sc_src sc) = kw ++ r.
  Proof. intros H -> Hn. now apply peeks_ahead_prefix. Qed.

  Lemma o_i : c = "i" -> O (scan_i sc).
  Proof.
    intros Hc. assert (ascii7 c) as H7 by (subst c; reflexivity). unfold scan_i.
    apply outcome_if; intros H.
    { apply andb_true_iff in H as [H1 H2]. apply line_before in H1. apply beqb_eq in H2.
      apply ahead_rest in H2 as [r Hr]; [|reflexivity|discriminate].
      apply o_until_bracket. rewrite rest_eq, Hr, Hc. intros K.
      change ("i" :: bs "nclude::" ++ r) with (bs "include::" ++ r). constructor; [exact H1|].
      intros K'. apply K. apply in_or_app. now right. }
    apply outcome_if; intros H'.
    { apply andb_true_iff in H' as [H1 H2]. apply line_before in H1. apply beqb_eq in H2.
      apply ahead_rest in H2 as [r Hr]; [|reflexivity|discriminate].
      apply o_until_bracket. rewrite rest_eq, Hr, Hc. intros K.
      change ("i" :: bs "mage::" ++ r) with (bs "image::" ++ r). constructor; [exact H1|].
      intros K'. apply K. apply in_or_app. now right. }
    apply outcome_if; intros H''; [|apply o_text].
    apply andb_true_iff in H'' as [H1 H3]. apply andb_true_iff in H1 as [H1 H2].
    apply beqb_eq in H1. apply ahead_rest in H1 as [r Hr]; [|reflexivity|discriminate].
    apply o_until_bracket. rewrite rest_eq, Hr, Hc. intros K.
    change ("i" :: bs "mage:" ++ r) with (bs "image:" ++ r). constructor.
    - intros K'. apply K. apply in_or_app. now right.
    - intros x r' ->.
      assert (utf8 r' -> forall y, x = y -> ascii7 y -> peeks_ahead sc 6 = bs "mage:" ++ [y]) as Hpk.
      { intros Hr' y -> Hy. eapply peeks_ahead_at; [rewrite Hr; now rewrite <- app_assoc | reflexivity | discriminate|].
        now apply utf8_head. }
      assert (forall y, x = y -> ascii7 y -> utf8 r') as Hur.
      { intros y -> Hy. apply (utf8_after (firstn (sc_start sc) (sc_src sc) ++ c :: bs "mage:") y); [|exact Hy].
        rewrite <- app_assoc. cbn [app]. 
        replace (c :: bs "mage:" ++ y :: r') with (skipn (sc_start sc) (sc_src sc)) by (rewrite rest_eq, Hr; reflexivity).
        now rewrite firstn_skipn. }
      split; intros Hx.
      + rewrite (Hpk (Hur _ Hx eq_refl) _ Hx eq_refl) in H2. cbn in H2. discriminate.
      + rewrite (Hpk (Hur _ Hx eq_refl) _ Hx eq_refl) in H3. cbn in H3. discriminate.
  Qed.

  Lemma o_tag_kw kw : peeks_ahead sc 4 = kw -> c :: kw = bs "tag::" \/ c :: kw = bs "end::" -> O (add_tag sc).
  Proof.
    intros H Hk. apply ahead_rest in H as [r Hr];
      [| destruct Hk as [Hk|Hk]; injection Hk as _ ->; reflexivity | destruct Hk as [Hk|Hk]; injection Hk as _ ->; discriminate ].
    apply o_tag. rewrite rest_eq, Hr. intros K.
    change (c :: kw ++ r) with ((c :: kw) ++ r). apply br_tag; [exact Hk|].
    intros K'. apply K. apply in_or_app. now right.
  Qed.

  Lemma o_parens : c = "(" -> starts_text_symbol_replace_parens sc = true ->
    O (handle_text_symbol_replacement_parens sc).
  Proof.
    intros Hc H. assert (exists s r, skipn (sc_cur sc) (sc_src sc) = s ++ ")" :: r) as (s & r & Hr).
    { unfold starts_text_symbol_replace_parens in H. apply orb_true_iff in H as [H|H].
      - apply memb_In in H. destruct H as [H|[H|[]]]; symmetry in H;
        apply ahead_rest in H as [r Hr]; try reflexivity; try discriminate; rewrite Hr.
        + exists ["C"], r. reflexivity.
        + exists ["R"], r. reflexivity.
      - apply beqb_eq in H. apply ahead_rest in H as [r Hr]; [|reflexivity|discriminate].
        exists (bs "TM"), r. rewrite Hr. reflexivity. }
    unfold handle_text_symbol_replacement_parens, advance_or_hang.
    pose proof cur_le as L. pose proof cur_eq as L'.
    destruct (advance_until sc ")" eq_refl ltac:(discriminate) L) as [[E1 E2] | (E1 & E2 & E3)].
    - elim E2. rewrite Hr. apply in_or_app. right. now left.
    - unfold is_at_end. cbn [sc_src advance bump set_cur] in *.
      apply Nat.leb_gt in E2. rewrite E2. cbn [bind].
      destruct (in_boundary _ _ E1 eq_refl) as [B1 B2].
      apply o_at; [reflexivity | cbn in *; lia |].
      cbn [bump set_cur sc_cur sc_src]. rewrite Nat.add_1_r. exact B2.
  Qed.
End Fail.

Theorem scan_token_outcome sc0 :
  sc_start sc0 = sc_cur sc0 -> sc_cur sc0 < List.length (sc_src sc0) ->
  utf8 (sc_src sc0) -> is_boundary (sc_src sc0) (sc_cur sc0) = true -> sc_tagend sc0 = false ->
  outcome (firstn (sc_cur sc0) (sc_src sc0)) (skipn (sc_cur sc0) (sc_src sc0)) (scan_token sc0).
Proof.
  intros Hst Hlt Hu Hb Ht. unfold scan_token, byte_at.
  destruct (nth_error (sc_src sc0) (sc_cur sc0)) as [c|] eqn:Hc;
    [|apply nth_error_None in Hc; lia].
  cbn [bind].
  assert (A1 : at1 (bump sc0 1) c).
  { split; cbn; [now rewrite Hst | lia]. }
  rewrite <- Hst in *.
  set (sc := bump sc0 1) in *. cbn zeta.
  change (sc_src sc0) with (sc_src sc) in *. change (sc_start sc0) with (sc_start sc) in *.
  change (sc_tagend sc0) with (sc_tagend sc) in *.
  clearbody sc. clear Hst Hlt sc0.
  rewrite !(o_end_tag_line sc Ht).
  assert (forall x, c = x -> ascii7 x -> ascii7 c) as H7 by (intros x ->; auto).
  repeat match goal with
  | |- outcome _ _ (if _ then _ else _) => apply outcome_if; intros ?
  end; eqb_subst; try discriminate;
  try (eapply o_text; eassumption);
  try (eapply o_same; eauto; eapply H7; [eassumption | reflexivity]);
  try (eapply o_keyword; eauto; [subst c; reflexivity | discriminate | repeat constructor]).
  - eapply o_apostrophe; eassumption.
  - eapply o_lt; eassumption.
  - eapply o_delim; eassumption.
  - eapply o_lbracket; eassumption.
  - eapply o_backquote; eassumption.
  - eapply o_inline; eauto; subst c; [reflexivity|discriminate].
  - eapply o_colon; eassumption.
  - eapply o_parens; eassumption.
  - eapply o_link; eassumption.
  - eapply o_i; eassumption.
  - eapply o_tag_kw; try eassumption. left. subst c. reflexivity.
  - eapply o_tag_kw; try eassumption. right. subst c. reflexivity.
  - eapply o_amp; eassumption.
  - eapply o_lbrace; eassumption.
  - eapply o_bar; eassumption.
  - eapply (o_peek sc c A1 Hu Hb "`"); eauto; [subst c; reflexivity | reflexivity | discriminate].
Qed.
